(** SipHash-2-4 as in the paper of Aumasson and Bernstein, on the state (v0, v1, v2, v3). *)
From Verif Require Import Base SHash SHash2.
Local Open Scope N_scope.

Definition quad : Type := N * N * N * N.
Definition plus64 (a b : N) : N := (a + b) mod 2 ^ 64.
Definition SipRound (v : quad) : quad :=
  let '(v0, v1, v2, v3) := v in
  let '(v0, v2) := (plus64 v0 v1, plus64 v2 v3) in
  let '(v1, v3) := (rol 64 13 v1, rol 64 16 v3) in
  let '(v1, v3) := (N.lxor v1 v0, N.lxor v3 v2) in
  let v0 := rol 64 32 v0 in
  let '(v2, v0) := (plus64 v2 v1, plus64 v0 v3) in
  let '(v1, v3) := (rol 64 17 v1, rol 64 21 v3) in
  let '(v1, v3) := (N.lxor v1 v2, N.lxor v3 v0) in
  let v2 := rol 64 32 v2 in
  (v0, v1, v2, v3).
Definition sip_init (k0 k1 : N) : quad :=
  (N.lxor k0 0x736f6d6570736575, N.lxor k1 0x646f72616e646f6d, N.lxor k0 0x6c7967656e657261, N.lxor k1 0x7465646279746573).
(** one 64-bit word: v3 ^= m; c SipRounds; v0 ^= m *)
Definition sip_word (c : nat) (v : quad) (m : N) : quad :=
  let '(v0, v1, v2, v3) := v in
  let '(v0, v1, v2, v3) := Nat.iter c SipRound (v0, v1, v2, N.lxor v3 m) in
  (N.lxor v0 m, v1, v2, v3).
(** the message, zeros, and the length mod 256 as the last byte of the last word *)
Definition sip_pad (m : bytes) : bytes := m ++ repeat 0 (N.to_nat (7 - lenN m mod 8)) ++ [lenN m mod 256].
Definition SipHash (c d : nat) (k0 k1 : N) (m : bytes) : N :=
  let '(v0, v1, v2, v3) := fold_left (sip_word c) (map le_val (blocks 8 (sip_pad m))) (sip_init k0 k1) in
  let '(v0, v1, v2, v3) := Nat.iter d SipRound (v0, v1, N.lxor v2 0xff, v3) in
  N.lxor (N.lxor (N.lxor v0 v1) v2) v3.
