(** SHA-256, SHA-512, SHA-384 and SHA-512/256: hashes/src/sha256/, hashes/src/sha512/, hashes/src/sha384/,
    hashes/src/sha512_256/, hashes/src/sha256d/ and hashes/src/sha256t/.  The portable code is here; the
    SHA-NI, SSE4.1, AVX2 and ARM versions are in MSimd.v.  The tables of rounds are transcribed line by line from the
    [round!] invocations. *)
From Verif Require Import Base MDec MHash.
Local Open Scope N_scope.

(** the constants are written in hexadecimal as in the source *)
Definition rotl (wd k x : N) : N := N.lor (N.shiftl x k mod 2 ^ wd) (N.shiftr x (wd - k)).
Definition wadd (wd a b : N) : N := (a + b) mod 2 ^ wd.
(** Ch, Maj: sha256/crypto/mod.rs:62-64, sha512/crypto.rs:12-14 *)
Definition Ch (x y z : N) : N := N.lxor z (N.land x (N.lxor y z)).
Definition Maj (x y z : N) : N := N.lor (N.land x y) (N.land z (N.lor x y)).
(** the word size and the sigma functions *)
Record sha2_ops := { wd : N; S0 : N -> N; S1 : N -> N; s0 : N -> N; s1 : N -> N }.
(** sha256/crypto/mod.rs:66-70 *)
Definition ops256 : sha2_ops := {|
  wd := 32;
  S0 := fun x => N.lxor (N.lxor (rotl 32 30 x) (rotl 32 19 x)) (rotl 32 10 x);
  S1 := fun x => N.lxor (N.lxor (rotl 32 26 x) (rotl 32 21 x)) (rotl 32 7 x);
  s0 := fun x => N.lxor (N.lxor (rotl 32 25 x) (rotl 32 14 x)) (N.shiftr x 3);
  s1 := fun x => N.lxor (N.lxor (rotl 32 15 x) (rotl 32 13 x)) (N.shiftr x 10) |}.
(** sha512/crypto.rs:16-20 *)
Definition ops512 : sha2_ops := {|
  wd := 64;
  S0 := fun x => N.lxor (N.lxor (rotl 64 36 x) (rotl 64 30 x)) (rotl 64 25 x);
  S1 := fun x => N.lxor (N.lxor (rotl 64 50 x) (rotl 64 46 x)) (rotl 64 23 x);
  s0 := fun x => N.lxor (N.lxor (rotl 64 63 x) (rotl 64 56 x)) (N.shiftr x 7);
  s1 := fun x => N.lxor (N.lxor (rotl 64 45 x) (rotl 64 3 x)) (N.shiftr x 6) |}.

(** One [round!] invocation: the variables passed as a..h (numbered 0 to 7), the constant, and the word. *)
Inductive term := TW (i : nat) | TS0 (i : nat) | TS1 (i : nat) | TC (c : N).
Inductive word := WRead (i : nat) | WConst (c : N) | WSet (i : nat) (sum : list term).
Inductive instr := Ins (ord : list nat) (k : N) (x : word).
Fixpoint upd (i : nat) (v : N) (l : list N) : list N :=
  match l, i with [], _ => [] | _ :: l', O => v :: l' | x :: l', S i' => x :: upd i' v l' end.
Section Ops.
  Variable o : sha2_ops.
  Definition term_val (w : list N) (t : term) : N :=
    match t with TW i => nth i w 0 | TS0 i => s0 o (nth i w 0) | TS1 i => s1 o (nth i w 0) | TC c => c end.
  (** a chain of wrapping_add *)
  Definition sum_val (w : list N) (ts : list term) : N :=
    match ts with [] => 0 | t :: ts => fold_left (fun a t => wadd (wd o) a (term_val w t)) ts (term_val w t) end.
  Definition word_step (w : list N) (x : word) : N * list N :=
    match x with
    | WRead i => (nth i w 0, w)
    | WConst c => (c, w)
    | WSet i ts => let v := sum_val w ts in (v, upd i v w)
    end.
  (** round!: sha256/crypto/mod.rs:79-109 (small-hash) and :119-129, sha512/crypto.rs:29-76 *)
  Definition round (ord : list nat) (k w : N) (r : list N) : list N :=
    match ord with
    | [a; b; c; d; e; f; g; h] =>
        let R i := nth i r 0 in
        let t1 := wadd (wd o) (wadd (wd o) (wadd (wd o) (wadd (wd o) (R h) (S1 o (R e))) (Ch (R e) (R f) (R g))) k) w in
        let t2 := wadd (wd o) (S0 o (R a)) (Maj (R a) (R b) (R c)) in
        upd h (wadd (wd o) t1 t2) (upd d (wadd (wd o) (R d) t1) r)
    | _ => r
    end.
  Fixpoint run (is : list instr) (st : list N * list N) : list N * list N :=
    match is with
    | [] => st
    | Ins ord k x :: is' =>
        let '(v, w) := word_step (snd st) x in
        run is' (round ord k v (fst st), w)
    end.
  Fixpoint wadd2 (a b : list N) : list N :=
    match a, b with x :: a', y :: b' => wadd (wd o) x y :: wadd2 a' b' | _, _ => [] end.
  (** from_be_bytes of each piece of [n] bytes: sha256/crypto/mod.rs:483-486, sha512/crypto.rs:86-89; copy_w :142-150
      and bytes_to_state :153-163 do the same *)
  Definition be_words (n : N) (b : bytes) : list N := map be_val (chunks_exact n b).
  (** to_be_bytes of each word *)
  Definition to_be_words (n : nat) (l : list N) : bytes := concat (map (be_bytes n) l).
  (** the body of the loops of software_process_block :482-574, update_midstate_unoptimized :203-290 and sha512 process_blocks :85-194 *)
  Definition sha2_block (table : list instr) (st : list N) (block : bytes) : list N :=
    wadd2 st (fst (run table (st, be_words (wd o / 8) block))).
End Ops.

(** the rounds of update_midstate_unoptimized sha256/crypto/mod.rs:214-280 *)
Definition sha256_const_rounds : list instr := [
  Ins [0;1;2;3;4;5;6;7]%nat 0x428a2f98 (WRead 0);
  Ins [7;0;1;2;3;4;5;6]%nat 0x71374491 (WRead 1);
  Ins [6;7;0;1;2;3;4;5]%nat 0xb5c0fbcf (WRead 2);
  Ins [5;6;7;0;1;2;3;4]%nat 0xe9b5dba5 (WRead 3);
  Ins [4;5;6;7;0;1;2;3]%nat 0x3956c25b (WRead 4);
  Ins [3;4;5;6;7;0;1;2]%nat 0x59f111f1 (WRead 5);
  Ins [2;3;4;5;6;7;0;1]%nat 0x923f82a4 (WRead 6);
  Ins [1;2;3;4;5;6;7;0]%nat 0xab1c5ed5 (WRead 7);
  Ins [0;1;2;3;4;5;6;7]%nat 0xd807aa98 (WRead 8);
  Ins [7;0;1;2;3;4;5;6]%nat 0x12835b01 (WRead 9);
  Ins [6;7;0;1;2;3;4;5]%nat 0x243185be (WRead 10);
  Ins [5;6;7;0;1;2;3;4]%nat 0x550c7dc3 (WRead 11);
  Ins [4;5;6;7;0;1;2;3]%nat 0x72be5d74 (WRead 12);
  Ins [3;4;5;6;7;0;1;2]%nat 0x80deb1fe (WRead 13);
  Ins [2;3;4;5;6;7;0;1]%nat 0x9bdc06a7 (WRead 14);
  Ins [1;2;3;4;5;6;7;0]%nat 0xc19bf174 (WRead 15);
  Ins [0;1;2;3;4;5;6;7]%nat 0xe49b69c1 (WSet 0 [TW 0; TS1 14; TW 9; TS0 1]);
  Ins [7;0;1;2;3;4;5;6]%nat 0xefbe4786 (WSet 1 [TW 1; TS1 15; TW 10; TS0 2]);
  Ins [6;7;0;1;2;3;4;5]%nat 0xfc19dc6 (WSet 2 [TW 2; TS1 0; TW 11; TS0 3]);
  Ins [5;6;7;0;1;2;3;4]%nat 0x240ca1cc (WSet 3 [TW 3; TS1 1; TW 12; TS0 4]);
  Ins [4;5;6;7;0;1;2;3]%nat 0x2de92c6f (WSet 4 [TW 4; TS1 2; TW 13; TS0 5]);
  Ins [3;4;5;6;7;0;1;2]%nat 0x4a7484aa (WSet 5 [TW 5; TS1 3; TW 14; TS0 6]);
  Ins [2;3;4;5;6;7;0;1]%nat 0x5cb0a9dc (WSet 6 [TW 6; TS1 4; TW 15; TS0 7]);
  Ins [1;2;3;4;5;6;7;0]%nat 0x76f988da (WSet 7 [TW 7; TS1 5; TW 0; TS0 8]);
  Ins [0;1;2;3;4;5;6;7]%nat 0x983e5152 (WSet 8 [TW 8; TS1 6; TW 1; TS0 9]);
  Ins [7;0;1;2;3;4;5;6]%nat 0xa831c66d (WSet 9 [TW 9; TS1 7; TW 2; TS0 10]);
  Ins [6;7;0;1;2;3;4;5]%nat 0xb00327c8 (WSet 10 [TW 10; TS1 8; TW 3; TS0 11]);
  Ins [5;6;7;0;1;2;3;4]%nat 0xbf597fc7 (WSet 11 [TW 11; TS1 9; TW 4; TS0 12]);
  Ins [4;5;6;7;0;1;2;3]%nat 0xc6e00bf3 (WSet 12 [TW 12; TS1 10; TW 5; TS0 13]);
  Ins [3;4;5;6;7;0;1;2]%nat 0xd5a79147 (WSet 13 [TW 13; TS1 11; TW 6; TS0 14]);
  Ins [2;3;4;5;6;7;0;1]%nat 0x6ca6351 (WSet 14 [TW 14; TS1 12; TW 7; TS0 15]);
  Ins [1;2;3;4;5;6;7;0]%nat 0x14292967 (WSet 15 [TW 15; TS1 13; TW 8; TS0 0]);
  Ins [0;1;2;3;4;5;6;7]%nat 0x27b70a85 (WSet 0 [TW 0; TS1 14; TW 9; TS0 1]);
  Ins [7;0;1;2;3;4;5;6]%nat 0x2e1b2138 (WSet 1 [TW 1; TS1 15; TW 10; TS0 2]);
  Ins [6;7;0;1;2;3;4;5]%nat 0x4d2c6dfc (WSet 2 [TW 2; TS1 0; TW 11; TS0 3]);
  Ins [5;6;7;0;1;2;3;4]%nat 0x53380d13 (WSet 3 [TW 3; TS1 1; TW 12; TS0 4]);
  Ins [4;5;6;7;0;1;2;3]%nat 0x650a7354 (WSet 4 [TW 4; TS1 2; TW 13; TS0 5]);
  Ins [3;4;5;6;7;0;1;2]%nat 0x766a0abb (WSet 5 [TW 5; TS1 3; TW 14; TS0 6]);
  Ins [2;3;4;5;6;7;0;1]%nat 0x81c2c92e (WSet 6 [TW 6; TS1 4; TW 15; TS0 7]);
  Ins [1;2;3;4;5;6;7;0]%nat 0x92722c85 (WSet 7 [TW 7; TS1 5; TW 0; TS0 8]);
  Ins [0;1;2;3;4;5;6;7]%nat 0xa2bfe8a1 (WSet 8 [TW 8; TS1 6; TW 1; TS0 9]);
  Ins [7;0;1;2;3;4;5;6]%nat 0xa81a664b (WSet 9 [TW 9; TS1 7; TW 2; TS0 10]);
  Ins [6;7;0;1;2;3;4;5]%nat 0xc24b8b70 (WSet 10 [TW 10; TS1 8; TW 3; TS0 11]);
  Ins [5;6;7;0;1;2;3;4]%nat 0xc76c51a3 (WSet 11 [TW 11; TS1 9; TW 4; TS0 12]);
  Ins [4;5;6;7;0;1;2;3]%nat 0xd192e819 (WSet 12 [TW 12; TS1 10; TW 5; TS0 13]);
  Ins [3;4;5;6;7;0;1;2]%nat 0xd6990624 (WSet 13 [TW 13; TS1 11; TW 6; TS0 14]);
  Ins [2;3;4;5;6;7;0;1]%nat 0xf40e3585 (WSet 14 [TW 14; TS1 12; TW 7; TS0 15]);
  Ins [1;2;3;4;5;6;7;0]%nat 0x106aa070 (WSet 15 [TW 15; TS1 13; TW 8; TS0 0]);
  Ins [0;1;2;3;4;5;6;7]%nat 0x19a4c116 (WSet 0 [TW 0; TS1 14; TW 9; TS0 1]);
  Ins [7;0;1;2;3;4;5;6]%nat 0x1e376c08 (WSet 1 [TW 1; TS1 15; TW 10; TS0 2]);
  Ins [6;7;0;1;2;3;4;5]%nat 0x2748774c (WSet 2 [TW 2; TS1 0; TW 11; TS0 3]);
  Ins [5;6;7;0;1;2;3;4]%nat 0x34b0bcb5 (WSet 3 [TW 3; TS1 1; TW 12; TS0 4]);
  Ins [4;5;6;7;0;1;2;3]%nat 0x391c0cb3 (WSet 4 [TW 4; TS1 2; TW 13; TS0 5]);
  Ins [3;4;5;6;7;0;1;2]%nat 0x4ed8aa4a (WSet 5 [TW 5; TS1 3; TW 14; TS0 6]);
  Ins [2;3;4;5;6;7;0;1]%nat 0x5b9cca4f (WSet 6 [TW 6; TS1 4; TW 15; TS0 7]);
  Ins [1;2;3;4;5;6;7;0]%nat 0x682e6ff3 (WSet 7 [TW 7; TS1 5; TW 0; TS0 8]);
  Ins [0;1;2;3;4;5;6;7]%nat 0x748f82ee (WSet 8 [TW 8; TS1 6; TW 1; TS0 9]);
  Ins [7;0;1;2;3;4;5;6]%nat 0x78a5636f (WSet 9 [TW 9; TS1 7; TW 2; TS0 10]);
  Ins [6;7;0;1;2;3;4;5]%nat 0x84c87814 (WSet 10 [TW 10; TS1 8; TW 3; TS0 11]);
  Ins [5;6;7;0;1;2;3;4]%nat 0x8cc70208 (WSet 11 [TW 11; TS1 9; TW 4; TS0 12]);
  Ins [4;5;6;7;0;1;2;3]%nat 0x90befffa (WSet 12 [TW 12; TS1 10; TW 5; TS0 13]);
  Ins [3;4;5;6;7;0;1;2]%nat 0xa4506ceb (WSet 13 [TW 13; TS1 11; TW 6; TS0 14]);
  Ins [2;3;4;5;6;7;0;1]%nat 0xbef9a3f7 (WSet 14 [TW 14; TS1 12; TW 7; TS0 15]);
  Ins [1;2;3;4;5;6;7;0]%nat 0xc67178f2 (WSet 15 [TW 15; TS1 13; TW 8; TS0 0])].

(** the rounds of software_process_block sha256/crypto/mod.rs:497-563 *)
Definition sha256_rounds : list instr := [
  Ins [0;1;2;3;4;5;6;7]%nat 0x428a2f98 (WRead 0);
  Ins [7;0;1;2;3;4;5;6]%nat 0x71374491 (WRead 1);
  Ins [6;7;0;1;2;3;4;5]%nat 0xb5c0fbcf (WRead 2);
  Ins [5;6;7;0;1;2;3;4]%nat 0xe9b5dba5 (WRead 3);
  Ins [4;5;6;7;0;1;2;3]%nat 0x3956c25b (WRead 4);
  Ins [3;4;5;6;7;0;1;2]%nat 0x59f111f1 (WRead 5);
  Ins [2;3;4;5;6;7;0;1]%nat 0x923f82a4 (WRead 6);
  Ins [1;2;3;4;5;6;7;0]%nat 0xab1c5ed5 (WRead 7);
  Ins [0;1;2;3;4;5;6;7]%nat 0xd807aa98 (WRead 8);
  Ins [7;0;1;2;3;4;5;6]%nat 0x12835b01 (WRead 9);
  Ins [6;7;0;1;2;3;4;5]%nat 0x243185be (WRead 10);
  Ins [5;6;7;0;1;2;3;4]%nat 0x550c7dc3 (WRead 11);
  Ins [4;5;6;7;0;1;2;3]%nat 0x72be5d74 (WRead 12);
  Ins [3;4;5;6;7;0;1;2]%nat 0x80deb1fe (WRead 13);
  Ins [2;3;4;5;6;7;0;1]%nat 0x9bdc06a7 (WRead 14);
  Ins [1;2;3;4;5;6;7;0]%nat 0xc19bf174 (WRead 15);
  Ins [0;1;2;3;4;5;6;7]%nat 0xe49b69c1 (WSet 0 [TW 0; TS1 14; TW 9; TS0 1]);
  Ins [7;0;1;2;3;4;5;6]%nat 0xefbe4786 (WSet 1 [TW 1; TS1 15; TW 10; TS0 2]);
  Ins [6;7;0;1;2;3;4;5]%nat 0xfc19dc6 (WSet 2 [TW 2; TS1 0; TW 11; TS0 3]);
  Ins [5;6;7;0;1;2;3;4]%nat 0x240ca1cc (WSet 3 [TW 3; TS1 1; TW 12; TS0 4]);
  Ins [4;5;6;7;0;1;2;3]%nat 0x2de92c6f (WSet 4 [TW 4; TS1 2; TW 13; TS0 5]);
  Ins [3;4;5;6;7;0;1;2]%nat 0x4a7484aa (WSet 5 [TW 5; TS1 3; TW 14; TS0 6]);
  Ins [2;3;4;5;6;7;0;1]%nat 0x5cb0a9dc (WSet 6 [TW 6; TS1 4; TW 15; TS0 7]);
  Ins [1;2;3;4;5;6;7;0]%nat 0x76f988da (WSet 7 [TW 7; TS1 5; TW 0; TS0 8]);
  Ins [0;1;2;3;4;5;6;7]%nat 0x983e5152 (WSet 8 [TW 8; TS1 6; TW 1; TS0 9]);
  Ins [7;0;1;2;3;4;5;6]%nat 0xa831c66d (WSet 9 [TW 9; TS1 7; TW 2; TS0 10]);
  Ins [6;7;0;1;2;3;4;5]%nat 0xb00327c8 (WSet 10 [TW 10; TS1 8; TW 3; TS0 11]);
  Ins [5;6;7;0;1;2;3;4]%nat 0xbf597fc7 (WSet 11 [TW 11; TS1 9; TW 4; TS0 12]);
  Ins [4;5;6;7;0;1;2;3]%nat 0xc6e00bf3 (WSet 12 [TW 12; TS1 10; TW 5; TS0 13]);
  Ins [3;4;5;6;7;0;1;2]%nat 0xd5a79147 (WSet 13 [TW 13; TS1 11; TW 6; TS0 14]);
  Ins [2;3;4;5;6;7;0;1]%nat 0x6ca6351 (WSet 14 [TW 14; TS1 12; TW 7; TS0 15]);
  Ins [1;2;3;4;5;6;7;0]%nat 0x14292967 (WSet 15 [TW 15; TS1 13; TW 8; TS0 0]);
  Ins [0;1;2;3;4;5;6;7]%nat 0x27b70a85 (WSet 0 [TW 0; TS1 14; TW 9; TS0 1]);
  Ins [7;0;1;2;3;4;5;6]%nat 0x2e1b2138 (WSet 1 [TW 1; TS1 15; TW 10; TS0 2]);
  Ins [6;7;0;1;2;3;4;5]%nat 0x4d2c6dfc (WSet 2 [TW 2; TS1 0; TW 11; TS0 3]);
  Ins [5;6;7;0;1;2;3;4]%nat 0x53380d13 (WSet 3 [TW 3; TS1 1; TW 12; TS0 4]);
  Ins [4;5;6;7;0;1;2;3]%nat 0x650a7354 (WSet 4 [TW 4; TS1 2; TW 13; TS0 5]);
  Ins [3;4;5;6;7;0;1;2]%nat 0x766a0abb (WSet 5 [TW 5; TS1 3; TW 14; TS0 6]);
  Ins [2;3;4;5;6;7;0;1]%nat 0x81c2c92e (WSet 6 [TW 6; TS1 4; TW 15; TS0 7]);
  Ins [1;2;3;4;5;6;7;0]%nat 0x92722c85 (WSet 7 [TW 7; TS1 5; TW 0; TS0 8]);
  Ins [0;1;2;3;4;5;6;7]%nat 0xa2bfe8a1 (WSet 8 [TW 8; TS1 6; TW 1; TS0 9]);
  Ins [7;0;1;2;3;4;5;6]%nat 0xa81a664b (WSet 9 [TW 9; TS1 7; TW 2; TS0 10]);
  Ins [6;7;0;1;2;3;4;5]%nat 0xc24b8b70 (WSet 10 [TW 10; TS1 8; TW 3; TS0 11]);
  Ins [5;6;7;0;1;2;3;4]%nat 0xc76c51a3 (WSet 11 [TW 11; TS1 9; TW 4; TS0 12]);
  Ins [4;5;6;7;0;1;2;3]%nat 0xd192e819 (WSet 12 [TW 12; TS1 10; TW 5; TS0 13]);
  Ins [3;4;5;6;7;0;1;2]%nat 0xd6990624 (WSet 13 [TW 13; TS1 11; TW 6; TS0 14]);
  Ins [2;3;4;5;6;7;0;1]%nat 0xf40e3585 (WSet 14 [TW 14; TS1 12; TW 7; TS0 15]);
  Ins [1;2;3;4;5;6;7;0]%nat 0x106aa070 (WSet 15 [TW 15; TS1 13; TW 8; TS0 0]);
  Ins [0;1;2;3;4;5;6;7]%nat 0x19a4c116 (WSet 0 [TW 0; TS1 14; TW 9; TS0 1]);
  Ins [7;0;1;2;3;4;5;6]%nat 0x1e376c08 (WSet 1 [TW 1; TS1 15; TW 10; TS0 2]);
  Ins [6;7;0;1;2;3;4;5]%nat 0x2748774c (WSet 2 [TW 2; TS1 0; TW 11; TS0 3]);
  Ins [5;6;7;0;1;2;3;4]%nat 0x34b0bcb5 (WSet 3 [TW 3; TS1 1; TW 12; TS0 4]);
  Ins [4;5;6;7;0;1;2;3]%nat 0x391c0cb3 (WSet 4 [TW 4; TS1 2; TW 13; TS0 5]);
  Ins [3;4;5;6;7;0;1;2]%nat 0x4ed8aa4a (WSet 5 [TW 5; TS1 3; TW 14; TS0 6]);
  Ins [2;3;4;5;6;7;0;1]%nat 0x5b9cca4f (WSet 6 [TW 6; TS1 4; TW 15; TS0 7]);
  Ins [1;2;3;4;5;6;7;0]%nat 0x682e6ff3 (WSet 7 [TW 7; TS1 5; TW 0; TS0 8]);
  Ins [0;1;2;3;4;5;6;7]%nat 0x748f82ee (WSet 8 [TW 8; TS1 6; TW 1; TS0 9]);
  Ins [7;0;1;2;3;4;5;6]%nat 0x78a5636f (WSet 9 [TW 9; TS1 7; TW 2; TS0 10]);
  Ins [6;7;0;1;2;3;4;5]%nat 0x84c87814 (WSet 10 [TW 10; TS1 8; TW 3; TS0 11]);
  Ins [5;6;7;0;1;2;3;4]%nat 0x8cc70208 (WSet 11 [TW 11; TS1 9; TW 4; TS0 12]);
  Ins [4;5;6;7;0;1;2;3]%nat 0x90befffa (WSet 12 [TW 12; TS1 10; TW 5; TS0 13]);
  Ins [3;4;5;6;7;0;1;2]%nat 0xa4506ceb (WSet 13 [TW 13; TS1 11; TW 6; TS0 14]);
  Ins [2;3;4;5;6;7;0;1]%nat 0xbef9a3f7 (WSet 14 [TW 14; TS1 12; TW 7; TS0 15]);
  Ins [1;2;3;4;5;6;7;0]%nat 0xc67178f2 (WSet 15 [TW 15; TS1 13; TW 8; TS0 0])].

(** software_sha256d_64, transform 1: sha256/crypto/mod.rs:594-661 *)
Definition d64_rounds1 : list instr := [
  Ins [0;1;2;3;4;5;6;7]%nat 0x428a2f98 (WRead 0);
  Ins [7;0;1;2;3;4;5;6]%nat 0x71374491 (WRead 1);
  Ins [6;7;0;1;2;3;4;5]%nat 0xb5c0fbcf (WRead 2);
  Ins [5;6;7;0;1;2;3;4]%nat 0xe9b5dba5 (WRead 3);
  Ins [4;5;6;7;0;1;2;3]%nat 0x3956c25b (WRead 4);
  Ins [3;4;5;6;7;0;1;2]%nat 0x59f111f1 (WRead 5);
  Ins [2;3;4;5;6;7;0;1]%nat 0x923f82a4 (WRead 6);
  Ins [1;2;3;4;5;6;7;0]%nat 0xab1c5ed5 (WRead 7);
  Ins [0;1;2;3;4;5;6;7]%nat 0xd807aa98 (WRead 8);
  Ins [7;0;1;2;3;4;5;6]%nat 0x12835b01 (WRead 9);
  Ins [6;7;0;1;2;3;4;5]%nat 0x243185be (WRead 10);
  Ins [5;6;7;0;1;2;3;4]%nat 0x550c7dc3 (WRead 11);
  Ins [4;5;6;7;0;1;2;3]%nat 0x72be5d74 (WRead 12);
  Ins [3;4;5;6;7;0;1;2]%nat 0x80deb1fe (WRead 13);
  Ins [2;3;4;5;6;7;0;1]%nat 0x9bdc06a7 (WRead 14);
  Ins [1;2;3;4;5;6;7;0]%nat 0xc19bf174 (WRead 15);
  Ins [0;1;2;3;4;5;6;7]%nat 0xe49b69c1 (WSet 0 [TW 0; TS1 14; TW 9; TS0 1]);
  Ins [7;0;1;2;3;4;5;6]%nat 0xefbe4786 (WSet 1 [TW 1; TS1 15; TW 10; TS0 2]);
  Ins [6;7;0;1;2;3;4;5]%nat 0xfc19dc6 (WSet 2 [TW 2; TS1 0; TW 11; TS0 3]);
  Ins [5;6;7;0;1;2;3;4]%nat 0x240ca1cc (WSet 3 [TW 3; TS1 1; TW 12; TS0 4]);
  Ins [4;5;6;7;0;1;2;3]%nat 0x2de92c6f (WSet 4 [TW 4; TS1 2; TW 13; TS0 5]);
  Ins [3;4;5;6;7;0;1;2]%nat 0x4a7484aa (WSet 5 [TW 5; TS1 3; TW 14; TS0 6]);
  Ins [2;3;4;5;6;7;0;1]%nat 0x5cb0a9dc (WSet 6 [TW 6; TS1 4; TW 15; TS0 7]);
  Ins [1;2;3;4;5;6;7;0]%nat 0x76f988da (WSet 7 [TW 7; TS1 5; TW 0; TS0 8]);
  Ins [0;1;2;3;4;5;6;7]%nat 0x983e5152 (WSet 8 [TW 8; TS1 6; TW 1; TS0 9]);
  Ins [7;0;1;2;3;4;5;6]%nat 0xa831c66d (WSet 9 [TW 9; TS1 7; TW 2; TS0 10]);
  Ins [6;7;0;1;2;3;4;5]%nat 0xb00327c8 (WSet 10 [TW 10; TS1 8; TW 3; TS0 11]);
  Ins [5;6;7;0;1;2;3;4]%nat 0xbf597fc7 (WSet 11 [TW 11; TS1 9; TW 4; TS0 12]);
  Ins [4;5;6;7;0;1;2;3]%nat 0xc6e00bf3 (WSet 12 [TW 12; TS1 10; TW 5; TS0 13]);
  Ins [3;4;5;6;7;0;1;2]%nat 0xd5a79147 (WSet 13 [TW 13; TS1 11; TW 6; TS0 14]);
  Ins [2;3;4;5;6;7;0;1]%nat 0x6ca6351 (WSet 14 [TW 14; TS1 12; TW 7; TS0 15]);
  Ins [1;2;3;4;5;6;7;0]%nat 0x14292967 (WSet 15 [TW 15; TS1 13; TW 8; TS0 0]);
  Ins [0;1;2;3;4;5;6;7]%nat 0x27b70a85 (WSet 0 [TW 0; TS1 14; TW 9; TS0 1]);
  Ins [7;0;1;2;3;4;5;6]%nat 0x2e1b2138 (WSet 1 [TW 1; TS1 15; TW 10; TS0 2]);
  Ins [6;7;0;1;2;3;4;5]%nat 0x4d2c6dfc (WSet 2 [TW 2; TS1 0; TW 11; TS0 3]);
  Ins [5;6;7;0;1;2;3;4]%nat 0x53380d13 (WSet 3 [TW 3; TS1 1; TW 12; TS0 4]);
  Ins [4;5;6;7;0;1;2;3]%nat 0x650a7354 (WSet 4 [TW 4; TS1 2; TW 13; TS0 5]);
  Ins [3;4;5;6;7;0;1;2]%nat 0x766a0abb (WSet 5 [TW 5; TS1 3; TW 14; TS0 6]);
  Ins [2;3;4;5;6;7;0;1]%nat 0x81c2c92e (WSet 6 [TW 6; TS1 4; TW 15; TS0 7]);
  Ins [1;2;3;4;5;6;7;0]%nat 0x92722c85 (WSet 7 [TW 7; TS1 5; TW 0; TS0 8]);
  Ins [0;1;2;3;4;5;6;7]%nat 0xa2bfe8a1 (WSet 8 [TW 8; TS1 6; TW 1; TS0 9]);
  Ins [7;0;1;2;3;4;5;6]%nat 0xa81a664b (WSet 9 [TW 9; TS1 7; TW 2; TS0 10]);
  Ins [6;7;0;1;2;3;4;5]%nat 0xc24b8b70 (WSet 10 [TW 10; TS1 8; TW 3; TS0 11]);
  Ins [5;6;7;0;1;2;3;4]%nat 0xc76c51a3 (WSet 11 [TW 11; TS1 9; TW 4; TS0 12]);
  Ins [4;5;6;7;0;1;2;3]%nat 0xd192e819 (WSet 12 [TW 12; TS1 10; TW 5; TS0 13]);
  Ins [3;4;5;6;7;0;1;2]%nat 0xd6990624 (WSet 13 [TW 13; TS1 11; TW 6; TS0 14]);
  Ins [2;3;4;5;6;7;0;1]%nat 0xf40e3585 (WSet 14 [TW 14; TS1 12; TW 7; TS0 15]);
  Ins [1;2;3;4;5;6;7;0]%nat 0x106aa070 (WSet 15 [TW 15; TS1 13; TW 8; TS0 0]);
  Ins [0;1;2;3;4;5;6;7]%nat 0x19a4c116 (WSet 0 [TW 0; TS1 14; TW 9; TS0 1]);
  Ins [7;0;1;2;3;4;5;6]%nat 0x1e376c08 (WSet 1 [TW 1; TS1 15; TW 10; TS0 2]);
  Ins [6;7;0;1;2;3;4;5]%nat 0x2748774c (WSet 2 [TW 2; TS1 0; TW 11; TS0 3]);
  Ins [5;6;7;0;1;2;3;4]%nat 0x34b0bcb5 (WSet 3 [TW 3; TS1 1; TW 12; TS0 4]);
  Ins [4;5;6;7;0;1;2;3]%nat 0x391c0cb3 (WSet 4 [TW 4; TS1 2; TW 13; TS0 5]);
  Ins [3;4;5;6;7;0;1;2]%nat 0x4ed8aa4a (WSet 5 [TW 5; TS1 3; TW 14; TS0 6]);
  Ins [2;3;4;5;6;7;0;1]%nat 0x5b9cca4f (WSet 6 [TW 6; TS1 4; TW 15; TS0 7]);
  Ins [1;2;3;4;5;6;7;0]%nat 0x682e6ff3 (WSet 7 [TW 7; TS1 5; TW 0; TS0 8]);
  Ins [0;1;2;3;4;5;6;7]%nat 0x748f82ee (WSet 8 [TW 8; TS1 6; TW 1; TS0 9]);
  Ins [7;0;1;2;3;4;5;6]%nat 0x78a5636f (WSet 9 [TW 9; TS1 7; TW 2; TS0 10]);
  Ins [6;7;0;1;2;3;4;5]%nat 0x84c87814 (WSet 10 [TW 10; TS1 8; TW 3; TS0 11]);
  Ins [5;6;7;0;1;2;3;4]%nat 0x8cc70208 (WSet 11 [TW 11; TS1 9; TW 4; TS0 12]);
  Ins [4;5;6;7;0;1;2;3]%nat 0x90befffa (WSet 12 [TW 12; TS1 10; TW 5; TS0 13]);
  Ins [3;4;5;6;7;0;1;2]%nat 0xa4506ceb (WSet 13 [TW 13; TS1 11; TW 6; TS0 14]);
  Ins [2;3;4;5;6;7;0;1]%nat 0xbef9a3f7 (WSet 14 [TW 14; TS1 12; TW 7; TS0 15]);
  Ins [1;2;3;4;5;6;7;0]%nat 0xc67178f2 (WSet 15 [TW 15; TS1 13; TW 8; TS0 0])].

(** transform 2: sha256/crypto/mod.rs:676-739 *)
Definition d64_rounds2 : list instr := [
  Ins [0;1;2;3;4;5;6;7]%nat 0xc28a2f98 (WConst 0);
  Ins [7;0;1;2;3;4;5;6]%nat 0x71374491 (WConst 0);
  Ins [6;7;0;1;2;3;4;5]%nat 0xb5c0fbcf (WConst 0);
  Ins [5;6;7;0;1;2;3;4]%nat 0xe9b5dba5 (WConst 0);
  Ins [4;5;6;7;0;1;2;3]%nat 0x3956c25b (WConst 0);
  Ins [3;4;5;6;7;0;1;2]%nat 0x59f111f1 (WConst 0);
  Ins [2;3;4;5;6;7;0;1]%nat 0x923f82a4 (WConst 0);
  Ins [1;2;3;4;5;6;7;0]%nat 0xab1c5ed5 (WConst 0);
  Ins [0;1;2;3;4;5;6;7]%nat 0xd807aa98 (WConst 0);
  Ins [7;0;1;2;3;4;5;6]%nat 0x12835b01 (WConst 0);
  Ins [6;7;0;1;2;3;4;5]%nat 0x243185be (WConst 0);
  Ins [5;6;7;0;1;2;3;4]%nat 0x550c7dc3 (WConst 0);
  Ins [4;5;6;7;0;1;2;3]%nat 0x72be5d74 (WConst 0);
  Ins [3;4;5;6;7;0;1;2]%nat 0x80deb1fe (WConst 0);
  Ins [2;3;4;5;6;7;0;1]%nat 0x9bdc06a7 (WConst 0);
  Ins [1;2;3;4;5;6;7;0]%nat 0xc19bf374 (WConst 0);
  Ins [0;1;2;3;4;5;6;7]%nat 0x649b69c1 (WConst 0);
  Ins [7;0;1;2;3;4;5;6]%nat 0xf0fe4786 (WConst 0);
  Ins [6;7;0;1;2;3;4;5]%nat 0xfe1edc6 (WConst 0);
  Ins [5;6;7;0;1;2;3;4]%nat 0x240cf254 (WConst 0);
  Ins [4;5;6;7;0;1;2;3]%nat 0x4fe9346f (WConst 0);
  Ins [3;4;5;6;7;0;1;2]%nat 0x6cc984be (WConst 0);
  Ins [2;3;4;5;6;7;0;1]%nat 0x61b9411e (WConst 0);
  Ins [1;2;3;4;5;6;7;0]%nat 0x16f988fa (WConst 0);
  Ins [0;1;2;3;4;5;6;7]%nat 0xf2c65152 (WConst 0);
  Ins [7;0;1;2;3;4;5;6]%nat 0xa88e5a6d (WConst 0);
  Ins [6;7;0;1;2;3;4;5]%nat 0xb019fc65 (WConst 0);
  Ins [5;6;7;0;1;2;3;4]%nat 0xb9d99ec7 (WConst 0);
  Ins [4;5;6;7;0;1;2;3]%nat 0x9a1231c3 (WConst 0);
  Ins [3;4;5;6;7;0;1;2]%nat 0xe70eeaa0 (WConst 0);
  Ins [2;3;4;5;6;7;0;1]%nat 0xfdb1232b (WConst 0);
  Ins [1;2;3;4;5;6;7;0]%nat 0xc7353eb0 (WConst 0);
  Ins [0;1;2;3;4;5;6;7]%nat 0x3069bad5 (WConst 0);
  Ins [7;0;1;2;3;4;5;6]%nat 0xcb976d5f (WConst 0);
  Ins [6;7;0;1;2;3;4;5]%nat 0x5a0f118f (WConst 0);
  Ins [5;6;7;0;1;2;3;4]%nat 0xdc1eeefd (WConst 0);
  Ins [4;5;6;7;0;1;2;3]%nat 0xa35b689 (WConst 0);
  Ins [3;4;5;6;7;0;1;2]%nat 0xde0b7a04 (WConst 0);
  Ins [2;3;4;5;6;7;0;1]%nat 0x58f4ca9d (WConst 0);
  Ins [1;2;3;4;5;6;7;0]%nat 0xe15d5b16 (WConst 0);
  Ins [0;1;2;3;4;5;6;7]%nat 0x7f3e86 (WConst 0);
  Ins [7;0;1;2;3;4;5;6]%nat 0x37088980 (WConst 0);
  Ins [6;7;0;1;2;3;4;5]%nat 0xa507ea32 (WConst 0);
  Ins [5;6;7;0;1;2;3;4]%nat 0x6fab9537 (WConst 0);
  Ins [4;5;6;7;0;1;2;3]%nat 0x17406110 (WConst 0);
  Ins [3;4;5;6;7;0;1;2]%nat 0xd8cd6f1 (WConst 0);
  Ins [2;3;4;5;6;7;0;1]%nat 0xcdaa3b6d (WConst 0);
  Ins [1;2;3;4;5;6;7;0]%nat 0xc0bbbe37 (WConst 0);
  Ins [0;1;2;3;4;5;6;7]%nat 0x83613bda (WConst 0);
  Ins [7;0;1;2;3;4;5;6]%nat 0xdb48a363 (WConst 0);
  Ins [6;7;0;1;2;3;4;5]%nat 0xb02e931 (WConst 0);
  Ins [5;6;7;0;1;2;3;4]%nat 0x6fd15ca7 (WConst 0);
  Ins [4;5;6;7;0;1;2;3]%nat 0x521afaca (WConst 0);
  Ins [3;4;5;6;7;0;1;2]%nat 0x31338431 (WConst 0);
  Ins [2;3;4;5;6;7;0;1]%nat 0x6ed41a95 (WConst 0);
  Ins [1;2;3;4;5;6;7;0]%nat 0x6d437890 (WConst 0);
  Ins [0;1;2;3;4;5;6;7]%nat 0xc39c91f2 (WConst 0);
  Ins [7;0;1;2;3;4;5;6]%nat 0x9eccabbd (WConst 0);
  Ins [6;7;0;1;2;3;4;5]%nat 0xb5c9a0e6 (WConst 0);
  Ins [5;6;7;0;1;2;3;4]%nat 0x532fb63c (WConst 0);
  Ins [4;5;6;7;0;1;2;3]%nat 0xd2c741c6 (WConst 0);
  Ins [3;4;5;6;7;0;1;2]%nat 0x7237ea3 (WConst 0);
  Ins [2;3;4;5;6;7;0;1]%nat 0xa4954b68 (WConst 0);
  Ins [1;2;3;4;5;6;7;0]%nat 0x4c191d76 (WConst 0)].

(** transform 3: sha256/crypto/mod.rs:762-829; a block [{ w[i] = e; w[i] }] is [WSet i e] *)
Definition d64_rounds3 : list instr := [
  Ins [0;1;2;3;4;5;6;7]%nat 0x428a2f98 (WRead 0);
  Ins [7;0;1;2;3;4;5;6]%nat 0x71374491 (WRead 1);
  Ins [6;7;0;1;2;3;4;5]%nat 0xb5c0fbcf (WRead 2);
  Ins [5;6;7;0;1;2;3;4]%nat 0xe9b5dba5 (WRead 3);
  Ins [4;5;6;7;0;1;2;3]%nat 0x3956c25b (WRead 4);
  Ins [3;4;5;6;7;0;1;2]%nat 0x59f111f1 (WRead 5);
  Ins [2;3;4;5;6;7;0;1]%nat 0x923f82a4 (WRead 6);
  Ins [1;2;3;4;5;6;7;0]%nat 0xab1c5ed5 (WRead 7);
  Ins [0;1;2;3;4;5;6;7]%nat 0x5807aa98 (WConst 0);
  Ins [7;0;1;2;3;4;5;6]%nat 0x12835b01 (WConst 0);
  Ins [6;7;0;1;2;3;4;5]%nat 0x243185be (WConst 0);
  Ins [5;6;7;0;1;2;3;4]%nat 0x550c7dc3 (WConst 0);
  Ins [4;5;6;7;0;1;2;3]%nat 0x72be5d74 (WConst 0);
  Ins [3;4;5;6;7;0;1;2]%nat 0x80deb1fe (WConst 0);
  Ins [2;3;4;5;6;7;0;1]%nat 0x9bdc06a7 (WConst 0);
  Ins [1;2;3;4;5;6;7;0]%nat 0xc19bf274 (WConst 0);
  Ins [0;1;2;3;4;5;6;7]%nat 0xe49b69c1 (WSet 0 [TW 0; TS0 1]);
  Ins [7;0;1;2;3;4;5;6]%nat 0xefbe4786 (WSet 1 [TW 1; TC 0xa00000; TS0 2]);
  Ins [6;7;0;1;2;3;4;5]%nat 0xfc19dc6 (WSet 2 [TW 2; TS1 0; TS0 3]);
  Ins [5;6;7;0;1;2;3;4]%nat 0x240ca1cc (WSet 3 [TW 3; TS1 1; TS0 4]);
  Ins [4;5;6;7;0;1;2;3]%nat 0x2de92c6f (WSet 4 [TW 4; TS1 2; TS0 5]);
  Ins [3;4;5;6;7;0;1;2]%nat 0x4a7484aa (WSet 5 [TW 5; TS1 3; TS0 6]);
  Ins [2;3;4;5;6;7;0;1]%nat 0x5cb0a9dc (WSet 6 [TW 6; TS1 4; TC 0x100; TS0 7]);
  Ins [1;2;3;4;5;6;7;0]%nat 0x76f988da (WSet 7 [TW 7; TS1 5; TW 0; TC 0x11002000]);
  Ins [0;1;2;3;4;5;6;7]%nat 0x983e5152 (WSet 8 [TS1 6; TW 1; TC 0x80000000]);
  Ins [7;0;1;2;3;4;5;6]%nat 0xa831c66d (WSet 9 [TS1 7; TW 2]);
  Ins [6;7;0;1;2;3;4;5]%nat 0xb00327c8 (WSet 10 [TS1 8; TW 3]);
  Ins [5;6;7;0;1;2;3;4]%nat 0xbf597fc7 (WSet 11 [TS1 9; TW 4]);
  Ins [4;5;6;7;0;1;2;3]%nat 0xc6e00bf3 (WSet 12 [TS1 10; TW 5]);
  Ins [3;4;5;6;7;0;1;2]%nat 0xd5a79147 (WSet 13 [TS1 11; TW 6]);
  Ins [2;3;4;5;6;7;0;1]%nat 0x6ca6351 (WSet 14 [TS1 12; TW 7; TC 0x400022]);
  Ins [1;2;3;4;5;6;7;0]%nat 0x14292967 (WSet 15 [TS1 13; TW 8; TS0 0; TC 0x100]);
  Ins [0;1;2;3;4;5;6;7]%nat 0x27b70a85 (WSet 0 [TW 0; TS1 14; TW 9; TS0 1]);
  Ins [7;0;1;2;3;4;5;6]%nat 0x2e1b2138 (WSet 1 [TW 1; TS1 15; TW 10; TS0 2]);
  Ins [6;7;0;1;2;3;4;5]%nat 0x4d2c6dfc (WSet 2 [TW 2; TS1 0; TW 11; TS0 3]);
  Ins [5;6;7;0;1;2;3;4]%nat 0x53380d13 (WSet 3 [TW 3; TS1 1; TW 12; TS0 4]);
  Ins [4;5;6;7;0;1;2;3]%nat 0x650a7354 (WSet 4 [TW 4; TS1 2; TW 13; TS0 5]);
  Ins [3;4;5;6;7;0;1;2]%nat 0x766a0abb (WSet 5 [TW 5; TS1 3; TW 14; TS0 6]);
  Ins [2;3;4;5;6;7;0;1]%nat 0x81c2c92e (WSet 6 [TW 6; TS1 4; TW 15; TS0 7]);
  Ins [1;2;3;4;5;6;7;0]%nat 0x92722c85 (WSet 7 [TW 7; TS1 5; TW 0; TS0 8]);
  Ins [0;1;2;3;4;5;6;7]%nat 0xa2bfe8a1 (WSet 8 [TW 8; TS1 6; TW 1; TS0 9]);
  Ins [7;0;1;2;3;4;5;6]%nat 0xa81a664b (WSet 9 [TW 9; TS1 7; TW 2; TS0 10]);
  Ins [6;7;0;1;2;3;4;5]%nat 0xc24b8b70 (WSet 10 [TW 10; TS1 8; TW 3; TS0 11]);
  Ins [5;6;7;0;1;2;3;4]%nat 0xc76c51a3 (WSet 11 [TW 11; TS1 9; TW 4; TS0 12]);
  Ins [4;5;6;7;0;1;2;3]%nat 0xd192e819 (WSet 12 [TW 12; TS1 10; TW 5; TS0 13]);
  Ins [3;4;5;6;7;0;1;2]%nat 0xd6990624 (WSet 13 [TW 13; TS1 11; TW 6; TS0 14]);
  Ins [2;3;4;5;6;7;0;1]%nat 0xf40e3585 (WSet 14 [TW 14; TS1 12; TW 7; TS0 15]);
  Ins [1;2;3;4;5;6;7;0]%nat 0x106aa070 (WSet 15 [TW 15; TS1 13; TW 8; TS0 0]);
  Ins [0;1;2;3;4;5;6;7]%nat 0x19a4c116 (WSet 0 [TW 0; TS1 14; TW 9; TS0 1]);
  Ins [7;0;1;2;3;4;5;6]%nat 0x1e376c08 (WSet 1 [TW 1; TS1 15; TW 10; TS0 2]);
  Ins [6;7;0;1;2;3;4;5]%nat 0x2748774c (WSet 2 [TW 2; TS1 0; TW 11; TS0 3]);
  Ins [5;6;7;0;1;2;3;4]%nat 0x34b0bcb5 (WSet 3 [TW 3; TS1 1; TW 12; TS0 4]);
  Ins [4;5;6;7;0;1;2;3]%nat 0x391c0cb3 (WSet 4 [TW 4; TS1 2; TW 13; TS0 5]);
  Ins [3;4;5;6;7;0;1;2]%nat 0x4ed8aa4a (WSet 5 [TW 5; TS1 3; TW 14; TS0 6]);
  Ins [2;3;4;5;6;7;0;1]%nat 0x5b9cca4f (WSet 6 [TW 6; TS1 4; TW 15; TS0 7]);
  Ins [1;2;3;4;5;6;7;0]%nat 0x682e6ff3 (WSet 7 [TW 7; TS1 5; TW 0; TS0 8]);
  Ins [0;1;2;3;4;5;6;7]%nat 0x748f82ee (WSet 8 [TW 8; TS1 6; TW 1; TS0 9]);
  Ins [7;0;1;2;3;4;5;6]%nat 0x78a5636f (WSet 9 [TW 9; TS1 7; TW 2; TS0 10]);
  Ins [6;7;0;1;2;3;4;5]%nat 0x84c87814 (WSet 10 [TW 10; TS1 8; TW 3; TS0 11]);
  Ins [5;6;7;0;1;2;3;4]%nat 0x8cc70208 (WSet 11 [TW 11; TS1 9; TW 4; TS0 12]);
  Ins [4;5;6;7;0;1;2;3]%nat 0x90befffa (WSet 12 [TW 12; TS1 10; TW 5; TS0 13]);
  Ins [3;4;5;6;7;0;1;2]%nat 0xa4506ceb (WSet 13 [TW 13; TS1 11; TW 6; TS0 14]);
  Ins [2;3;4;5;6;7;0;1]%nat 0xbef9a3f7 (WSet 14 [TW 14; TS1 12; TW 7; TS0 15]);
  Ins [1;2;3;4;5;6;7;0]%nat 0xc67178f2 (WSet 15 [TW 15; TS1 13; TW 8; TS0 0])].

(** the rounds of process_blocks sha512/crypto.rs:100-183 *)
Definition sha512_rounds : list instr := [
  Ins [0;1;2;3;4;5;6;7]%nat 0x428a2f98d728ae22 (WRead 0);
  Ins [7;0;1;2;3;4;5;6]%nat 0x7137449123ef65cd (WRead 1);
  Ins [6;7;0;1;2;3;4;5]%nat 0xb5c0fbcfec4d3b2f (WRead 2);
  Ins [5;6;7;0;1;2;3;4]%nat 0xe9b5dba58189dbbc (WRead 3);
  Ins [4;5;6;7;0;1;2;3]%nat 0x3956c25bf348b538 (WRead 4);
  Ins [3;4;5;6;7;0;1;2]%nat 0x59f111f1b605d019 (WRead 5);
  Ins [2;3;4;5;6;7;0;1]%nat 0x923f82a4af194f9b (WRead 6);
  Ins [1;2;3;4;5;6;7;0]%nat 0xab1c5ed5da6d8118 (WRead 7);
  Ins [0;1;2;3;4;5;6;7]%nat 0xd807aa98a3030242 (WRead 8);
  Ins [7;0;1;2;3;4;5;6]%nat 0x12835b0145706fbe (WRead 9);
  Ins [6;7;0;1;2;3;4;5]%nat 0x243185be4ee4b28c (WRead 10);
  Ins [5;6;7;0;1;2;3;4]%nat 0x550c7dc3d5ffb4e2 (WRead 11);
  Ins [4;5;6;7;0;1;2;3]%nat 0x72be5d74f27b896f (WRead 12);
  Ins [3;4;5;6;7;0;1;2]%nat 0x80deb1fe3b1696b1 (WRead 13);
  Ins [2;3;4;5;6;7;0;1]%nat 0x9bdc06a725c71235 (WRead 14);
  Ins [1;2;3;4;5;6;7;0]%nat 0xc19bf174cf692694 (WRead 15);
  Ins [0;1;2;3;4;5;6;7]%nat 0xe49b69c19ef14ad2 (WSet 0 [TW 0; TS1 14; TW 9; TS0 1]);
  Ins [7;0;1;2;3;4;5;6]%nat 0xefbe4786384f25e3 (WSet 1 [TW 1; TS1 15; TW 10; TS0 2]);
  Ins [6;7;0;1;2;3;4;5]%nat 0xfc19dc68b8cd5b5 (WSet 2 [TW 2; TS1 0; TW 11; TS0 3]);
  Ins [5;6;7;0;1;2;3;4]%nat 0x240ca1cc77ac9c65 (WSet 3 [TW 3; TS1 1; TW 12; TS0 4]);
  Ins [4;5;6;7;0;1;2;3]%nat 0x2de92c6f592b0275 (WSet 4 [TW 4; TS1 2; TW 13; TS0 5]);
  Ins [3;4;5;6;7;0;1;2]%nat 0x4a7484aa6ea6e483 (WSet 5 [TW 5; TS1 3; TW 14; TS0 6]);
  Ins [2;3;4;5;6;7;0;1]%nat 0x5cb0a9dcbd41fbd4 (WSet 6 [TW 6; TS1 4; TW 15; TS0 7]);
  Ins [1;2;3;4;5;6;7;0]%nat 0x76f988da831153b5 (WSet 7 [TW 7; TS1 5; TW 0; TS0 8]);
  Ins [0;1;2;3;4;5;6;7]%nat 0x983e5152ee66dfab (WSet 8 [TW 8; TS1 6; TW 1; TS0 9]);
  Ins [7;0;1;2;3;4;5;6]%nat 0xa831c66d2db43210 (WSet 9 [TW 9; TS1 7; TW 2; TS0 10]);
  Ins [6;7;0;1;2;3;4;5]%nat 0xb00327c898fb213f (WSet 10 [TW 10; TS1 8; TW 3; TS0 11]);
  Ins [5;6;7;0;1;2;3;4]%nat 0xbf597fc7beef0ee4 (WSet 11 [TW 11; TS1 9; TW 4; TS0 12]);
  Ins [4;5;6;7;0;1;2;3]%nat 0xc6e00bf33da88fc2 (WSet 12 [TW 12; TS1 10; TW 5; TS0 13]);
  Ins [3;4;5;6;7;0;1;2]%nat 0xd5a79147930aa725 (WSet 13 [TW 13; TS1 11; TW 6; TS0 14]);
  Ins [2;3;4;5;6;7;0;1]%nat 0x6ca6351e003826f (WSet 14 [TW 14; TS1 12; TW 7; TS0 15]);
  Ins [1;2;3;4;5;6;7;0]%nat 0x142929670a0e6e70 (WSet 15 [TW 15; TS1 13; TW 8; TS0 0]);
  Ins [0;1;2;3;4;5;6;7]%nat 0x27b70a8546d22ffc (WSet 0 [TW 0; TS1 14; TW 9; TS0 1]);
  Ins [7;0;1;2;3;4;5;6]%nat 0x2e1b21385c26c926 (WSet 1 [TW 1; TS1 15; TW 10; TS0 2]);
  Ins [6;7;0;1;2;3;4;5]%nat 0x4d2c6dfc5ac42aed (WSet 2 [TW 2; TS1 0; TW 11; TS0 3]);
  Ins [5;6;7;0;1;2;3;4]%nat 0x53380d139d95b3df (WSet 3 [TW 3; TS1 1; TW 12; TS0 4]);
  Ins [4;5;6;7;0;1;2;3]%nat 0x650a73548baf63de (WSet 4 [TW 4; TS1 2; TW 13; TS0 5]);
  Ins [3;4;5;6;7;0;1;2]%nat 0x766a0abb3c77b2a8 (WSet 5 [TW 5; TS1 3; TW 14; TS0 6]);
  Ins [2;3;4;5;6;7;0;1]%nat 0x81c2c92e47edaee6 (WSet 6 [TW 6; TS1 4; TW 15; TS0 7]);
  Ins [1;2;3;4;5;6;7;0]%nat 0x92722c851482353b (WSet 7 [TW 7; TS1 5; TW 0; TS0 8]);
  Ins [0;1;2;3;4;5;6;7]%nat 0xa2bfe8a14cf10364 (WSet 8 [TW 8; TS1 6; TW 1; TS0 9]);
  Ins [7;0;1;2;3;4;5;6]%nat 0xa81a664bbc423001 (WSet 9 [TW 9; TS1 7; TW 2; TS0 10]);
  Ins [6;7;0;1;2;3;4;5]%nat 0xc24b8b70d0f89791 (WSet 10 [TW 10; TS1 8; TW 3; TS0 11]);
  Ins [5;6;7;0;1;2;3;4]%nat 0xc76c51a30654be30 (WSet 11 [TW 11; TS1 9; TW 4; TS0 12]);
  Ins [4;5;6;7;0;1;2;3]%nat 0xd192e819d6ef5218 (WSet 12 [TW 12; TS1 10; TW 5; TS0 13]);
  Ins [3;4;5;6;7;0;1;2]%nat 0xd69906245565a910 (WSet 13 [TW 13; TS1 11; TW 6; TS0 14]);
  Ins [2;3;4;5;6;7;0;1]%nat 0xf40e35855771202a (WSet 14 [TW 14; TS1 12; TW 7; TS0 15]);
  Ins [1;2;3;4;5;6;7;0]%nat 0x106aa07032bbd1b8 (WSet 15 [TW 15; TS1 13; TW 8; TS0 0]);
  Ins [0;1;2;3;4;5;6;7]%nat 0x19a4c116b8d2d0c8 (WSet 0 [TW 0; TS1 14; TW 9; TS0 1]);
  Ins [7;0;1;2;3;4;5;6]%nat 0x1e376c085141ab53 (WSet 1 [TW 1; TS1 15; TW 10; TS0 2]);
  Ins [6;7;0;1;2;3;4;5]%nat 0x2748774cdf8eeb99 (WSet 2 [TW 2; TS1 0; TW 11; TS0 3]);
  Ins [5;6;7;0;1;2;3;4]%nat 0x34b0bcb5e19b48a8 (WSet 3 [TW 3; TS1 1; TW 12; TS0 4]);
  Ins [4;5;6;7;0;1;2;3]%nat 0x391c0cb3c5c95a63 (WSet 4 [TW 4; TS1 2; TW 13; TS0 5]);
  Ins [3;4;5;6;7;0;1;2]%nat 0x4ed8aa4ae3418acb (WSet 5 [TW 5; TS1 3; TW 14; TS0 6]);
  Ins [2;3;4;5;6;7;0;1]%nat 0x5b9cca4f7763e373 (WSet 6 [TW 6; TS1 4; TW 15; TS0 7]);
  Ins [1;2;3;4;5;6;7;0]%nat 0x682e6ff3d6b2b8a3 (WSet 7 [TW 7; TS1 5; TW 0; TS0 8]);
  Ins [0;1;2;3;4;5;6;7]%nat 0x748f82ee5defb2fc (WSet 8 [TW 8; TS1 6; TW 1; TS0 9]);
  Ins [7;0;1;2;3;4;5;6]%nat 0x78a5636f43172f60 (WSet 9 [TW 9; TS1 7; TW 2; TS0 10]);
  Ins [6;7;0;1;2;3;4;5]%nat 0x84c87814a1f0ab72 (WSet 10 [TW 10; TS1 8; TW 3; TS0 11]);
  Ins [5;6;7;0;1;2;3;4]%nat 0x8cc702081a6439ec (WSet 11 [TW 11; TS1 9; TW 4; TS0 12]);
  Ins [4;5;6;7;0;1;2;3]%nat 0x90befffa23631e28 (WSet 12 [TW 12; TS1 10; TW 5; TS0 13]);
  Ins [3;4;5;6;7;0;1;2]%nat 0xa4506cebde82bde9 (WSet 13 [TW 13; TS1 11; TW 6; TS0 14]);
  Ins [2;3;4;5;6;7;0;1]%nat 0xbef9a3f7b2c67915 (WSet 14 [TW 14; TS1 12; TW 7; TS0 15]);
  Ins [1;2;3;4;5;6;7;0]%nat 0xc67178f2e372532b (WSet 15 [TW 15; TS1 13; TW 8; TS0 0]);
  Ins [0;1;2;3;4;5;6;7]%nat 0xca273eceea26619c (WSet 0 [TW 0; TS1 14; TW 9; TS0 1]);
  Ins [7;0;1;2;3;4;5;6]%nat 0xd186b8c721c0c207 (WSet 1 [TW 1; TS1 15; TW 10; TS0 2]);
  Ins [6;7;0;1;2;3;4;5]%nat 0xeada7dd6cde0eb1e (WSet 2 [TW 2; TS1 0; TW 11; TS0 3]);
  Ins [5;6;7;0;1;2;3;4]%nat 0xf57d4f7fee6ed178 (WSet 3 [TW 3; TS1 1; TW 12; TS0 4]);
  Ins [4;5;6;7;0;1;2;3]%nat 0x6f067aa72176fba (WSet 4 [TW 4; TS1 2; TW 13; TS0 5]);
  Ins [3;4;5;6;7;0;1;2]%nat 0xa637dc5a2c898a6 (WSet 5 [TW 5; TS1 3; TW 14; TS0 6]);
  Ins [2;3;4;5;6;7;0;1]%nat 0x113f9804bef90dae (WSet 6 [TW 6; TS1 4; TW 15; TS0 7]);
  Ins [1;2;3;4;5;6;7;0]%nat 0x1b710b35131c471b (WSet 7 [TW 7; TS1 5; TW 0; TS0 8]);
  Ins [0;1;2;3;4;5;6;7]%nat 0x28db77f523047d84 (WSet 8 [TW 8; TS1 6; TW 1; TS0 9]);
  Ins [7;0;1;2;3;4;5;6]%nat 0x32caab7b40c72493 (WSet 9 [TW 9; TS1 7; TW 2; TS0 10]);
  Ins [6;7;0;1;2;3;4;5]%nat 0x3c9ebe0a15c9bebc (WSet 10 [TW 10; TS1 8; TW 3; TS0 11]);
  Ins [5;6;7;0;1;2;3;4]%nat 0x431d67c49c100d4c (WSet 11 [TW 11; TS1 9; TW 4; TS0 12]);
  Ins [4;5;6;7;0;1;2;3]%nat 0x4cc5d4becb3e42b6 (WSet 12 [TW 12; TS1 10; TW 5; TS0 13]);
  Ins [3;4;5;6;7;0;1;2]%nat 0x597f299cfc657e2a (WSet 13 [TW 13; TS1 11; TW 6; TS0 14]);
  Ins [2;3;4;5;6;7;0;1]%nat 0x5fcb6fab3ad6faec (WSet 14 [TW 14; TS1 12; TW 7; TS0 15]);
  Ins [1;2;3;4;5;6;7;0]%nat 0x6c44198c4a475817 (WSet 15 [TW 15; TS1 13; TW 8; TS0 0])].

(** * SHA-256 *)
(** sha256/mod.rs:91-94 *)
Definition sha256_iv : list N := [0x6a09e667; 0xbb67ae85; 0x3c6ef372; 0xa54ff53a; 0x510e527f; 0x9b05688c; 0x1f83d9ab; 0x5be0cd19].
Definition sha256_comp : list N -> bytes -> list N := sha2_block ops256 sha256_rounds.
Definition engine256 := @engine (list N).
Definition sha256_new : engine256 := engine_new 64 sha256_iv.
Definition sha256_input : engine256 -> bytes -> rust engine256 := input 64 sha256_comp.
(** from_engine sha256/mod.rs:33-51 with midstate_unchecked :146-152 *)
Definition sha256_finalize (e : engine256) : rust bytes :=
  rbind (finalize_md 64 sha256_comp 8 (be_bytes 8) e) (fun st => Ret (to_be_words 4 st)).
(** hash: internal_macros.rs:73-79 *)
Definition sha256_hash (m : bytes) : rust bytes := rbind (sha256_input sha256_new m) sha256_finalize.
(** Midstate: sha256/mod.rs:191-197 *)
Record midstate := Mid { mid_bytes : bytes; mid_n : N }.
(** MidstateError :326-332 *)
Record midstate_error := MErr { me_n : N; me_mid : midstate; me_bytes : bytes; me_len : N }.
(** midstate_unchecked :146-152 *)
Definition midstate_unchecked (e : engine256) : midstate := Mid (to_be_words 4 (e_h e)) (e_n e).
(** HashEngine::midstate :120-142 *)
Definition engine_midstate (e : engine256) : result midstate midstate_error :=
  if negb (e_n e mod 64 =? 0) then
    let unprocessed_len := e_n e mod 64 in
    Err (MErr (e_n e) (Mid (to_be_words 4 (e_h e)) (e_n e - unprocessed_len)) (e_buf e) unprocessed_len)
  else Ok (midstate_unchecked e).
(** Midstate::new :220-224 *)
Definition midstate_new (state : bytes) (n : N) : rust midstate := if n mod 64 =? 0 then Ret (Mid state n) else Panic.
(** Midstate::to_engine :233-240 *)
Definition to_engine (m : midstate) : engine256 := mk_engine (repeat 0 64) (be_words 4 (mid_bytes m)) (mid_n m).
(** Midstate::update_64 :244-249 *)
Definition update_64 (m : midstate) (b : bytes) : rust midstate :=
  rbind (process_blocks 64 sha256_comp (e_h (to_engine m)) b) (fun h =>
  rbind (u64_ck (mid_n m + 64)) (fun n => Ret (Mid (to_be_words 4 h) n))).
(** SHA256_IV :202-212 *)
Definition SHA256_IV : midstate := Mid
  [0x6a; 0x09; 0xe6; 0x67; 0xbb; 0x67; 0xae; 0x85; 0x3c; 0x6e; 0xf3; 0x72; 0xa5; 0x4f; 0xf5; 0x3a;
   0x51; 0x0e; 0x52; 0x7f; 0x9b; 0x05; 0x68; 0x8c; 0x1f; 0x83; 0xd9; 0xab; 0x5b; 0xe0; 0xcd; 0x19] 0.
(** the words of one chunk in update_midstate_unoptimized sha256/crypto/mod.rs:175-202 *)
Definition const_chunk (bytes : bytes) (chunk num_chunks : N) : rust (list N) :=
  if chunk * 64 + 64 <=? lenN bytes then Ret (be_words 4 (takeN 64 (dropN (chunk * 64) bytes)))
  else
    let buf := repeat 0 64 in
    rbind (copy_in 0 (dropN (chunk * 64) bytes) buf) (fun buf =>
    let i := lenN (dropN (chunk * 64) bytes) in
    rbind (if (lenN bytes mod 64 <=? 55) || (chunk + 2 =? num_chunks) then copy_in i [128] buf else Ret buf) (fun buf =>
    rbind (if chunk + 1 =? num_chunks then
             rbind (u64_ck (lenN bytes * 8)) (fun bit_len => copy_in 56 (be_bytes 8 bit_len) buf)
           else Ret buf) (fun buf => Ret (be_words 4 buf)))).
(** the loop :171-290; [fuel] chunks remain *)
Fixpoint const_loop (fuel : nat) (bytes : bytes) (finalize : bool) (chunk num_chunks : N) (state : list N) : rust (list N) :=
  match fuel with
  | O => Ret state
  | S f =>
      if negb finalize && (chunk + 1 =? num_chunks) then Ret state
      else rbind (const_chunk bytes chunk num_chunks) (fun w =>
           const_loop f bytes finalize (chunk + 1) num_chunks
             (wadd2 ops256 state (fst (run ops256 sha256_const_rounds (state, w)))))
  end.
(** update_midstate_unoptimized :165-302; div_ceil (core) *)
Definition update_midstate_unoptimized (m : midstate) (bytes : bytes) (finalize : bool) : rust midstate :=
  let num_chunks := (lenN bytes + 9 + 63) / 64 in
  rbind (const_loop (N.to_nat num_chunks) bytes finalize 0 num_chunks (be_words 4 (mid_bytes m))) (fun state =>
  rbind (u64_ck (mid_n m + lenN bytes)) (fun n => Ret (Mid (to_be_words 4 state) n))).
(** hash_unoptimized sha256/mod.rs:72-74 *)
Definition hash_unoptimized (m : bytes) : rust bytes :=
  rbind (update_midstate_unoptimized SHA256_IV m true) (fun s => Ret (mid_bytes s)).
(** hash_tag :289-292 with update_2x32_unoptimized :265-280 and update_64_unoptimized :256-258 *)
Definition hash_tag (tag : bytes) : rust midstate :=
  rbind (hash_unoptimized tag) (fun h => update_midstate_unoptimized SHA256_IV (h ++ h) false).
(** software_sha256d_64 sha256/crypto/mod.rs:579-842 *)
Definition software_sha256d_64 (inp : bytes) : bytes :=
  let w := be_words 4 inp in
  let '(r1, w) := run ops256 d64_rounds1 (sha256_iv, w) in
  let t := wadd2 ops256 r1 sha256_iv in
  let '(r2, w) := run ops256 d64_rounds2 (t, w) in
  let w := wadd2 ops256 t r2 ++ dropN 8 w in
  let '(r3, w) := run ops256 d64_rounds3 (sha256_iv, w) in
  to_be_words 4 (wadd2 ops256 r3 sha256_iv).
(** sha256d::Hash::hash_64_many sha256d/mod.rs:20-22 with sha256d_64 sha256/crypto/mod.rs:351-354, 472-476: one output per input *)
Definition hash_64_many (n_outputs : N) (inputs : list bytes) : rust (list bytes) :=
  if n_outputs =? lenN inputs then Ret (map software_sha256d_64 inputs) else Panic.
(** sha256d: sha256d/mod.rs:25-55 *)
Definition sha256d_finalize (e : engine256) : rust bytes := rbind (sha256_finalize e) sha256_hash.
(** sha256::Hash::hash_again sha256/mod.rs:67 *)
Definition hash_again (h : bytes) : rust bytes := sha256_hash h.
(** sha256t: the engine of a tag starts from its midstate, sha256t/mod.rs:135-140 and hash :79-85 *)
Definition sha256t_hash (tag_midstate : midstate) (m : bytes) : rust bytes :=
  rbind (sha256_input (to_engine tag_midstate) m) sha256_finalize.

(** * SHA-512, SHA-384, SHA-512/256 *)
(** sha512/mod.rs:67-70 *)
Definition sha512_iv : list N := [0x6a09e667f3bcc908; 0xbb67ae8584caa73b; 0x3c6ef372fe94f82b; 0xa54ff53a5f1d36f1;
  0x510e527fade682d1; 0x9b05688c2b3e6c1f; 0x1f83d9abfb41bd6b; 0x5be0cd19137e2179].
(** sha512/mod.rs:102-105 *)
Definition sha512_256_iv : list N := [0x22312194fc2bf72c; 0x9f555fa3c84c64c2; 0x2393b86b6f53b151; 0x963877195940eabd;
  0x96283ee2a88effe3; 0xbe5e1e2553863992; 0x2b0199fc2c85b8aa; 0x0eb72ddc81c52ca2].
(** sha512/mod.rs:115-118 *)
Definition sha384_iv : list N := [0xcbbb9d5dc1059ed8; 0x629a292a367cd507; 0x9159015a3070dd17; 0x152fecd8f70e5939;
  0x67332667ffc00b31; 0x8eb44a8768581511; 0xdb0c2e0d64f98fa7; 0x47b5481dbefa4fa4].
Definition sha512_comp : list N -> bytes -> list N := sha2_block ops512 sha512_rounds.
Definition sha512_input : engine256 -> bytes -> rust engine256 := input 128 sha512_comp.
(** from_engine sha512/mod.rs:25-41 with midstate :83-89 *)
Definition sha512_finalize (e : engine256) : rust bytes :=
  rbind (finalize_md 128 sha512_comp 16 (be_bytes 8) e) (fun st => Ret (to_be_words 8 st)).
(** from_engine sha384/mod.rs:16-20 and sha512_256/mod.rs:25-29 *)
Definition sha384_finalize (e : engine256) : rust bytes := rbind (sha512_finalize e) (fun d => Ret (takeN 48 d)).
Definition sha512_256_finalize (e : engine256) : rust bytes := rbind (sha512_finalize e) (fun d => Ret (takeN 32 d)).
