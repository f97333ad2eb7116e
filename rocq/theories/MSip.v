(** Model of SipHash-2-4: hashes/src/siphash24/mod.rs. The [unsafe] unchecked reads are modelled with the checks of
    their debug assertions, which panic; that they never fire is part of the theorems. *)
From Verif Require Import Base MDec MHash MSha2.
Local Open Scope N_scope.

(** State :110-119 *)
Record sip_state := mk_ss { s_v0 : N; s_v1 : N; s_v2 : N; s_v3 : N }.
(** compress! :18-38 *)
Definition sip_compress (s : sip_state) : sip_state :=
  let (v0, v1, v2, v3) := s in
  let v0 := wadd 64 v0 v1 in
  let v1 := rotl 64 13 v1 in
  let v1 := N.lxor v1 v0 in
  let v0 := rotl 64 32 v0 in
  let v2 := wadd 64 v2 v3 in
  let v3 := rotl 64 16 v3 in
  let v3 := N.lxor v3 v2 in
  let v0 := wadd 64 v0 v3 in
  let v3 := rotl 64 21 v3 in
  let v3 := N.lxor v3 v0 in
  let v2 := wadd 64 v2 v1 in
  let v1 := rotl 64 17 v1 in
  let v1 := N.lxor v1 v2 in
  let v2 := rotl 64 32 v2 in
  mk_ss v0 v1 v2 v3.
(** c_rounds, d_rounds :155-166 *)
Definition c_rounds (s : sip_state) : sip_state := sip_compress (sip_compress s).
Definition d_rounds (s : sip_state) : sip_state := sip_compress (sip_compress (sip_compress (sip_compress s))).
(** HashEngine :123-130 *)
Record sip_engine := mk_se { se_k0 : N; se_k1 : N; se_n : N; se_st : sip_state; se_tail : N; se_ntail : N }.
(** with_keys :135-149 *)
Definition with_keys (k0 k1 : N) : sip_engine :=
  mk_se k0 k1 0 (mk_ss (N.lxor k0 0x736f6d6570736575) (N.lxor k1 0x646f72616e646f6d) (N.lxor k0 0x6c7967656e657261) (N.lxor k1 0x7465646279746573)) 0 0.
(** keys :152 *)
Definition sip_keys (e : sip_engine) : N * N := (se_k0 e, se_k1 e).
(** load_int_le! :45-54, for an integer of [w] bytes *)
Definition load_int_le (buf : bytes) (i w : N) : rust N := if i + w <=? lenN buf then Ret (le_val (takeN w (dropN i buf))) else Panic.
(** u8to64_le :222-240 *)
Definition u8to64_le (buf : bytes) (start len : N) : rust N :=
  if len <? 8 then
    rbind (if 0 + 3 <? len then rbind (load_int_le buf (start + 0) 4) (fun v => Ret (v, 0 + 4)) else Ret (0, 0)) (fun '(out, i) =>
    rbind (if i + 1 <? len then rbind (load_int_le buf (start + i) 2) (fun v => Ret (N.lor out (N.shiftl v (i * 8)), i + 2)) else Ret (out, i)) (fun '(out, i) =>
    rbind (if i <? len then rbind (load_int_le buf (start + i) 1) (fun v => Ret (N.lor out (N.shiftl v (i * 8)), i + 1)) else Ret (out, i)) (fun '(out, i) =>
    if i =? len then Ret out else Panic)))
  else Panic.
(** the absorption of one word, :188-190 and :202-204 *)
Definition sip_absorb (s : sip_state) (m : N) : sip_state :=
  let s := c_rounds (mk_ss (s_v0 s) (s_v1 s) (s_v2 s) (N.lxor (s_v3 s) m)) in
  mk_ss (N.lxor (s_v0 s) m) (s_v1 s) (s_v2 s) (s_v3 s).
(** the loop :199-207 until [lim]; it advances by 8, so a fuel above [lim] is enough *)
Fixpoint sip_loop (fuel : nat) (msg : bytes) (lim : N) (s : sip_state) (i : N) : rust (sip_state * N) :=
  match fuel with
  | O => Panic
  | S f => if i <? lim then rbind (load_int_le msg i 8) (fun mi => sip_loop f msg lim (sip_absorb s mi) (i + 8)) else Ret (s, i)
  end.
(** the end of input :195-210, after [needed] bytes; the tail is not read between :191 and :209 *)
Definition sip_rest (k0 k1 n : N) (st : sip_state) (msg : bytes) (needed : N) : rust sip_engine :=
  if needed <=? lenN msg then
    let len := lenN msg - needed in
    let left := N.land len 7 in
    rbind (sip_loop (S (length msg)) msg (len - left) st needed) (fun '(st, i) =>
    rbind (u8to64_le msg i left) (fun tail => Ret (mk_se k0 k1 n st tail left)))
  else Panic.
(** input :174-211 *)
Definition sip_input (e : sip_engine) (msg : bytes) : rust sip_engine :=
  rbind (u64_ck (se_n e + lenN msg)) (fun n =>
  if se_ntail e =? 0 then sip_rest (se_k0 e) (se_k1 e) n (se_st e) msg 0
  else if 8 <? se_ntail e then Panic
  else
    let needed := 8 - se_ntail e in
    rbind (u8to64_le msg 0 (N.min (lenN msg) needed)) (fun v =>
    let tail := N.lor (se_tail e) (N.shiftl v (8 * se_ntail e) mod 2 ^ 64) in
    if lenN msg <? needed then Ret (mk_se (se_k0 e) (se_k1 e) n (se_st e) tail (se_ntail e + lenN msg))
    else sip_rest (se_k0 e) (se_k1 e) n (sip_absorb (se_st e) tail) msg needed)).
(** from_engine_to_u64 :86-99 *)
Definition sip_to_u64 (e : sip_engine) : N :=
  let b := N.lor (N.shiftl (N.land (se_n e) 0xff) 56) (se_tail e) in
  let s := sip_absorb (se_st e) b in
  let s := d_rounds (mk_ss (s_v0 s) (s_v1 s) (N.lxor (s_v2 s) 0xff) (s_v3 s)) in
  N.lxor (N.lxor (N.lxor (s_v0 s) (s_v1 s)) (s_v2 s)) (s_v3 s).
(** from_u64, to_u64 :102-105; from_engine :62 *)
Definition sip_from_u64 (h : N) : bytes := le_bytes 8 h.
Definition sip_hash_to_u64 (h : bytes) : N := le_val h.
Definition sip_finalize (e : sip_engine) : bytes := sip_from_u64 (sip_to_u64 e).
(** hash_with_keys :71-75, hash_to_u64_with_keys :78-82 *)
Definition hash_with_keys (k0 k1 : N) (data : bytes) : rust bytes := rbind (sip_input (with_keys k0 k1) data) (fun e => Ret (sip_finalize e)).
Definition hash_to_u64_with_keys (k0 k1 : N) (data : bytes) : rust N := rbind (sip_input (with_keys k0 k1) data) (fun e => Ret (sip_to_u64 e)).
(** several inputs in a row *)
Fixpoint sip_feed (e : sip_engine) (pieces : list bytes) : rust sip_engine :=
  match pieces with [] => Ret e | p :: ps => rbind (sip_input e p) (fun e => sip_feed e ps) end.
