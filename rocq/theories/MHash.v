(** The buffering shared by the hash engines: hashes/src/internal_macros.rs [impl_engine_input!] and the
    [from_engine]/[finalize] functions of the sha256, sha512, sha1, ripemd160 and sha3_256 modules.
    A block compression function [comp] on a state of type [St] is a parameter here. *)
From Verif Require Import Base MDec.
Local Open Scope N_scope.

(** slice::chunks_exact of the standard library *)
Fixpoint chunks_n (n : nat) (bs : N) (l : bytes) : list bytes :=
  match n with O => [] | S n' => takeN bs l :: chunks_n n' bs (dropN bs l) end.
Definition chunks_exact (bs : N) (l : bytes) : list bytes := chunks_n (N.to_nat (lenN l / bs)) bs l.
(** buffer[i..i + src.len()].copy_from_slice(src) *)
Definition copy_in (i : N) (src buf : bytes) : rust bytes :=
  if i + lenN src <=? lenN buf then Ret (takeN i buf ++ src ++ dropN (i + lenN src) buf) else Panic.
(** buffer[from..].fill(0) *)
Definition fill_from (from : N) (buf : bytes) : rust bytes :=
  if from <=? lenN buf then Ret (takeN from buf ++ repeat 0 (N.to_nat (lenN buf - from))) else Panic.
(** buffer[..to].fill(0) *)
Definition fill_to (to : N) (buf : bytes) : rust bytes :=
  if to <=? lenN buf then Ret (repeat 0 (N.to_nat to) ++ dropN to buf) else Panic.
(** a u64 result that must not overflow *)
Definition u64_ck (v : N) : rust N := if v <? 2 ^ 64 then Ret v else Panic.

Section Engine.
  Context {St : Type}.
  Variable bs : N.
  Variable comp : St -> bytes -> St.
  (** HashEngine: sha256/mod.rs:81-85 and its siblings *)
  Record engine := mk_engine { e_buf : bytes; e_h : St; e_n : N }.
  (** new: sha256/mod.rs:89-98 and its siblings *)
  Definition engine_new (iv : St) : engine := mk_engine (repeat 0 (N.to_nat bs)) iv 0.
  (** process_blocks: sha256/crypto/mod.rs:479-482, sha512/crypto.rs:82-85, sha1/crypto.rs:12-15,
      ripemd160/crypto.rs:138-141, sha3_256/mod.rs:203-206 *)
  Definition process_blocks (h : St) (blocks : bytes) : rust St :=
    if (lenN blocks =? 0) || negb (lenN blocks mod bs =? 0) then Panic
    else Ret (fold_left comp (chunks_exact bs blocks) h).
  (** incomplete_block_len: lib.rs:308-313 *)
  Definition incomplete_block_len (e : engine) : N := e_n e mod bs.
  (** input: internal_macros.rs:203-230 *)
  Definition input (e : engine) (inp : bytes) : rust engine :=
    let buf_idx := incomplete_block_len e in
    rbind (u64_ck (e_n e + lenN inp)) (fun n =>
    if buf_idx + lenN inp <? bs then
      rbind (copy_in buf_idx inp (e_buf e)) (fun b => Ret (mk_engine b (e_h e) n))
    else
      rbind (if 0 <? buf_idx then
               let needed := bs - buf_idx in
               if needed <=? lenN inp then
                 rbind (copy_in buf_idx (takeN needed inp) (e_buf e)) (fun b =>
                 rbind (process_blocks (e_h e) b) (fun h => Ret (b, h, dropN needed inp)))
               else Panic
             else Ret (e_buf e, e_h e, inp)) (fun '(b, h, inp) =>
      let full_blocks := lenN inp / bs * bs in
      rbind (if 0 <? full_blocks then process_blocks h (takeN full_blocks inp) else Ret h) (fun h =>
      rbind (copy_in 0 (dropN full_blocks inp) b) (fun b => Ret (mk_engine b h n))))).
  (** from_engine: sha256/mod.rs:33-51, sha1/mod.rs:23-39, ripemd160/mod.rs:24-40 with [thr] = 8 and
      sha512/mod.rs:25-41 with [thr] = 16; [enc] is to_be_bytes or to_le_bytes; the result is the state
      before it is turned into bytes *)
  Definition finalize_md (thr : N) (enc : N -> bytes) (e : engine) : rust St :=
    let buf_idx := incomplete_block_len e in
    rbind (copy_in buf_idx [128] (e_buf e)) (fun b =>
    rbind (fill_from (buf_idx + 1) b) (fun b =>
    rbind (if bs - thr <=? buf_idx then
             rbind (process_blocks (e_h e) b) (fun h =>
             rbind (fill_to (bs - 8) b) (fun b => Ret (b, h)))
           else Ret (b, e_h e)) (fun '(b, h) =>
    rbind (u64_ck (8 * e_n e)) (fun bits =>
    rbind (copy_in (bs - 8) (enc bits) b) (fun b => process_blocks h b))))).
  (** finalize: sha3_256/mod.rs:221-226 *)
  Definition finalize_sha3 (e : engine) : rust St :=
    let idx := incomplete_block_len e in
    rbind (fill_from (idx + 1) (e_buf e)) (fun b =>
    rbind (copy_in idx [6] b) (fun b =>
    match nth_error b (N.to_nat (bs - 1)) with
    | None => Panic
    | Some last => rbind (copy_in (bs - 1) [N.lxor last 128] b) (fun b => process_blocks (e_h e) b)
    end)).
  (** hash and hash_byte_chunks: internal_macros.rs:73-94, the engine before finalisation *)
  Fixpoint input_all (e : engine) (pieces : list bytes) : rust engine :=
    match pieces with
    | [] => Ret e
    | p :: ps => rbind (input e p) (fun e => input_all e ps)
    end.
End Engine.
