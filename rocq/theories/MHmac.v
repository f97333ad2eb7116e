(** The engines as one interface (trait HashEngine: hashes/src/lib.rs:168-200), HMAC (hashes/src/hmac/mod.rs),
    HKDF (hashes/src/hkdf/mod.rs) and the constant-time comparison (hashes/src/cmp.rs). *)
From Verif Require Import Base MDec MHash MSha2 MHash2.
Local Open Scope N_scope.

(** HashEngine (lib.rs:168-200) with Default, BLOCK_SIZE and Hash::LEN *)
Record hasher := { h_default : engine256; h_input : engine256 -> bytes -> rust engine256; h_finalize : engine256 -> rust bytes; h_block : N; h_len : N }.
(** the implementations: sha256/mod.rs:89-113,156-175, sha256d/mod.rs:25-55, hash160/mod.rs:33-51, sha512, sha384, sha512_256, sha1, ripemd160, sha3_256 *)
Definition sha256_h : hasher := {| h_default := sha256_new; h_input := sha256_input; h_finalize := sha256_finalize; h_block := 64; h_len := 32 |}.
Definition sha256d_h : hasher := {| h_default := sha256_new; h_input := sha256_input; h_finalize := sha256d_finalize; h_block := 64; h_len := 32 |}.
Definition hash160_h : hasher := {| h_default := sha256_new; h_input := sha256_input; h_finalize := hash160_finalize; h_block := 64; h_len := 20 |}.
Definition sha512_h : hasher := {| h_default := engine_new 128 sha512_iv; h_input := sha512_input; h_finalize := sha512_finalize; h_block := 128; h_len := 64 |}.
Definition sha384_h : hasher := {| h_default := engine_new 128 sha384_iv; h_input := sha512_input; h_finalize := sha384_finalize; h_block := 128; h_len := 48 |}.
Definition sha512_256_h : hasher := {| h_default := engine_new 128 sha512_256_iv; h_input := sha512_input; h_finalize := sha512_256_finalize; h_block := 128; h_len := 32 |}.
Definition sha1_h : hasher := {| h_default := engine_new 64 sha1_iv; h_input := sha1_input; h_finalize := sha1_finalize; h_block := 64; h_len := 20 |}.
Definition ripemd160_h : hasher := {| h_default := engine_new 64 rmd_iv; h_input := rmd_input; h_finalize := rmd_finalize; h_block := 64; h_len := 20 |}.
Definition sha3_256_h : hasher := {| h_default := engine_new 136 (repeat 0 25); h_input := sha3_input; h_finalize := sha3_finalize; h_block := 136; h_len := 32 |}.
(** the engine of a tag (sha256t/mod.rs:135-160) *)
Definition sha256t_h (tag_midstate : midstate) : hasher :=
  {| h_default := to_engine tag_midstate; h_input := sha256_input; h_finalize := sha256_finalize; h_block := 64; h_len := 32 |}.

(** a sequence of input calls; hash_byte_chunks: internal_macros.rs:82-94 *)
Fixpoint feed (h : hasher) (e : engine256) (pieces : list bytes) : rust engine256 :=
  match pieces with [] => Ret e | p :: ps => rbind (h_input h e p) (fun e => feed h e ps) end.
Definition hash_byte_chunks (h : hasher) (pieces : list bytes) : rust bytes := rbind (feed h (h_default h) pieces) (h_finalize h).
(** hash: internal_macros.rs:73-79, lib.rs:192-199 *)
Definition hash_one (h : hasher) (m : bytes) : rust bytes := rbind (h_input h (h_default h) m) (h_finalize h).

(** * HMAC *)
(** for (b, k) in pad.iter_mut().zip(key) { *b ^= *k } hmac/mod.rs:113-125 *)
Fixpoint xor_zip (pad key : bytes) : bytes :=
  match pad, key with b :: pad, k :: key => N.lxor b k :: xor_zip pad key | _, _ => pad end.
(** &pad[..n] *)
Definition slice_to (n : N) (l : bytes) : rust bytes := if n <=? lenN l then Ret (takeN n l) else Panic.
(** HmacEngine :85-88 *)
Record hmac_engine := mk_hmac { iengine : engine256; oengine : engine256 }.
(** HmacEngine::new :98-135; non_secure_erase of the local pads is not modelled *)
Definition hmac_new (h : hasher) (key : bytes) : rust hmac_engine :=
  if 128 <? h_block h then Panic
  else
    rbind (if h_block h <? lenN key then hash_one h key else Ret key) (fun k =>
    let ipad := xor_zip (repeat 0x36 128) k in
    let opad := xor_zip (repeat 0x5c 128) k in
    rbind (slice_to (h_block h) ipad) (fun ipad => rbind (h_input h (h_default h) ipad) (fun i =>
    rbind (slice_to (h_block h) opad) (fun opad => rbind (h_input h (h_default h) opad) (fun o => Ret (mk_hmac i o)))))).
(** input :158 *)
Definition hmac_input (h : hasher) (e : hmac_engine) (m : bytes) : rust hmac_engine :=
  rbind (h_input h (iengine e) m) (fun i => Ret (mk_hmac i (oengine e))).
Fixpoint hmac_feed (h : hasher) (e : hmac_engine) (pieces : list bytes) : rust hmac_engine :=
  match pieces with [] => Ret e | p :: ps => rbind (hmac_input h e p) (fun e => hmac_feed h e ps) end.
(** finalize :159-163 *)
Definition hmac_finalize (h : hasher) (e : hmac_engine) : rust bytes :=
  rbind (h_finalize h (iengine e)) (fun ihash => rbind (h_input h (oengine e) ihash) (h_finalize h)).

(** * HKDF *)
(** Hkdf::new hkdf/mod.rs:53-57 *)
Definition hkdf_new (h : hasher) (salt ikm : bytes) : rust bytes :=
  rbind (hmac_new h salt) (fun e => rbind (hmac_input h e ikm) (hmac_finalize h)).
(** &l[a..b] *)
Definition slice (a b : N) (l : bytes) : rust bytes := if (a <=? b) && (b <=? lenN l) then Ret (takeN (b - a) (dropN a l)) else Panic.
(** usize subtraction *)
Definition usub (a b : N) : rust N := if b <=? a then Ret (a - b) else Panic.
(** the loop :79-104; [fuel] exceeds the number of u8 values, [total] is total_blocks as u8 *)
Fixpoint expand_loop (fuel : nat) (h : hasher) (prk info : bytes) (total counter : N) (okm : bytes) : rust bytes :=
  match fuel with
  | O => Panic
  | S f =>
      if counter <=? total then
        rbind (hmac_new h prk) (fun e =>
        rbind (if negb (counter =? 1) then
                 rbind (usub counter 2) (fun a => rbind (usub counter 1) (fun b =>
                 rbind (slice (a * h_len h) (b * h_len h) okm) (hmac_input h e)))
               else Ret e) (fun e =>
        rbind (hmac_input h e info) (fun e =>
        rbind (hmac_input h e [counter]) (fun e =>
        rbind (hmac_finalize h e) (fun t =>
        rbind (usub counter 1) (fun c1 =>
        let start := c1 * h_len h in
        let end_ := if counter =? total then lenN okm else counter * h_len h in
        rbind (usub end_ start) (fun n =>
        rbind (slice_to n t) (fun t =>
        rbind (if start + n =? end_ then copy_in start t okm else Panic) (fun okm =>
        rbind (if counter + 1 <? 256 then Ret (counter + 1) else Panic) (fun counter =>
        expand_loop f h prk info total counter okm))))))))))
      else Ret okm
  end.
(** expand :68-107 on the buffer [okm]; the error carries the maximum *)
Definition hkdf_expand (h : hasher) (prk info okm : bytes) : rust (result bytes N) :=
  if 255 * h_len h <? lenN okm then Ret (Err (255 * h_len h))
  else
    let total := (lenN okm + (h_len h - 1)) / h_len h in
    rbind (expand_loop 257 h prk info (total mod 256) 1 okm) (fun okm => Ret (Ok okm)).
(** expand_to_len :119-123 *)
Definition hkdf_expand_to_len (h : hasher) (prk info : bytes) (len : N) : rust (result bytes N) :=
  hkdf_expand h prk info (repeat 0 (N.to_nat len)).

(** * fixed_time_eq cmp.rs:21-66: the volatile accesses are plain ones here *)
Definition fixed_time_eq (a b : bytes) : rust bool :=
  if lenN a =? lenN b then
    let r := fold_left (fun r p => N.lor r (N.lxor (fst p) (snd p))) (combine a b) 0 in
    let t := N.lor r (N.shiftr r 4) in
    let t := N.lor t (N.shiftr t 2) in
    let t := N.lor t (N.shiftr t 1) in
    Ret (N.land t 1 =? 0)
  else Panic.
