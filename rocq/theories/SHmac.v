(** HMAC (RFC 2104) and HKDF (RFC 5869), and what it means for an engine to compute a hash function. *)
From Verif Require Import Base MDec MHash MSha2 MHash2 MHmac SHash SSha2 SHash2.
Local Open Scope N_scope.

(** an engine computes [H] when any splitting of any message (of less than 2^61 bytes) gives [H] of the message *)
Definition computes (h : hasher) (H : bytes -> bytes) : Prop :=
  forall pieces, bytes_ok (concat pieces) -> lenN (concat pieces) < 2 ^ 61 -> hash_byte_chunks h pieces = Ret (H (concat pieces)).
(** the hash functions of the crate and their standards *)
Definition hashers : list (hasher * (bytes -> bytes)) :=
  [(sha256_h, SHA256); (sha256d_h, SHA256d); (hash160_h, HASH160); (sha512_h, SHA512); (sha384_h, SHA384); (sha512_256_h, SHA512_256);
   (sha1_h, SHA1); (ripemd160_h, RIPEMD160); (sha3_256_h, SHA3_256)].

(** RFC 2104: [B] is the block size of [H] in bytes *)
Definition key_block (H : bytes -> bytes) (B : N) (K : bytes) : bytes :=
  let K := if B <? lenN K then H K else K in K ++ repeat 0 (N.to_nat (B - lenN K)).
Definition HMAC (H : bytes -> bytes) (B : N) (K text : bytes) : bytes :=
  H (map (N.lxor 0x5c) (key_block H B K) ++ H (map (N.lxor 0x36) (key_block H B K) ++ text)).
(** RFC 5869 *)
Definition HKDF_Extract (H : bytes -> bytes) (B : N) (salt IKM : bytes) : bytes := HMAC H B salt IKM.
Fixpoint HKDF_T (H : bytes -> bytes) (B : N) (PRK info : bytes) (i : nat) : bytes :=
  match i with O => [] | S i' => HMAC H B PRK (HKDF_T H B PRK info i' ++ info ++ [N.of_nat i]) end.
(** [HashLen] is the length of the outputs of [H]; N = ceil(L/HashLen) blocks *)
Definition HKDF_Expand (H : bytes -> bytes) (B HashLen : N) (PRK info : bytes) (L : N) : bytes :=
  takeN L (concat (map (HKDF_T H B PRK info) (seq 1 (N.to_nat ((L + (HashLen - 1)) / HashLen))))).
