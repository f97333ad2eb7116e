(** What keys and their texts are: SEC 1 serialisations, wallet import format, hexadecimal.  The data types of MKey.v are used. *)
From Coq Require Import String.
From Verif Require Import Base MText MBip32 SBase58 MBase58 MKey.
Local Open Scope N_scope.

(** What is asked of libsecp256k1: the order of the group fits 32 bytes, the two serialisations have their lengths and first bytes,
    parsing inverts them and accepts nothing else of their shape (65 byte hybrid encodings start with 6 or 7), and different
    secret keys have different public keys. *)
Record kcurve_ok (C : kcurve) : Prop := {
  k_order : 1 < kc_order C < 2 ^ 256;
  k_ser33 : forall p, bytes_ok (kc_ser33 C p) /\ lenN (kc_ser33 C p) = 33 /\ exists b r, kc_ser33 C p = b :: r /\ (b = 2 \/ b = 3);
  k_ser65 : forall p, bytes_ok (kc_ser65 C p) /\ lenN (kc_ser65 C p) = 65 /\ exists r, kc_ser65 C p = 4 :: r;
  k_parse33 : forall p, kc_parse C (kc_ser33 C p) = Some p;
  k_parse65 : forall p, kc_parse C (kc_ser65 C p) = Some p;
  k_canon33 : forall b p, lenN b = 33 -> kc_parse C b = Some p -> b = kc_ser33 C p;
  k_canon65 : forall r p, lenN r = 64 -> kc_parse C (4 :: r) = Some p -> 4 :: r = kc_ser65 C p;
  k_mul : forall a b, 0 < a < kc_order C -> 0 < b < kc_order C -> kc_mul C a = kc_mul C b -> a = b }.

(** ** Public keys *)
Definition pub_bytes (C : kcurve) (k : legacy C) : bytes := if lk_compressed C k then kc_ser33 C (lk_point C k) else kc_ser65 C (lk_point C k).
(** the lexicographic order of byte strings *)
Definition lex_lt (a b : bytes) : Prop :=
  (exists p x y a' b', a = p ++ x :: a' /\ b = p ++ y :: b' /\ x < y) \/ (exists y b', b = a ++ y :: b').

(** ** Secret keys *)
Definition secret_valid (C : kcurve) (k : N) : Prop := 0 < k < kc_order C.
Definition wif_payload (k : wif_key) : bytes :=
  (match wk_net k with NMain => 128 | NTest => 239 end) :: be_bytes 32 (pk_key (wk_private k)) ++ (if pk_compressed (wk_private k) then [1] else []).
(** [s] is the base58check text of [p] *)
Definition checked_text (sha256d : bytes -> bytes) (p : bytes) (s : str) : Prop := base58 (p ++ firstn 4 (sha256d p)) s.
Definition wif_text (sha256d : bytes -> bytes) (k : wif_key) (s : str) : Prop := checked_text sha256d (wif_payload k) s.
(** the version byte, the 32 bytes of the key and what follows them *)
Definition wif_shape (p : bytes) (v : N) (key tail : bytes) : Prop := p = v :: key ++ tail /\ lenN key = 32 /\ (tail = [] \/ tail = [1]).
