(** BIP32 as the standard states it, the grammar of derivation paths, and what is assumed of libsecp256k1. *)
From Coq Require Import String.
From Verif Require Import Base MDec SSha2 SHash2 SHmac MText SText MBip32.
Local Open Scope N_scope.

(** * Texts *)
(** the text of a child number: a decimal number below 2^31 (core's integer parser also takes a leading plus sign
    and leading zeros), followed by an apostrophe or an [h] when hardened *)
Definition child_text (s : str) (c : child_number) : Prop :=
  exists digits i, int_text digit10 10 false digits (Z.of_N i) /\ i < 2 ^ 31 /\
  ((s = digits /\ c = i) \/ ((s = digits ++ lit "'" \/ s = digits ++ lit "h") /\ c = i + 2 ^ 31)).
(** the pieces separated by slashes *)
Fixpoint joined (parts : list str) : str :=
  match parts with [] => [] | [p] => p | p :: ps => p ++ lit "/" ++ joined ps end.
Definition rel_text (s : str) (p : path) : Prop := exists parts, s = joined parts /\ Forall2 child_text parts p.
Definition abs_text (s : str) (p : path) : Prop :=
  (s = lit "m" /\ p = []) \/ (p <> [] /\ exists t, s = lit "m/" ++ t /\ rel_text t p).

(** * The curve *)
Record ecurve_ok (C : ecurve) : Prop := {
  order_pos : 1 < ec_order C; order_256 : ec_order C <= 2 ^ 256;
  ser_33 : forall p, lenN (ec_ser C p) = 33 /\ bytes_ok (ec_ser C p);
  (** 33 bytes are a point exactly when they are its serialisation *)
  parse_ser : forall b p, lenN b = 33 -> (ec_parse C b = Some p <-> b = ec_ser C p);
  (** kG + tG = (k + t)G, refused when it is the point at infinity *)
  add_mul : forall k t, 0 < k < ec_order C -> 0 < t < ec_order C ->
    ec_add C (ec_mul C k) t = if (k + t) mod ec_order C =? 0 then None else Some (ec_mul C ((k + t) mod ec_order C)) }.

(** * Derivation *)
(** I = HMAC-SHA512(chain code, data), split in two halves *)
Definition I_of (chain data : bytes) : bytes := HMAC SHA512 128 chain data.
Definition I_L (chain data : bytes) : N := be_val (takeN 32 (I_of chain data)).
Definition I_R (chain data : bytes) : bytes := dropN 32 (I_of chain data).
(** serP(point(k)) || ser32(i) for a normal child, 0x00 || ser256(k) || ser32(i) for a hardened one *)
Definition ckd_data (C : ecurve) (k : N) (i : child_number) : bytes :=
  if i <? 2 ^ 31 then ec_ser C (ec_mul C k) ++ be_bytes 4 i else 0 :: be_bytes 32 k ++ be_bytes 4 i.
(** the first four bytes of HASH160 of the public key *)
Definition fingerprint_of (C : ecurve) (p : ec_point C) : bytes := takeN 4 (HASH160 (ec_ser C p)).
(** the child key exists: BIP32 says that otherwise "one should proceed with the next value for i" (probability below
    2^-127); this library also refuses a zero I_L *)
Definition priv_child_exists (C : ecurve) (x : xpriv) (i : child_number) : Prop :=
  let d := ckd_data C (s_key x) i in
  0 < I_L (s_chain x) d < ec_order C /\ (I_L (s_chain x) d + s_key x) mod ec_order C <> 0.
Definition priv_child (C : ecurve) (x : xpriv) (i : child_number) : xpriv :=
  let d := ckd_data C (s_key x) i in
  mk_xpriv (s_net x) (s_depth x + 1) (fingerprint_of C (ec_mul C (s_key x))) i
    ((I_L (s_chain x) d + s_key x) mod ec_order C) (I_R (s_chain x) d).
(** public derivation: point(I_L) + K *)
Definition pub_data (C : ecurve) (x : xpub C) (i : child_number) : bytes := ec_ser C (p_key C x) ++ be_bytes 4 i.
Definition pub_child (C : ecurve) (x : xpub C) (i : child_number) (K : ec_point C) : xpub C :=
  mk_xpub C (p_net C x) (p_depth C x + 1) (fingerprint_of C (p_key C x)) i K (I_R (p_chain C x) (pub_data C x i)).

(** the values of the Rust types *)
Definition cn_ok (c : child_number) : Prop := c < 2 ^ 32.
Definition xpriv_ok (C : ecurve) (x : xpriv) : Prop :=
  s_depth x < 256 /\ lenN (s_parent x) = 4 /\ bytes_ok (s_parent x) /\ cn_ok (s_child x) /\ 0 < s_key x < ec_order C /\
  lenN (s_chain x) = 32 /\ bytes_ok (s_chain x).
Definition xpub_ok (C : ecurve) (x : xpub C) : Prop :=
  p_depth C x < 256 /\ lenN (p_parent C x) = 4 /\ bytes_ok (p_parent C x) /\ cn_ok (p_child C x) /\
  lenN (p_chain C x) = 32 /\ bytes_ok (p_chain C x).
(** a key of depth zero has no parent and child number zero *)
Definition priv_master_rule (x : xpriv) : Prop := s_depth x = 0 -> s_parent x = repeat 0 4 /\ s_child x = 0.
Definition pub_master_rule (C : ecurve) (x : xpub C) : Prop := p_depth C x = 0 -> p_parent C x = repeat 0 4 /\ p_child C x = 0.

(** * Serialisation: 78 bytes *)
Definition priv_bytes (x : xpriv) : bytes :=
  version_private (s_net x) ++ [s_depth x] ++ s_parent x ++ be_bytes 4 (s_child x) ++ s_chain x ++ [0] ++ be_bytes 32 (s_key x).
Definition pub_bytes (C : ecurve) (x : xpub C) : bytes :=
  version_public (p_net C x) ++ [p_depth C x] ++ p_parent C x ++ be_bytes 4 (p_child C x) ++ p_chain C x ++ ec_ser C (p_key C x).
