(** Base64 (RFC 4648) as a relation between bytes and texts, and what is asked of recoverable signatures. *)
From Coq Require Import String.
From Verif Require Import Base MText SWire MKey SKey MMessage.
Local Open Scope N_scope.

Definition base64_alphabet : str := lit "ABCDEFGHIJKLMNOPQRSTUVWXYZabcdefghijklmnopqrstuvwxyz0123456789+/".
Definition digit64 (c d : N) : Prop := nth_error base64_alphabet (N.to_nat d) = Some c.
(** Three bytes are four base 64 digits of the same number; one or two bytes left over are padded with zero bits to two or three digits,
    and '=' (61) fills the group. *)
Inductive base64 : bytes -> str -> Prop :=
| b64_nil : base64 [] []
| b64_group : forall x y z c1 d1 c2 d2 c3 d3 c4 d4 b s, x < 256 -> y < 256 -> z < 256 ->
    digit64 c1 d1 -> digit64 c2 d2 -> digit64 c3 d3 -> digit64 c4 d4 ->
    x * 2 ^ 16 + y * 2 ^ 8 + z = d1 * 64 ^ 3 + d2 * 64 ^ 2 + d3 * 64 + d4 ->
    base64 b s -> base64 (x :: y :: z :: b) (c1 :: c2 :: c3 :: c4 :: s)
| b64_two : forall x y c1 d1 c2 d2 c3 d3, x < 256 -> y < 256 -> digit64 c1 d1 -> digit64 c2 d2 -> digit64 c3 d3 ->
    (x * 2 ^ 8 + y) * 2 ^ 2 = d1 * 64 ^ 2 + d2 * 64 + d3 -> base64 [x; y] [c1; c2; c3; 61]
| b64_one : forall x c1 d1 c2 d2, x < 256 -> digit64 c1 d1 -> digit64 c2 d2 -> x * 2 ^ 4 = d1 * 64 + d2 -> base64 [x] [c1; c2; 61; 61].

(** Recovery ids are 0 to 3, a compact signature is 64 bytes, parsing is the inverse of writing, and the key recovered from a signature made
    with a secret key is that key's public key. *)
Record rcurve_ok (C : kcurve) (R : rcurve C) : Prop := {
  r_ser : forall s i b, rc_ser C R s = (i, b) -> i < 4 /\ bytes_ok b /\ lenN b = 64 /\ rc_parse C R b i = Some s;
  r_parse : forall b i s, rc_parse C R b i = Some s -> rc_ser C R s = (i, b);
  r_recover : forall m k, secret_valid C k -> rc_recover C R (rc_sign C R m k) m = Some (kc_mul C k) }.

(** The header byte: 27 plus the recovery id, plus 4 for a compressed key; then the compact signature. *)
Definition signature_bytes (C : kcurve) (R : rcurve C) (m : msg_sig C R) : bytes :=
  (27 + fst (rc_ser C R (ms_signature C R m)) + (if ms_compressed C R m then 4 else 0)) :: snd (rc_ser C R (ms_signature C R m)).
(** What is hashed: the magic text and the message, each with its length. *)
Definition message_preimage (msg : bytes) : bytes := wire_bytes (lit "Bitcoin Signed Message:" ++ [10]) ++ wire_bytes msg.
