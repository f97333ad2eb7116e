(** What texts denote: numerals, signed numerals, the text of bytes.  Independent of the parsers. *)
From Verif Require Import Base MText.
Local Open Scope N_scope.

(** [digit10 c d]: the character [c] is the decimal digit [d] ('0' is 48). *)
Definition digit10 (c d : N) : Prop := d < 10 /\ c = 48 + d.
(** [digit16 c d]: hex digit, either case ('a' is 97, 'A' is 65). *)
Definition digit16 (c d : N) : Prop :=
  digit10 c d \/ (10 <= d < 16 /\ (c = 97 + (d - 10) \/ c = 65 + (d - 10))).
(** [numeral digit radix s n]: the non-empty text [s] of digits denotes [n], most significant first. *)
Inductive numeral (digit : N -> N -> Prop) (radix : N) : str -> N -> Prop :=
| numeral_one : forall c d, digit c d -> numeral digit radix [c] d
| numeral_snoc : forall s n c d, numeral digit radix s n -> digit c d ->
    numeral digit radix (s ++ [c]) (radix * n + d).
(** An optional plus sign ('+' is 43); for signed types also a minus sign ('-' is 45). *)
Inductive int_text (digit : N -> N -> Prop) (radix : N) (signed : bool) : str -> Z -> Prop :=
| it_plain : forall s n, numeral digit radix s n -> int_text digit radix signed s (Z.of_N n)
| it_plus : forall s n, numeral digit radix s n -> int_text digit radix signed (43 :: s) (Z.of_N n)
| it_minus : forall s n, signed = true -> numeral digit radix s n ->
    int_text digit radix signed (45 :: s) (- Z.of_N n).
(** The values of an integer type. *)
Definition int_range (t : ity) (z : Z) : Prop :=
  if i_signed t then (- 2 ^ (Z.of_N (i_bits t) - 1) <= z < 2 ^ (Z.of_N (i_bits t) - 1))%Z
  else (0 <= z < 2 ^ Z.of_N (i_bits t))%Z.
(** The shortest decimal text of a number: no superfluous leading zero. *)
Definition canonical (s : str) (n : N) : Prop :=
  numeral digit10 10 s n /\ (n = 0 -> s = [48]) /\ (n <> 0 -> hd 0 s <> 48).
(** The hex prefixes. *)
Definition hex_prefix (p : str) : Prop := p = [48; 120] \/ p = [48; 88].
(** ASCII upper-case letters to lower case. *)
Definition lower (c : N) : N := if (65 <=? c) && (c <=? 90) then c + 32 else c.
(** [hex_of s b]: the text [s] spells the bytes [b], two hex digits a byte. *)
Inductive hex_of : str -> bytes -> Prop :=
| hex_nil : hex_of [] []
| hex_cons : forall c1 d1 c2 d2 s b, digit16 c1 d1 -> digit16 c2 d2 -> hex_of s b ->
    hex_of (c1 :: c2 :: s) (16 * d1 + d2 :: b).
