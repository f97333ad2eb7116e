(** What the numbers of U256 mean, and the non-negative IEEE 754 doubles.  Independent of the code. *)
From Verif Require Import Base MText SText MU256.
Local Open Scope N_scope.

(** The integer a two-limb value stands for, and the values whose limbs are u128. *)
Definition value (u : u256) : N := hi u * 2 ^ 128 + lo u.
Definition u256_ok (u : u256) : Prop := hi u < 2 ^ 128 /\ lo u < 2 ^ 128.
(** [r] represents the integer [v]. *)
Definition is (r : u256) (v : N) : Prop := u256_ok r /\ value r = v.
(** digits of the radixes up to ten *)
Definition digit_upto (r c d : N) : Prop := d < r /\ c = 48 + d.
(** the shortest numeral *)
Definition shortest (s : str) (n : N) : Prop := (n = 0 -> s = [48]) /\ (n <> 0 -> hd 0 s <> 48).
(** The non-negative finite doubles by their bits; their values in units of 2^-1074. *)
Definition f64_finite (b : N) : Prop := b < 2047 * 2 ^ 52.
Definition f64_units (b : N) : N :=
  let e := b / 2 ^ 52 in
  let f := b mod 2 ^ 52 in
  if e =? 0 then f else (2 ^ 52 + f) * 2 ^ (e - 1).
Definition distance (x y : N) : Z := Z.abs (Z.of_N x - Z.of_N y).
