(** What floating point numbers and their decimal texts mean, independent of how they are computed.  All numbers are
    compared as integers: every f64 is a whole multiple of 2^-1074. *)
From Coq Require Import String.
From Verif Require Import Base MText SText SAmountText MFloat.
Local Open Scope N_scope.

(** the f64 numbers: 53 bits of mantissa, the highest one set unless the exponent is the smallest *)
Definition double (m s : N) : Prop := m < 2 ^ 53 /\ s <= 2045 /\ (s = 0 \/ 2 ^ 52 <= m).
Definition is_f64 (x : f64) : Prop := match x with Fin _ m s => double m s | _ => True end.
(** how far v / 10^k is from m * 2^s / 2^1074, in units of 1 / (10^k * 2^1074) *)
Definition off (v k m s : N) : Z := Z.abs (Z.of_N (v * 2 ^ 1074) - Z.of_N (m * 2 ^ s * 10 ^ k)).
(** [nearest v k m s]: the f64 (m, s) is the one nearest to v / 10^k, or of the two nearest the even one; decimals from halfway
    beyond the largest f64 have none *)
Definition nearest (v k m s : N) : Prop :=
  double m s /\ v * 2 ^ 1074 < (2 ^ 54 - 1) * 2 ^ 2044 * 10 ^ k /\
  forall m' s', double m' s' -> (m', s') <> (m, s) ->
    (off v k m s < off v k m' s')%Z \/ (off v k m s = off v k m' s' /\ N.even m = true).
(** [v] can be written with [n] significant digits *)
Definition significant (n v : N) : Prop := exists w z, v = w * 10 ^ z /\ w < 10 ^ n.
(** [plain u v k]: [u] writes v / 10^k: a whole part without superfluous zeros and [k] decimals, the last one not zero *)
Definition plain (u : str) (v k : N) : Prop :=
  exists ip n fp m, canonical ip n /\ digits_or_empty fp m /\ (fp = [] \/ last fp 48 <> 48) /\
    u = ip ++ (match fp with [] => [] | _ => 46 :: fp end) /\ k = lenN fp /\ v = n * 10 ^ lenN fp + m.
(** [prints x t]: [t] is the text Rust writes for [x]: the decimal with the fewest significant digits that is read back as [x] *)
Definition prints (x : f64) (t : str) : Prop :=
  match x with
  | NaN => t = lit "NaN"
  | Inf neg => t = (if neg then [45] else []) ++ lit "inf"
  | Fin neg m s => exists u v k, t = (if neg then [45] else []) ++ u /\ plain u v k /\ nearest v k m s /\
      forall n v' k', nearest v' k' m s -> significant n v' -> significant n v
  end.
(** the f64 with the sign of [a] nearest to a / 10^k *)
Definition closest_f64 (a : Z) (k : N) (x : f64) : Prop :=
  exists m s, x = Fin (a <? 0)%Z m s /\ nearest (Z.to_N (Z.abs a)) k m s.
(** zero with a minus sign *)
Definition minus_zero : f64 := Fin true 0 0.
(** comparison of numbers *)
Definition signed_value (neg : bool) (m s : N) : Z := (if neg then - Z.of_N (m * 2 ^ s) else Z.of_N (m * 2 ^ s))%Z.
Definition less (x y : f64) : Prop :=
  match x, y with Fin n m s, Fin n' m' s' => (signed_value n m s < signed_value n' m' s')%Z | _, _ => False end.
