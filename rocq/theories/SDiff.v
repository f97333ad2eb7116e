(** Specification for the floating point difficulty. *)
From Verif Require Import Base SU256 MFloat SFloat.
Local Open Scope N_scope.

(** Finite numbers that are not negative, in units of 2^-1074. *)
Definition units (m s : N) : N := m * 2 ^ s.
(** how far (m, s) is from num / den, in units of 2^-1074 / den *)
Definition away (num den m s : N) : Z := Z.abs (Z.of_N (num * 2 ^ 1074) - Z.of_N (units m s * den)).
(** The f64 (m, s) is the one nearest to num / den, or of the two nearest the even one. *)
Definition nearest_to (num den m s : N) : Prop :=
  double m s /\ forall m' s', double m' s' -> (m', s') <> (m, s) ->
    (away num den m s < away num den m' s')%Z \/ (away num den m s = away num den m' s' /\ N.even m = true).
(** [v] has at most 53 significant bits. *)
Definition short (v : N) : Prop := exists w z, v = w * 2 ^ z /\ w < 2 ^ 53.
Definition one : f64 := Fin false (2 ^ 52) 1022.
