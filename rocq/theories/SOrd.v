(** Specification for C66: what Rust's Ord and Eq contracts ask of a comparison. *)
From Coq Require Import List Sorted Permutation NArith.
From Verif Require Import Base.

(** [cmp] is a total order whose Equal is the relation [same]: comparing the other way round gives the
    opposite, "less" is transitive, and values that are the same compare alike with everything. *)
Record ordering {A} (cmp : A -> A -> comparison) (same : A -> A -> Prop) : Prop := {
  ord_same : forall x y, cmp x y = Eq <-> same x y;
  ord_opp : forall x y, cmp y x = CompOpp (cmp x y);
  ord_trans : forall x y z, cmp x y = Lt -> cmp y z = Lt -> cmp x z = Lt;
  ord_cong : forall x y z, same x y -> cmp x z = cmp y z }.

(** [eqb] decides a relation that is an equivalence. *)
Record equality {A} (eqb : A -> A -> bool) : Prop := {
  eq_refl_ : forall x, eqb x x = true;
  eq_sym_ : forall x y, eqb x y = eqb y x;
  eq_trans_ : forall x y z, eqb x y = true -> eqb y z = true -> eqb x z = true }.

(** What users of an order rely on: a sorted list is determined by what it holds. *)
Definition sorted {A} (cmp : A -> A -> comparison) (l : list A) : Prop :=
  StronglySorted (fun x y => cmp x y <> Gt) l.

(** Dictionary order on lists: at the first place where they differ the smaller element is first, and a proper
    prefix is first. *)
Inductive dictionary {A} (less : A -> A -> Prop) : list A -> list A -> Prop :=
| Prefix : forall y b, dictionary less [] (y :: b)
| Here : forall x y a b, less x y -> dictionary less (x :: a) (y :: b)
| Later : forall x a b, dictionary less a b -> dictionary less (x :: a) (x :: b).
(** [a] decides, and [b] only if [a] ties *)
Definition field {A T} (f : A -> T) (less : T -> T -> Prop) (rest : A -> A -> Prop) (x y : A) : Prop :=
  less (f x) (f y) \/ f x = f y /\ rest x y.
Definition last {A T} (f : A -> T) (less : T -> T -> Prop) (x y : A) : Prop := less (f x) (f y).
