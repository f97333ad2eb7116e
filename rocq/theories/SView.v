(** Specification for C68: which items of a slice a view covers. *)
From Coq Require Import List NArith.
From Verif Require Import Base MView.
Local Open Scope N_scope.

(** The view lies in a memory of [n] items, and addresses fit the machine. *)
Definition valid (n : N) (v : view) : Prop := v_start v + v_len v <= n /\ n < 2 ^ 64.
Definition covers (v : view) (p : N) : Prop := v_start v <= p < v_start v + v_len v.
(** No item is reachable through two of the views: what two live mutable references need. *)
Definition disjoint (vs : list view) : Prop :=
  forall i j a b p, nth_error vs i = Some a -> nth_error vs j = Some b -> covers a p -> covers b p -> i = j.
(** Together they reach exactly the items of [v]. *)
Definition partition (v : view) (vs : list view) : Prop := disjoint vs /\ forall p, covers v p <-> exists a, In a vs /\ covers a p.
