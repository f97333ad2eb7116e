(** Specification of Bitcoin's Merkle tree. *)
From Verif Require Import Base.

Section Merkle.
Context {T : Type} (combine : T -> T -> T).

(** One level up: pairs are combined, a last single node with itself. *)
Fixpoint next_level (l : list T) : list T :=
  match l with
  | a :: b :: l' => combine a b :: next_level l'
  | [a] => [combine a a]
  | [] => []
  end.
(** The root is reached by going up until one node is left. *)
Inductive merkle_root : list T -> T -> Prop :=
| root_leaf : forall x, merkle_root [x] x
| root_up : forall l r, 2 <= length l -> merkle_root (next_level l) r -> merkle_root l r.
(** Two equal nodes are siblings at some level (CVE-2012-2459). *)
Inductive equal_siblings : list T -> Prop :=
| eq_here : forall p x q, Nat.Even (length p) -> equal_siblings (p ++ x :: x :: q)
| eq_above : forall l, 2 <= length l -> equal_siblings (next_level l) -> equal_siblings l.
(** The pairs hashed in the tree over [l]. *)
Inductive hashed : list T -> T -> T -> Prop :=
| hashed_here : forall p a b q, Nat.Even (length p) -> hashed (p ++ a :: b :: q) a b
| hashed_last : forall p a, Nat.Even (length p) -> 1 <= length p -> hashed (p ++ [a]) a a
| hashed_above : forall l a b, 2 <= length l -> hashed (next_level l) a b -> hashed l a b.
(** Two different pairs, hashed in the trees over [l1] and [l2], with the same hash. *)
Definition hash_collision (l1 l2 : list T) : Prop :=
  exists a b c d, hashed l1 a b /\ hashed l2 c d /\ (a, b) <> (c, d) /\ combine a b = combine c d.
(** [l'] is the list of nodes [k] levels above [l]. *)
Fixpoint level_up (k : nat) (l : list T) : list T := match k with O => l | S k' => level_up k' (next_level l) end.

(** The recursive definition: the root of a tree of height [h] over at most 2^h leaves. *)
Fixpoint root_rec (h : nat) (l : list T) (d : T) : T :=
  match h with
  | O => hd d l
  | S h' =>
      if length l <=? 2 ^ h' then combine (root_rec h' l d) (root_rec h' l d)
      else combine (root_rec h' (firstn (2 ^ h') l) d) (root_rec h' (skipn (2 ^ h') l) d)
  end.
End Merkle.
