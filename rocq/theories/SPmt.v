(** Specification of partial Merkle trees (BIP 37). *)
From Verif Require Import Base MDec MTx MPmt SWire SMerkle.
Local Open Scope N_scope.

(** The number of nodes [h] levels above [n] leaves. *)
Definition nodes_at (n h : N) : N := (n + 2 ^ h - 1) / 2 ^ h.
(** [h] is the height of the tree over [n] leaves. *)
Definition tree_height (n h : N) : Prop := nodes_at n h = 1 /\ forall k, k < h -> 2 <= nodes_at n k.

Section Pmt.
Context {T : Type} (combine : T -> T -> T).

(** A Merkle tree of which only some nodes are known. *)
Inductive ptree :=
| PHash (x : T)             (* a node whose subtree is not shown *)
| PLeaf (x : T)             (* a transaction that is reported *)
| PBoth (l r : ptree)       (* a node shown with its two children *)
| POne (l : ptree).         (* a node whose only child is counted twice *)

(** [t] is a tree below node number [pos] of level [h] in a Merkle tree with [n] leaves. *)
Inductive fits (n : N) : N -> N -> ptree -> Prop :=
| fits_hash : forall h pos x, fits n h pos (PHash x)
| fits_leaf : forall pos x, fits n 0 pos (PLeaf x)
| fits_both : forall h pos l r, 2 * pos + 1 < nodes_at n h -> fits n h (2 * pos) l -> fits n h (2 * pos + 1) r ->
    fits n (h + 1) pos (PBoth l r)
| fits_one : forall h pos l, nodes_at n h <= 2 * pos + 1 -> fits n h (2 * pos) l -> fits n (h + 1) pos (POne l).

(** Depth first: one flag per node, one hash per node without children. *)
Fixpoint flags (t : ptree) : list bool :=
  match t with
  | PHash _ => [false]
  | PLeaf _ => [true]
  | PBoth l r => true :: flags l ++ flags r
  | POne l => true :: flags l
  end.
Fixpoint shown (t : ptree) : list T :=
  match t with
  | PHash x => [x]
  | PLeaf x => [x]
  | PBoth l r => shown l ++ shown r
  | POne l => shown l
  end.
Fixpoint proot (t : ptree) : T :=
  match t with
  | PHash x => x
  | PLeaf x => x
  | PBoth l r => combine (proot l) (proot r)
  | POne l => combine (proot l) (proot l)
  end.
(** The reported transactions with their positions. *)
Fixpoint found (pos : N) (t : ptree) : list (N * T) :=
  match t with
  | PHash _ => []
  | PLeaf x => [(pos, x)]
  | PBoth l r => found (2 * pos) l ++ found (2 * pos + 1) r
  | POne l => found (2 * pos) l
  end.
(** The pairs of nodes that are hashed. *)
Fixpoint pairs (t : ptree) : list (T * T) :=
  match t with
  | PHash _ => []
  | PLeaf _ => []
  | PBoth l r => (proot l, proot r) :: pairs l ++ pairs r
  | POne l => (proot l, proot l) :: pairs l
  end.
(** No node has two equal children. *)
Fixpoint distinct (t : ptree) : Prop :=
  match t with
  | PHash _ => True
  | PLeaf _ => True
  | PBoth l r => proot l <> proot r /\ distinct l /\ distinct r
  | POne l => distinct l
  end.
(** A node is shown with its children only if something below it is reported. *)
Fixpoint lean (t : ptree) : Prop :=
  match t with
  | PHash _ => True
  | PLeaf _ => True
  | PBoth l r => (found 0 l <> [] \/ found 0 r <> []) /\ lean l /\ lean r
  | POne l => found 0 l <> [] /\ lean l
  end.
(** The marked transactions of a list with their positions, counted from [i]. *)
Fixpoint marked (i : N) (txids : list T) (marks : list bool) : list (N * T) :=
  match txids, marks with
  | x :: txids', m :: marks' => (if m then [(i, x)] else []) ++ marked (i + 1) txids' marks'
  | _, _ => []
  end.
(** The tree [t] is written as the partial Merkle tree [p], with [pad] unused bits in its last byte. *)
Definition written (p : pmt T) (t : ptree) (pad : list bool) : Prop :=
  pm_bits p = flags t ++ pad /\ pm_hashes p = shown t /\ (lenN (flags t) + 7) / 8 = (lenN (pm_bits p) + 7) / 8.
(** Two different pairs, one hashed in the partial tree and one in the tree over [l], with the same hash. *)
Definition pmt_collision (t : ptree) (l : list T) : Prop :=
  exists a b c d, In (a, b) (pairs t) /\ hashed combine l c d /\ (a, b) <> (c, d) /\ combine a b = combine c d.
End Pmt.
Arguments ptree T : clear implicits.

(** *** Wire format *)
(** A byte with the given bits, the lowest first. *)
Fixpoint byte_of (l : list bool) : N := match l with [] => 0 | b :: l' => (if b then 1 else 0) + 2 * byte_of l' end.
(** [l] in groups of eight, the last one short *)
Inductive bit_bytes : list bool -> bytes -> Prop :=
| bb_nil : bit_bytes [] []
| bb_last : forall l, 1 <= lenN l < 8 -> bit_bytes l [byte_of l]
| bb_full : forall l rest bs, lenN l = 8 -> bit_bytes rest bs -> bit_bytes (l ++ rest) (byte_of l :: bs).
Definition wire_pmt (p : pmt bytes) (l : bytes) : Prop :=
  exists packed, bit_bytes (pm_bits p) packed /\
    l = le_bytes 4 (pm_num p) ++ wire_list (fun h => h) (pm_hashes p) ++ wire_bytes packed.
Definition pmt_ok (p : pmt bytes) : Prop :=
  pm_num p < 2 ^ 32 /\ Forall hash_ok (pm_hashes p) /\ lenN (pm_hashes p) <= 4000000 /\
  (lenN (pm_bits p) + 7) / 8 <= 4000000.
