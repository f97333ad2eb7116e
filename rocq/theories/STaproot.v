(** Script trees as in BIP 341, their paths and their listing in depth-first order; costs of trees with weights; the laws
    of x-only keys.  Only the types of values are shared with the model. *)
From Coq Require Import String Permutation.
From Verif Require Import Base MDec SWire MText MSighash SSighash MTaproot.
Local Open Scope N_scope.

Definition version_byte (v : leaf_version) : N := match v with TapScript => 0xc0 | Future f => f end.
(** leaf versions are even, and not the annex prefix *)
Definition version_ok (v : leaf_version) : Prop := match v with TapScript => True | Future f => f < 256 /\ f mod 2 = 0 /\ f <> 0x50 /\ f <> 0xc0 end.

(** a tree: scripts and hashes of hidden parts at the leaves *)
Inductive tree := Leaf (l : tap_leaf) | Branch (l r : tree).
Fixpoint height (t : tree) : N := match t with Leaf _ => 0 | Branch l r => 1 + N.max (height l) (height r) end.
(** all leaves with their depths, from left to right *)
Fixpoint dfs (d : N) (t : tree) : list (N * tap_leaf) := match t with Leaf l => [(d, l)] | Branch l r => dfs (d + 1) l ++ dfs (d + 1) r end.
Fixpoint hidden (t : tree) : bool := match t with Leaf (LHidden _) => true | Leaf (LScript _ _) => false | Branch l r => hidden l || hidden r end.
(** equal up to exchanging the children of branches *)
Inductive mirror : tree -> tree -> Prop :=
| mirror_leaf : forall l, mirror (Leaf l) (Leaf l)
| mirror_same : forall l r l' r', mirror l l' -> mirror r r' -> mirror (Branch l r) (Branch l' r')
| mirror_swap : forall l r l' r', mirror l r' -> mirror r l' -> mirror (Branch l r) (Branch l' r').
(** values that fit their machine types *)
Definition hash_ok (h : bytes) : Prop := lenN h = 32 /\ bytes_ok h.
Definition leaf_ok (l : tap_leaf) : Prop := match l with LScript s v => is_u64 (lenN s) /\ version_ok v | LHidden h => hash_ok h end.
Fixpoint tree_ok (t : tree) : Prop := match t with Leaf l => leaf_ok l | Branch l r => tree_ok l /\ tree_ok r end.

Section Hash.
  Variable H : bytes -> bytes.
  (** TapLeaf and TapBranch hashes of BIP 341; hashes are compared as big-endian numbers *)
  Definition leaf_message (s : bytes) (v : leaf_version) : bytes := H (lit "TapLeaf") ++ H (lit "TapLeaf") ++ [version_byte v] ++ wire_bytes s.
  Definition branch_message (a b : bytes) : bytes := H (lit "TapBranch") ++ H (lit "TapBranch") ++ (if be_val a <=? be_val b then a ++ b else b ++ a).
  Definition leaf_root (l : tap_leaf) : bytes := match l with LScript s v => H (leaf_message s v) | LHidden h => h end.
  Fixpoint root (t : tree) : bytes := match t with Leaf l => leaf_root l | Branch l r => H (branch_message (root l) (root r)) end.
  (** the leaves, each with the hashes of the siblings from the leaf to the root *)
  Definition below (h : bytes) (x : tap_leaf * list bytes) : tap_leaf * list bytes := (fst x, snd x ++ [h]).
  Fixpoint paths (t : tree) : list (tap_leaf * list bytes) :=
    match t with Leaf l => [(l, [])] | Branch l r => map (below (root r)) (paths l) ++ map (below (root l)) (paths r) end.
  Definition is_script (x : tap_leaf * list bytes) : bool := match fst x with LScript _ _ => true | LHidden _ => false end.
  (** the root that a leaf and a path lead to *)
  Definition climb (h : bytes) (path : list bytes) : bytes := fold_left (fun a b => H (branch_message a b)) path h.
  (** the messages hashed for a tree, and for climbing a path *)
  Fixpoint tree_messages (t : tree) : list bytes :=
    match t with
    | Leaf (LScript s v) => [leaf_message s v]
    | Leaf (LHidden _) => []
    | Branch l r => branch_message (root l) (root r) :: tree_messages l ++ tree_messages r
    end.
  Fixpoint climb_messages (h : bytes) (path : list bytes) : list bytes :=
    match path with [] => [] | x :: p => branch_message h x :: climb_messages (H (branch_message h x)) p end.
  Definition tag_messages : list bytes := [lit "TapLeaf"; lit "TapBranch"].
  (** two different messages, one of each list, with the same hash *)
  Definition collision (la lb : list bytes) : Prop := exists x y, In x la /\ In y lb /\ x <> y /\ H x = H y.
  Definition tweak_message (k : bytes) (root : option bytes) : bytes :=
    H (lit "TapTweak") ++ H (lit "TapTweak") ++ k ++ match root with Some h => h | None => [] end.
End Hash.

(** A node stands for a tree: same hash, the same scripts with the same paths, and it knows whether something is hidden. *)
Definition stands_for (H : bytes -> bytes) (n : node_info) (t : tree) : Prop :=
  ni_hash n = root H t /\ Permutation (map (fun l => (ln_leaf l, ln_branch l)) (ni_leaves n)) (filter is_script (paths H t)) /\ ni_hidden n = hidden t.
(** adding leaves and hidden nodes one after the other, starting from a given builder *)
Definition add_item (H : bytes -> bytes) (b : builder) (d : N) (l : tap_leaf) : rust (result builder builder_err) :=
  match l with LScript s v => add_leaf_with_ver H b d s v | LHidden h => add_hidden_node H b d h end.
Fixpoint build_from (H : bytes -> bytes) (b : builder) (items : list (N * tap_leaf)) : rust (result builder builder_err) :=
  match items with
  | [] => Ret (Ok b)
  | (d, l) :: items' => match add_item H b d l with Ret (Ok b) => build_from H b items' | r => r end
  end.
Definition build (H : bytes -> bytes) (items : list (N * tap_leaf)) : rust (result builder builder_err) := build_from H [] items.

(** * Trees with weights *)
Inductive wtree := WLeaf (w : N) (s : bytes) | WBranch (l r : wtree).
Fixpoint weighted (t : wtree) : list (N * bytes) := match t with WLeaf w s => [(w, s)] | WBranch l r => weighted l ++ weighted r end.
(** sum of weight times depth over the leaves: the average satisfaction cost *)
Fixpoint cost (d : N) (t : wtree) : N := match t with WLeaf w _ => w * d | WBranch l r => cost (d + 1) l + cost (d + 1) r end.
Fixpoint plain_tree (t : wtree) : tree := match t with WLeaf _ s => Leaf (LScript s TapScript) | WBranch l r => Branch (plain_tree l) (plain_tree r) end.
Definition total (l : list (N * bytes)) : N := fold_right (fun x a => fst x + a) 0 l.

(** * Keys *)
Record curve_ok (C : curve) : Prop := {
  ser_32 : forall k, hash_ok (c_ser C k);
  parse_ser : forall k, c_parse C (c_ser C k) = Some k;
  ser_parse : forall b k, hash_ok b -> c_parse C b = Some k -> c_ser C k = b;
  check_add : forall k k' o t, c_check C k k' o t = true <-> c_add C k t = Some (k', o);
  add_inj : forall k t t' r, t < CURVE_ORDER -> t' < CURVE_ORDER -> c_add C k t = Some r -> c_add C k t' = Some r -> t = t' }.
