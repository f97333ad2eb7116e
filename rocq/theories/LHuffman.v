(** Huffman trees are optimal and shallow: lemmas on trees with weights. *)
From Coq Require Import Permutation.
From Verif Require Import Base STaproot.
Local Open Scope N_scope.

(** * Costs as sums over the leaves *)
Fixpoint depths (d : N) (t : wtree) : list N := match t with WLeaf _ _ => [d] | WBranch l r => depths (d + 1) l ++ depths (d + 1) r end.
Fixpoint weights (t : wtree) : list N := match t with WLeaf w _ => [w] | WBranch l r => weights l ++ weights r end.
Fixpoint dot (a b : list N) : N := match a, b with x :: a', y :: b' => x * y + dot a' b' | _, _ => 0 end.
Fixpoint weight (t : wtree) : N := match t with WLeaf w _ => w | WBranch l r => weight l + weight r end.
Lemma dot_app : forall a a' b b', length a = length b -> dot (a ++ a') (b ++ b') = dot a b + dot a' b'.
Proof. induction a as [|x a IH]; intros a' [|y b] b' L; cbn [length] in L; try easy. cbn [app dot]. rewrite IH by lia. lia. Qed.
Lemma depths_len : forall t d, length (depths d t) = length (weights t).
Proof. induction t as [w s|l IL r IR]; intro d; [reflexivity|]. cbn [depths weights]. rewrite !app_length. auto. Qed.
Lemma cost_dot : forall t d, cost d t = dot (depths d t) (weights t).
Proof. induction t as [w s|l IL r IR]; intro d; cbn [cost depths weights dot]; [lia|]. rewrite dot_app by apply depths_len. rewrite IL, IR. reflexivity. Qed.
(** the cost is also the sum of the weights of the branches *)
Fixpoint merges (t : wtree) : N := match t with WLeaf _ _ => 0 | WBranch l r => weight l + weight r + merges l + merges r end.
Lemma cost_merges : forall t d, cost d t = d * weight t + merges t.
Proof. induction t as [w s|l IL r IR]; intro d; cbn [cost weight merges]; [lia|]. rewrite IL, IR. lia. Qed.

(** * The same tree with other weights *)
Fixpoint relabel (t : wtree) (ws : list N) : wtree * list N :=
  match t with
  | WLeaf _ s => match ws with w :: ws' => (WLeaf w s, ws') | [] => (t, []) end
  | WBranch l r => let '(l', ws') := relabel l ws in let '(r', ws'') := relabel r ws' in (WBranch l' r', ws'')
  end.
Lemma relabel_spec : forall t ws rest, length ws = length (weights t) ->
  exists t', relabel t (ws ++ rest) = (t', rest) /\ weights t' = ws /\ forall d, depths d t' = depths d t.
Proof.
  induction t as [w s|l IL r IR]; intros ws rest L; cbn [weights relabel] in *.
  - destruct ws as [|x [|y ws]]; try discriminate. eexists. split; [reflexivity|]. split; reflexivity.
  - rewrite app_length in L. assert (EW : ws ++ rest = firstn (length (weights l)) ws ++ (skipn (length (weights l)) ws ++ rest)) by (now rewrite app_assoc, firstn_skipn). rewrite EW.
    destruct (IL (firstn (length (weights l)) ws) (skipn (length (weights l)) ws ++ rest)) as (l' & -> & WL & DL); [rewrite firstn_length; lia|].
    destruct (IR (skipn (length (weights l)) ws) rest) as (r' & -> & WR & DR); [rewrite skipn_length; lia|].
    exists (WBranch l' r'). split; [reflexivity|]. cbn [weights depths]. rewrite WL, WR, firstn_skipn. split; [reflexivity|]. intro d. now rewrite DL, DR.
Qed.
Lemma relabel_ex : forall t ws, length ws = length (weights t) -> exists t', weights t' = ws /\ forall d, depths d t' = depths d t.
Proof. intros t ws L. destruct (relabel_spec t ws [] L) as (t' & _ & W & D). eauto. Qed.

(** * A deepest pair of siblings can be replaced by one leaf *)
Definition wheight := fix f (t : wtree) : N := match t with WLeaf _ _ => 0 | WBranch l r => 1 + N.max (f l) (f r) end.
Lemma depths_le : forall t d x, In x (depths d t) -> x <= d + wheight t.
Proof. induction t as [w s|l IL r IR]; intros d x I; cbn [depths wheight] in *; [destruct I as [<-|[]]; lia|]. apply in_app_iff in I as [I|I]; [apply IL in I|apply IR in I]; lia. Qed.
Lemma deepest : forall t d, 1 <= wheight t -> exists p q t', depths d t = p ++ d + wheight t :: d + wheight t :: q /\ depths d t' = p ++ d + wheight t - 1 :: q.
Proof.
  induction t as [w s|l IL r IR]; intros d L; cbn [wheight] in L; [lia|]. cbn [wheight depths]. destruct (N.leb_spec (wheight r) (wheight l)) as [LE|GT].
  - replace (N.max (wheight l) (wheight r)) with (wheight l) by lia. destruct (N.eq_dec (wheight l) 0) as [Z|NZ].
    + destruct l as [w s|]; [|cbn [wheight] in Z; lia]. destruct r as [w' s'|]; [|cbn [wheight] in LE; lia]. exists [], [], (WLeaf 0 []). cbn [depths app wheight]. split; [reflexivity|]. f_equal; lia.
    + destruct (IL (d + 1) ltac:(lia)) as (p & q & l' & E & E'). exists p, (q ++ depths (d + 1) r), (WBranch l' r). cbn [depths]. rewrite E, E', <- !app_assoc. cbn [app].
      replace (d + (1 + wheight l)) with (d + 1 + wheight l) by lia. split; reflexivity.
  - replace (N.max (wheight l) (wheight r)) with (wheight r) by lia. destruct (IR (d + 1) ltac:(lia)) as (p & q & r' & E & E'). exists (depths (d + 1) l ++ p), q, (WBranch l r'). cbn [depths]. rewrite E, E', <- !app_assoc.
    replace (d + (1 + wheight r)) with (d + 1 + wheight r) by lia. split; reflexivity.
Qed.

(** * Exchanging *)
Lemma swap_min : forall D e ws a rest, (forall x, In x e -> x <= D) -> length ws = S (length e) -> Permutation ws (a :: rest) -> (forall x, In x rest -> a <= x) ->
  exists r, Permutation r rest /\ length r = length e /\ dot (D :: e) (a :: r) <= dot (D :: e) ws.
Proof.
  intros D e ws a rest DM LN P MIN. destruct ws as [|x r]; [discriminate|]. cbn [length] in LN. destruct (N.eq_dec x a) as [->|NE].
  - exists r. split; [now apply Permutation_cons_inv in P|]. split; [lia|reflexivity].
  - assert (IA : In a r). { assert (X : In a (x :: r)) by (apply (Permutation_in a (Permutation_sym P)); now left). destruct X; [congruence|assumption]. }
    apply in_split in IA as (r1 & r2 & ->). exists (r1 ++ x :: r2).
    assert (P2 : Permutation (r1 ++ x :: r2) rest).
    { apply (Permutation_cons_inv (a := a)). rewrite <- P. rewrite <- (Permutation_middle r1 r2 x), <- (Permutation_middle r1 r2 a). apply perm_swap. }
    split; [exact P2|]. rewrite app_length in LN |- *. cbn [length] in *. split; [lia|].
    assert (AX : a <= x) by (apply MIN, (Permutation_in x P2), in_elt).
    rewrite <- (firstn_skipn (length r1) e). remember (skipn (length r1) e) as e2 eqn:E2. assert (L2 : length e2 = S (length r2)) by (subst e2; rewrite skipn_length; lia).
    destruct e2 as [|y e2]; [discriminate|].
    assert (Y : y <= D) by (apply DM; rewrite <- (firstn_skipn (length r1) e), <- E2; apply in_elt).
    cbn [dot]. rewrite !dot_app by (rewrite firstn_length; lia). cbn [dot]. clear - AX Y. nia.
Qed.
Lemma dot_perm_front : forall p q D (ws : list N), length ws = length (p ++ D :: D :: q) ->
  exists u x y v, ws = u ++ x :: y :: v /\ length u = length p /\ length v = length q /\ dot (p ++ D :: D :: q) ws = dot (D :: D :: p ++ q) (x :: y :: u ++ v).
Proof.
  intros p q D ws L. rewrite app_length in L. cbn [length] in L. rewrite <- (firstn_skipn (length p) ws). remember (skipn (length p) ws) as w2 eqn:E.
  assert (L2 : length w2 = S (S (length q))) by (subst w2; rewrite skipn_length; lia). destruct w2 as [|x [|y v]]; try discriminate.
  assert (LF : length (firstn (length p) ws) = length p) by (rewrite firstn_length; lia).
  exists (firstn (length p) ws), x, y, v. split; [reflexivity|]. split; [exact LF|]. split; [cbn [length] in L2; lia|].
  rewrite dot_app by congruence. cbn [dot]. rewrite dot_app by congruence. lia.
Qed.
(** a tree over two smallest weights and others costs at least their sum more than some tree where they are joined *)
Lemma join_min : forall t a b rest, Permutation (weights t) (a :: b :: rest) -> (forall x, In x rest -> a <= x /\ b <= x) -> a <= b ->
  exists t', Permutation (weights t') (a + b :: rest) /\ cost 0 t' + (a + b) <= cost 0 t.
Proof.
  intros t a b rest P MIN AB.
  assert (HT : 1 <= wheight t). { destruct t as [w s|l r]; [|cbn [wheight]; lia]. cbn [weights] in P. apply Permutation_length in P. discriminate. }
  destruct (deepest t 0 HT) as (p & q & t' & E & E'). rewrite !N.add_0_l in *. set (D := wheight t) in *.
  assert (DM : forall x, In x (p ++ q) -> x <= D).
  { intros x X. apply (depths_le t 0 x). rewrite E. apply in_app_iff in X as [X|X]; apply in_app_iff; [now left|right; now right; right]. }
  assert (L := depths_len t 0). rewrite E in L. destruct (dot_perm_front p q D (weights t) ltac:(congruence)) as (u & x & y & v & W & LU & LV & DOT).
  destruct (swap_min D (D :: p ++ q) (x :: y :: u ++ v) a (b :: rest)) as (r & PR & LR & C1).
  { intros z [<-|Z]; [lia|now apply DM]. }
  { cbn [length]. rewrite !app_length. lia. }
  { rewrite <- P, W. rewrite <- (Permutation_middle u (y :: v) x), <- (Permutation_middle u v y). reflexivity. }
  { intros z [<-|Z]; [exact AB|]. apply MIN in Z. tauto. }
  destruct (swap_min D (p ++ q) r b rest) as (r2 & PR2 & LR2 & C2); [exact DM|exact LR|exact PR|intros z Z; apply MIN in Z; tauto|].
  rewrite app_length in LR2.
  destruct (relabel_ex t' (firstn (length p) r2 ++ a + b :: skipn (length p) r2)) as (t2 & W2 & D2).
  { rewrite <- (depths_len t' 0), E'. rewrite !app_length. cbn [length]. rewrite firstn_length, skipn_length. lia. }
  exists t2. split.
  - rewrite W2, <- Permutation_middle, firstn_skipn. now apply perm_skip.
  - assert (CT : cost 0 t = dot (D :: D :: p ++ q) (x :: y :: u ++ v)) by (rewrite cost_dot, E; exact DOT).
    assert (C2' : cost 0 t2 = dot p (firstn (length p) r2) + ((D - 1) * (a + b) + dot q (skipn (length p) r2))).
    { rewrite cost_dot, D2, E', W2, dot_app by (rewrite firstn_length; lia). reflexivity. }
    assert (DR : dot (p ++ q) r2 = dot p (firstn (length p) r2) + dot q (skipn (length p) r2)).
    { rewrite <- (firstn_skipn (length p) r2) at 1. apply dot_app. rewrite firstn_length. lia. }
    rewrite CT, C2'. cbn [dot] in *. rewrite DR in C2. clear - C1 C2 HT. fold D in HT. clearbody D.
    set (m := dot p _) in *. set (n := dot q _) in *. set (k := dot (p ++ q) (u ++ v)) in *. clearbody m n k. set (rr := match r with [] => _ | _ => _ end) in *. clearbody rr. nia.
Qed.
