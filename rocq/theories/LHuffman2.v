(** The loop of with_huffman_tree: which trees it builds. *)
From Coq Require Import Permutation.
From Verif Require Import Base MDec SWire MTaproot STaproot LTaproot LHuffman.
Local Open Scope N_scope.

Lemma take_max_spec : forall l x m r, take_max x l = (m, r) -> Permutation (x :: l) (m :: r) /\ fst m <= fst x /\ forall e, In e r -> fst m <= fst e.
Proof.
  induction l as [|y l IH]; intros x m r E; cbn [take_max] in E.
  - injection E as <- <-. split; [reflexivity|]. split; [lia|easy].
  - assert (C : entry_cmp y x = Gt /\ fst y <= fst x \/ entry_cmp y x <> Gt /\ fst x <= fst y).
    { unfold entry_cmp, then_cmp. destruct (N.compare_spec (fst x) (fst y)) as [Q|Q|Q].
      - rewrite Q. destruct (node_cmp (snd y) (snd x)); [right|right|left]; split; try easy; lia.
      - right. split; [easy|lia].
      - left. split; [easy|lia]. }
    destruct C as [[C L]|[C L]].
    + rewrite C in E. destruct (take_max y l) as [m' r'] eqn:T. injection E as <- <-. destruct (IH _ _ _ T) as (P & LM & A).
      split; [transitivity (x :: m' :: r'); [now apply perm_skip|apply perm_swap]|]. split; [lia|]. intros e [<-|I]; [lia|auto].
    + destruct (take_max x l) as [m' r'] eqn:T. assert (E' : (m', y :: r') = (m, r)) by (destruct (entry_cmp y x); congruence). injection E' as <- <-. destruct (IH _ _ _ T) as (P & LM & A).
      split; [transitivity (y :: x :: l); [apply perm_swap|]; transitivity (y :: m' :: r'); [now apply perm_skip|apply perm_swap]|]. split; [exact LM|]. intros e [<-|I]; [lia|auto].
Qed.
Lemma heap_pop_spec : forall l, l <> [] -> exists m r, heap_pop l = Some (m, r) /\ Permutation l (m :: r) /\ forall e, In e r -> fst m <= fst e.
Proof. intros [|x l] N; [easy|]. cbn [heap_pop]. destruct (take_max x l) as [m r] eqn:T. destruct (take_max_spec _ _ _ _ T) as (P & _ & A). eauto. Qed.

(** joining again and again two of the lightest trees *)
Inductive huff : list (N * wtree) -> option wtree -> Prop :=
| huff_one : forall p t, huff [(p, t)] (Some t)
| huff_join : forall fs p1 t1 p2 t2 rest o, Permutation fs ((p1, t1) :: (p2, t2) :: rest) -> p1 <= p2 -> (forall e, In e rest -> p2 <= fst e) ->
    wheight (WBranch t2 t1) <= 128 -> huff ((saturating_add32 p1 p2, WBranch t2 t1) :: rest) o -> huff fs o
| huff_stuck : forall fs p1 t1 p2 t2 rest, Permutation fs ((p1, t1) :: (p2, t2) :: rest) -> p1 <= p2 -> (forall e, In e rest -> p2 <= fst e) ->
    128 < wheight (WBranch t2 t1) -> huff fs None.

Section Hash.
  Variable H : bytes -> bytes.
  Hypothesis H_ok : forall m, hash_ok (H m).
  Definition ent (x : N * wtree) : entry := (fst x, nodef H (plain_tree (snd x))).
  Definition scripts_ok (t : wtree) : Prop := Forall (fun x => is_u64 (lenN (snd x))) (weighted t).
  Lemma plain_ok : forall t, scripts_ok t -> tree_ok (plain_tree t).
  Proof.
    induction t as [w s|l IL r IR]; unfold scripts_ok in *; cbn [weighted plain_tree tree_ok leaf_ok version_ok].
    - intro F. inversion F; subst. cbn [snd] in *. auto.
    - rewrite Forall_app. tauto.
  Qed.
  Lemma plain_height : forall t, height (plain_tree t) = wheight t.
  Proof. induction t as [w s|l IL r IR]; cbn [plain_tree height wheight]; [reflexivity|]. now rewrite IL, IR. Qed.
  Lemma plain_reach : forall t, exists x, In x (nodes H (plain_tree t)) /\ lenN (ln_branch x) = wheight t.
  Proof.
    induction t as [w s|l (x & X & LX) r (y & Y & LY)]; cbn [plain_tree nodes wheight].
    - eexists. split; [now left|reflexivity].
    - destruct (N.leb_spec (wheight r) (wheight l)).
      + exists (push_leaf (root H (plain_tree r)) x). split; [destruct (_ <? _); apply in_app_iff; [right|left]; now apply in_map|]. unfold push_leaf. cbn [ln_branch]. rewrite lenN_app, LX. change (lenN [_]) with 1. lia.
      + exists (push_leaf (root H (plain_tree l)) y). split; [destruct (_ <? _); apply in_app_iff; [left|right]; now apply in_map|]. unfold push_leaf. cbn [ln_branch]. rewrite lenN_app, LY. change (lenN [_]) with 1. lia.
  Qed.
  Lemma push_all_stuck : forall ls h x, In x ls -> 128 <= lenN (ln_branch x) -> exists e, push_all ls h = Err e.
  Proof.
    induction ls as [|l ls IH]; intros h x I L; [destruct I|]. cbn [push_all]. unfold branch_push, MAX_NODE_COUNT. destruct (N.leb_spec 128 (lenN (ln_branch l))); [eauto|].
    destruct I as [->|I]; [lia|]. destruct (IH h x I L) as [e ->]. eauto.
  Qed.
  Lemma combine_plain : forall l r, scripts_ok l -> scripts_ok r -> wheight l <= 128 -> wheight r <= 128 ->
    combine H (nodef H (plain_tree r)) (nodef H (plain_tree l)) = if wheight (WBranch l r) <=? 128 then Ok (nodef H (plain_tree (WBranch l r))) else Err (EDepth 128).
  Proof.
    intros l r SL SR HL HR. cbn [wheight]. destruct (N.leb_spec (1 + N.max (wheight l) (wheight r)) 128) as [L|G].
    - cbn [plain_tree]. apply combine_nodef; [exact H_ok|now apply plain_ok..|]. intros x X. apply in_app_iff in X as [X|X]; apply (nodes_height H) in X; rewrite plain_height in X; lia.
    - assert (S : exists e, combine H (nodef H (plain_tree r)) (nodef H (plain_tree l)) = Err (EDepth e) /\ exists x, In x (nodes H (plain_tree l) ++ nodes H (plain_tree r)) /\ e = lenN (ln_branch x) /\ 128 <= e).
      { unfold combine. cbn [nodef ni_hash ni_leaves ni_hidden]. destruct (combine_hashes _ _ _) as [hash first].
        assert (G2 : forall a b ha hb, (exists x, In x (a ++ b) /\ 128 <= lenN (ln_branch x)) -> exists e, match push_all a hb with Err e => Err (EDepth e) | Ok la => match push_all b ha with Err e => Err (EDepth e) | Ok lb => Ok (mk_node hash (la ++ lb) (if first then hidden (plain_tree r) || hidden (plain_tree l) else hidden (plain_tree l) || hidden (plain_tree r))) end end = Err (EDepth e) /\ exists x, In x (a ++ b) /\ e = lenN (ln_branch x) /\ 128 <= e).
        { intros a b ha hb (x & X & LX). destruct (push_all a hb) as [la|e] eqn:EA.
          - destruct (push_all b ha) as [lb|e] eqn:EB.
            + exfalso. apply in_app_iff in X as [X|X]; [destruct (push_all_stuck a hb x X LX)|destruct (push_all_stuck b ha x X LX)]; congruence.
            + exists e. split; [reflexivity|]. destruct (push_all_err H _ _ _ EB) as (GE & y & Y & ->). exists y. split; [apply in_app_iff; now right|]. split; [reflexivity|lia].
          - exists e. split; [reflexivity|]. destruct (push_all_err H _ _ _ EA) as (GE & y & Y & ->). exists y. split; [apply in_app_iff; now left|]. split; [reflexivity|lia]. }
        assert (DEEP : exists x, In x (nodes H (plain_tree l) ++ nodes H (plain_tree r)) /\ 128 <= lenN (ln_branch x)).
        { destruct (plain_reach l) as (x & X & LX), (plain_reach r) as (y & Y & LY). destruct (N.leb_spec 128 (wheight l)); [exists x|exists y]; (split; [apply in_app_iff; auto|lia]). }
        destruct first; cbn [ni_hash ni_leaves ni_hidden].
        - destruct (G2 (nodes H (plain_tree r)) (nodes H (plain_tree l)) (root H (plain_tree r)) (root H (plain_tree l))) as (e & E & x & X & EX).
          + destruct DEEP as (x & X & LX). exists x. split; [|exact LX]. apply in_app_iff. apply in_app_iff in X. tauto.
          + exists e. split; [exact E|]. exists x. split; [|exact EX]. apply in_app_iff. apply in_app_iff in X. tauto.
        - destruct (G2 (nodes H (plain_tree l)) (nodes H (plain_tree r)) (root H (plain_tree l)) (root H (plain_tree r)) DEEP) as (e & E & EX). exists e. auto. }
      destruct S as (e & -> & x & X & -> & LE). do 2 f_equal. apply in_app_iff in X as [X|X]; apply (nodes_height H) in X; rewrite plain_height in X; lia.
  Qed.
  Lemma loop_huff : forall fuel fs, fs <> [] -> (length fs <= fuel)%nat -> Forall (fun x => scripts_ok (snd x) /\ wheight (snd x) <= 128) fs ->
    exists o, huff fs o /\ huffman_loop H fuel (map ent fs) = match o with Some t => Ret (Ok [Some (nodef H (plain_tree t))]) | None => Ret (Err (EDepth 128)) end.
  Proof.
    induction fuel as [|fuel IH]; intros fs NE L F; [destruct fs; cbn in L; [easy|lia]|]. cbn [huffman_loop]. assert (LM : lenN (map ent fs) = lenN fs) by (unfold lenN; now rewrite map_length). rewrite LM.
    destruct (N.ltb_spec 1 (lenN fs)) as [GT|LE].
    - destruct (heap_pop_spec (map ent fs)) as (m1 & r1 & -> & P1 & A1); [now destruct fs|].
      apply Permutation_sym, Permutation_map_inv in P1 as (fs1 & E1 & Q1). destruct fs1 as [|[p1 t1] fs1]; [discriminate|]. cbn [map] in E1. assert (m1 = ent (p1, t1)) as -> by congruence. assert (r1 = map ent fs1) as -> by congruence. clear E1.
      assert (NE1 : fs1 <> []). { intros ->. apply Permutation_length in Q1. unfold lenN in GT. cbn [length] in Q1. lia. }
      destruct (heap_pop_spec (map ent fs1)) as (m2 & r2 & E2' & P2 & A2); [now destruct fs1|]. unfold ent at 1. cbn [fst snd]. rewrite E2'.
      apply Permutation_sym, Permutation_map_inv in P2 as (fs2 & E2 & Q2). destruct fs2 as [|[p2 t2] fs2]; [discriminate|]. cbn [map] in E2. assert (m2 = ent (p2, t2)) as -> by congruence. assert (r2 = map ent fs2) as -> by congruence. clear E2 E2'.
      unfold ent at 1. cbn [fst snd].
      assert (Q : Permutation fs ((p1, t1) :: (p2, t2) :: fs2)) by (rewrite Q1; now apply perm_skip).
      assert (L12 : p1 <= p2). { apply (A1 (ent (p2, t2))). apply in_map, (Permutation_in _ (Permutation_sym Q2)). now left. }
      assert (L2 : forall e, In e fs2 -> p2 <= fst e) by (intros e I; apply (A2 (ent e)); now apply in_map).
      rewrite Q in F. inversion F as [|? ? [S1 H1] F1]; subst. inversion F1 as [|? ? [S2 H2] F2]; subst. cbn [snd] in *.
      rewrite combine_plain by assumption. destruct (N.leb_spec (wheight (WBranch t2 t1)) 128) as [HL|HG].
      + destruct (IH ((saturating_add32 p1 p2, WBranch t2 t1) :: fs2)) as (o & HU & E).
        * easy.
        * apply Permutation_length in Q. cbn [length] in *. lia.
        * constructor; [|exact F2]. cbn [snd]. split; [|exact HL]. unfold scripts_ok. cbn [weighted]. now apply Forall_app.
        * exists o. split; [eapply huff_join; eassumption|]. cbn [map] in E. unfold ent at 1 in E. cbn [fst snd] in E. exact E.
      + exists None. split; [eapply huff_stuck; eassumption|reflexivity].
    - destruct fs as [|[p t] [|y fs]]; [easy| |unfold lenN in LE; cbn [length] in LE; lia]. exists (Some t). split; [constructor|]. reflexivity.
  Qed.
End Hash.

(** the tree contains what it was made from *)
Lemma huff_weighted : forall fs o, huff fs o -> forall t, o = Some t -> Permutation (weighted t) (concat (map (fun x => weighted (snd x)) fs)) /\ (wheight t <= 128 \/ exists p, fs = [(p, t)]).
Proof.
  induction 1 as [p t0|fs p1 t1 p2 t2 rest o P L12 LR HT HU IH|]; intros t E; [|destruct (IH t E) as (PW & HE)|discriminate].
  - injection E as ->. cbn. rewrite app_nil_r. split; [reflexivity|eauto].
  - split; [|destruct HE as [HE|[p HE]]; [now left|left; injection HE as _ <- _; exact HT]]. rewrite PW.
    assert (CP : forall a b : list (N * wtree), Permutation a b -> Permutation (concat (map (fun x => weighted (snd x)) a)) (concat (map (fun x => weighted (snd x)) b))).
    { intros a b Q. rewrite <- !flat_map_concat_map. now apply Permutation_flat_map. }
    rewrite (CP _ _ P). cbn [map concat snd weighted]. rewrite !app_assoc. apply Permutation_app_tail, Permutation_app_comm.
Qed.
(** optimality, as long as no sum saturates *)
Definition sums (fs : list (N * wtree)) : N := fold_right (fun x a => weight (snd x) + a) 0 fs.
Definition costs (fs : list (N * wtree)) : N := fold_right (fun x a => merges (snd x) + a) 0 fs.
Lemma sums_perm : forall a b, Permutation a b -> sums a = sums b /\ costs a = costs b.
Proof. induction 1 as [|x a b P [I1 I2]|x y a|a b c P1 [I1 I2] P2 [J1 J2]]; unfold sums, costs in *; cbn [fold_right] in *; split; lia. Qed.
Definition exact_weights (fs : list (N * wtree)) : Prop := Forall (fun x => fst x = weight (snd x)) fs.
Lemma huff_optimal : forall fs o, huff fs o -> exact_weights fs -> sums fs < 2 ^ 32 -> forall t, o = Some t ->
  forall u, Permutation (weights u) (map fst fs) -> merges t <= costs fs + cost 0 u.
Proof.
  induction 1 as [p t0|fs p1 t1 p2 t2 rest o P L12 LR HT HU IH|]; intros EX SM t E u PU; [|specialize (fun a b => IH a b t E)|discriminate].
  - injection E as ->. cbn [costs fold_right snd]. lia.
  - unfold exact_weights in EX. rewrite P in EX. inversion EX as [|? ? E1 EX1]; subst. inversion EX1 as [|? ? E2 EX2]; subst. cbn [fst snd] in *.
    destruct (sums_perm _ _ P) as [PS PC]. rewrite PS in SM. rewrite PC. unfold sums, costs in SM, IH |- *. cbn [fold_right snd] in *. fold (sums rest) in *. fold (costs rest) in *.
    assert (SAT : saturating_add32 p1 p2 = p1 + p2) by (unfold saturating_add32; lia).
    rewrite (Permutation_map fst P) in PU. cbn [map fst] in PU.
    destruct (join_min u p1 p2 (map fst rest) PU) as (u' & PU' & CU); [|exact L12|].
    { intros x X. apply in_map_iff in X as (e & <- & X). apply LR in X. lia. }
    specialize (IH ltac:(constructor; [cbn [fst snd weight]; lia|exact EX2])). cbn [weight merges] in IH. specialize (IH ltac:(lia) u'). cbn [map fst] in IH. rewrite SAT in IH. specialize (IH PU'). lia.
Qed.

(** * Depth: with positive weights and no saturation the tree is shallow *)
Fixpoint fib2 (n : nat) : N * N := match n with O => (1, 2) | S n' => let '(a, b) := fib2 n' in (b, a + b) end.
Definition fibh (n : nat) : N := fst (fib2 n).
Lemma fibh_SS : forall n, fibh (S (S n)) = fibh (S n) + fibh n.
Proof. intro n. unfold fibh. cbn [fib2]. destruct (fib2 n) as [a b]. cbn. lia. Qed.
Lemma fibh_mono : forall n m, (n <= m)%nat -> fibh n <= fibh m.
Proof.
  assert (S1 : forall n, fibh n <= fibh (S n)).
  { assert (P : forall n, 1 <= fibh n /\ fibh n <= fibh (S n)) by (induction n as [|n [I1 I2]]; [cbn; lia|]; rewrite fibh_SS; lia). intro n. apply P. }
  induction 1 as [|m L IH]; [lia|]. specialize (S1 m). lia.
Qed.
(** every subtree is at least as heavy as its height demands *)
Fixpoint heavy (t : wtree) : Prop := match t with WLeaf w _ => 1 <= w | WBranch l r => heavy l /\ heavy r /\ fibh (N.to_nat (wheight t)) <= weight t end.
Lemma heavy_weight : forall t, heavy t -> fibh (N.to_nat (wheight t)) <= weight t.
Proof. intros [w s|l r]; cbn [heavy wheight weight]; [intro; change (fibh (N.to_nat 0)) with 1; lia|tauto]. Qed.
Definition kids_le (t : wtree) (w : N) : Prop := match t with WLeaf _ _ => True | WBranch l r => weight l <= w /\ weight r <= w end.
Lemma heavy_branch : forall l r, heavy l -> heavy r -> kids_le l (weight r) -> kids_le r (weight l) -> heavy (WBranch l r).
Proof.
  assert (ONE : forall l r, heavy l -> heavy r -> kids_le l (weight r) -> wheight r <= wheight l -> fibh (N.to_nat (1 + wheight l)) <= weight l + weight r).
  { intros l r HL HR K LE. pose proof (heavy_weight _ HL) as WL. pose proof (heavy_weight _ HR) as WR. destruct l as [w s|l1 l2].
    - cbn [wheight weight heavy] in *. assert (R0 : wheight r = 0) by lia. rewrite R0 in WR. change (fibh (N.to_nat 0)) with 1 in WR. change (fibh (N.to_nat (1 + 0))) with 2. lia.
    - cbn [kids_le] in K. cbn [heavy] in HL. destruct HL as (H1 & H2 & _). apply heavy_weight in H1, H2.
      set (h := N.max (wheight l1) (wheight l2)) in *. assert (HW : wheight (WBranch l1 l2) = 1 + h) by reflexivity. rewrite HW in *.
      replace (N.to_nat (1 + (1 + h))) with (S (S (N.to_nat h))) by lia. rewrite fibh_SS. replace (N.to_nat (1 + h)) with (S (N.to_nat h)) in WL by lia.
      assert (fibh (N.to_nat h) <= weight r). { unfold h. destruct (N.leb_spec (wheight l2) (wheight l1)); [replace (N.max (wheight l1) (wheight l2)) with (wheight l1) by lia|replace (N.max (wheight l1) (wheight l2)) with (wheight l2) by lia]; lia. }
      lia. }
  intros l r HL HR KL KR. cbn [heavy wheight weight]. split; [exact HL|]. split; [exact HR|]. destruct (N.leb_spec (wheight r) (wheight l)) as [LE|GT].
  - replace (N.max (wheight l) (wheight r)) with (wheight l) by lia. now apply ONE.
  - replace (N.max (wheight l) (wheight r)) with (wheight r) by lia. rewrite (N.add_comm (weight l)). apply ONE; auto. lia.
Qed.
(** of any two trees, each is at least as heavy as the children of the other *)
Definition apart (x y : N * wtree) : Prop := kids_le (snd x) (weight (snd y)) /\ kids_le (snd y) (weight (snd x)).
Definition balanced (fs : list (N * wtree)) : Prop := Forall (fun x => heavy (snd x)) fs /\ ForallOrdPairs apart fs.
Lemma pairs_perm : forall A (R : A -> A -> Prop), (forall x y, R x y -> R y x) -> forall a b, Permutation a b -> ForallOrdPairs R a -> ForallOrdPairs R b.
Proof.
  intros A R SY a b P. induction P as [|x a b P IH|x y a|a b c P1 IH1 P2 IH2]; intro F.
  - exact F.
  - inversion F; subst. constructor; [now rewrite <- P|auto].
  - inversion F as [|? ? F1 F2]; subst. inversion F2 as [|? ? F3 F4]; subst. inversion F1; subst. constructor; [constructor; auto|]. constructor; auto.
  - auto.
Qed.
Lemma huff_shallow : forall fs o, huff fs o -> exact_weights fs -> sums fs < 2 ^ 32 -> balanced fs -> exists t, o = Some t /\ wheight t <= 45.
Proof.
  assert (SMALL : forall t, heavy t -> weight t < 2 ^ 32 -> wheight t <= 45).
  { intros t HT W. apply heavy_weight in HT. destruct (N.leb_spec (wheight t) 45) as [L|G]; [exact L|]. exfalso.
    assert (fibh 46 <= fibh (N.to_nat (wheight t))) by (apply fibh_mono; lia). assert (fibh 46 = 4807526976) by (vm_compute; reflexivity). lia. }
  assert (JOIN : forall fs p1 t1 p2 t2 rest, Permutation fs ((p1, t1) :: (p2, t2) :: rest) -> p1 <= p2 -> (forall e, In e rest -> p2 <= fst e) -> exact_weights fs -> sums fs < 2 ^ 32 -> balanced fs ->
    balanced ((p1 + p2, WBranch t2 t1) :: rest) /\ exact_weights ((p1 + p2, WBranch t2 t1) :: rest) /\ sums ((p1 + p2, WBranch t2 t1) :: rest) = sums fs /\ saturating_add32 p1 p2 = p1 + p2).
  { intros fs p1 t1 p2 t2 rest P L12 LR EX SM [HV PR].
    unfold exact_weights in *. rewrite P in EX. inversion EX as [|? ? E1 EX1]; subst. inversion EX1 as [|? ? E2 EX2]; subst. cbn [fst snd] in *.
    destruct (sums_perm _ _ P) as [PS _]. rewrite PS in SM |- *. unfold sums in *. cbn [fold_right snd weight] in *. fold (sums rest) in *.
    rewrite P in HV. inversion HV as [|? ? V1 HV1]; subst. inversion HV1 as [|? ? V2 HV2]; subst. cbn [snd] in *.
    apply (pairs_perm _ apart ltac:(intros x y [A B]; split; assumption) _ _ P) in PR. inversion PR as [|? ? F1 PR1]; subst. inversion PR1 as [|? ? F2 PR2]; subst. inversion F1 as [|? ? [K1 K2] F3]; subst. cbn [snd] in *.
    split; [|split; [constructor; [cbn [fst snd weight]; lia|exact EX2]|split; [lia|unfold saturating_add32; lia]]].
    split; [constructor; [|exact HV2]; cbn [snd]; apply heavy_branch; assumption|].
    constructor; [|exact PR2]. rewrite Forall_forall in *. intros [p t] I. cbn [snd kids_le weight]. specialize (LR _ I). specialize (EX2 _ I). specialize (F2 _ I). specialize (F3 _ I). unfold apart in *. cbn [fst snd kids_le weight] in *.
    split; [lia|]. destruct t as [w s|l r]; cbn [kids_le] in *; [exact Coq.Init.Logic.I|]. lia. }
  induction 1 as [p t0|fs p1 t1 p2 t2 rest o P L12 LR HT HU IH|fs p1 t1 p2 t2 rest P L12 LR HG]; intros EX SM BA.
  - exists t0. split; [reflexivity|]. destruct BA as [B _]. inversion B; subst. apply SMALL; [assumption|]. unfold sums in SM. cbn [fold_right snd] in SM. lia.
  - destruct (JOIN _ _ _ _ _ _ P L12 LR EX SM BA) as (B' & E' & S' & SAT). rewrite SAT in IH. rewrite <- S' in SM. auto.
  - exfalso. destruct (JOIN _ _ _ _ _ _ P L12 LR EX SM BA) as ([B' _] & E' & S' & SAT). inversion B' as [|? ? HV _]; subst. cbn [snd] in HV. rewrite <- S' in SM. unfold sums in SM. cbn [fold_right snd] in SM. fold (sums rest) in SM.
    apply SMALL in HV; lia.
Qed.
