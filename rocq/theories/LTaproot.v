(** Lemmas on script trees and their builder. *)
From Coq Require Import String Permutation.
From Verif Require Import Base MDec LDec MWitness MTx LWire SWire MText MSighash SSighash MTaproot STaproot.
Local Open Scope N_scope.

(** * Orders *)
Record total_order {A} (cmp : A -> A -> comparison) : Prop := {
  to_eq : forall x y, cmp x y = Eq <-> x = y;
  to_opp : forall x y, cmp y x = CompOpp (cmp x y);
  to_trans : forall x y z, cmp x y = Lt -> cmp y z = Lt -> cmp x z = Lt }.
Lemma N_order : total_order N.compare.
Proof.
  split.
  - apply N.compare_eq_iff.
  - intros x y. apply N.compare_antisym.
  - intros x y z. rewrite !N.compare_lt_iff. lia.
Qed.
Lemma lex_order : forall A (cmp : A -> A -> comparison), total_order cmp -> total_order (lex_cmp cmp).
Proof.
  intros A cmp O. split.
  - induction x as [|x a IH]; intros [|y b]; cbn [lex_cmp]; try easy. destruct (cmp x y) eqn:E.
    + apply (to_eq cmp O) in E as ->. rewrite IH. split; [now intros ->|now intros [= ->]].
    + split; [easy|]. intros [= -> ->]. assert (cmp y y = Eq) by (now apply (to_eq cmp O)). congruence.
    + split; [easy|]. intros [= -> ->]. assert (cmp y y = Eq) by (now apply (to_eq cmp O)). congruence.
  - induction x as [|x a IH]; intros [|y b]; cbn [lex_cmp]; try easy. rewrite (to_opp cmp O x y). destruct (cmp x y); cbn [CompOpp]; auto.
  - induction x as [|x a IH]; intros [|y b] [|z c]; cbn [lex_cmp]; try easy. intros E1 E2.
    destruct (cmp x y) eqn:XY; try easy.
    + apply (to_eq cmp O) in XY as ->. destruct (cmp y z); try easy. eauto.
    + destruct (cmp y z) eqn:YZ; try easy; [apply (to_eq cmp O) in YZ as <-; now rewrite XY|]. now rewrite (to_trans cmp O _ _ _ XY YZ).
Qed.
Lemma hash_order : total_order hash_cmp.
Proof. apply lex_order, N_order. Qed.
Lemma branch_order : total_order branch_cmp.
Proof. apply lex_order, hash_order. Qed.
Lemma lv_order : total_order lv_cmp.
Proof.
  split.
  - intros [|f] [|g]; cbn [lv_cmp]; try easy. rewrite N.compare_eq_iff. split; [now intros ->|now intros [= ->]].
  - intros [|f] [|g]; cbn [lv_cmp CompOpp]; try easy. apply N.compare_antisym.
  - intros [|f] [|g] [|h]; cbn [lv_cmp]; try easy. rewrite !N.compare_lt_iff. lia.
Qed.
Lemma key_order : total_order key_cmp.
Proof.
  assert (S := lex_order _ _ N_order). pose proof lv_order as V. split.
  - intros [s v] [s' v']. unfold key_cmp, then_cmp. cbn [fst snd]. destruct (lex_cmp N.compare s s') eqn:E.
    + apply (to_eq _ S) in E as ->. rewrite (to_eq _ V). split; [now intros ->|now intros [= ->]].
    + split; [easy|]. intros [= -> ->]. rewrite (proj2 (to_eq _ S s' s') eq_refl) in E. easy.
    + split; [easy|]. intros [= -> ->]. rewrite (proj2 (to_eq _ S s' s') eq_refl) in E. easy.
  - intros [s v] [s' v']. unfold key_cmp, then_cmp. cbn [fst snd]. rewrite (to_opp _ S s s'), (to_opp _ V v v'). now destruct (lex_cmp N.compare s s').
  - intros [s v] [s' v'] [s2 v2]. unfold key_cmp, then_cmp. cbn [fst snd]. intros E1 E2.
    destruct (lex_cmp N.compare s s') eqn:XY; try easy.
    + apply (to_eq _ S) in XY as ->. destruct (lex_cmp N.compare s' s2); try easy. exact (to_trans _ V _ _ _ E1 E2).
    + destruct (lex_cmp N.compare s' s2) eqn:YZ; try easy; [apply (to_eq _ S) in YZ as <-; now rewrite XY|]. now rewrite (to_trans _ S _ _ _ XY YZ).
Qed.
(** lexicographic order of hashes is the order of big-endian numbers *)
Lemma be_val_cons : forall x l, be_val (x :: l) = x * 256 ^ lenN l + be_val l.
Proof. intros x l. unfold be_val. cbn [rev]. rewrite le_val_app. cbn [le_val]. unfold lenN. rewrite rev_length. lia. Qed.
Lemma be_val_lt : forall l, bytes_ok l -> be_val l < 256 ^ lenN l.
Proof. intros l B. unfold be_val. replace (lenN l) with (lenN (rev l)) by (unfold lenN; now rewrite rev_length). apply le_val_lt. unfold bytes_ok. now apply Forall_rev. Qed.
Lemma hash_cmp_val : forall a b, lenN a = lenN b -> bytes_ok a -> bytes_ok b -> hash_cmp a b = N.compare (be_val a) (be_val b).
Proof.
  induction a as [|x a IH]; intros [|y b] L A B; try (rewrite ?lenN_nil, ?lenN_cons in L; lia); [reflexivity|].
  rewrite !lenN_cons in L. apply bytes_ok_cons in A as [A0 A]. apply bytes_ok_cons in B as [B0 B]. unfold hash_cmp. cbn [lex_cmp]. rewrite !be_val_cons.
  assert (LL : lenN a = lenN b) by lia. pose proof (be_val_lt a A) as VA. pose proof (be_val_lt b B) as VB. rewrite LL in VA |- *. specialize (IH b LL A B). unfold hash_cmp in IH.
  set (p := 256 ^ lenN b) in *. clearbody p. destruct (N.compare_spec x y) as [->|XY|XY].
  - rewrite IH. symmetry. destruct (N.compare_spec (be_val a) (be_val b)); [apply N.compare_eq_iff|apply N.compare_lt_iff|apply N.compare_gt_iff]; lia.
  - symmetry. apply N.compare_lt_iff. nia.
  - symmetry. apply N.compare_gt_iff. nia.
Qed.
Lemma hash_ltb_val : forall a b, hash_ok a -> hash_ok b -> hash_ltb a b = (be_val a <? be_val b).
Proof. intros a b [A A'] [B B']. unfold hash_ltb. rewrite hash_cmp_val by (auto; lia). unfold N.ltb. now destruct (be_val a ?= be_val b). Qed.
Lemma be_val_inj : forall a b, hash_ok a -> hash_ok b -> be_val a = be_val b -> a = b.
Proof. intros a b [A A'] [B B'] E. apply (to_eq _ hash_order). rewrite hash_cmp_val by (auto; lia). now apply N.compare_eq_iff. Qed.

Section Hash.
  Variable H : bytes -> bytes.
  Hypothesis H_ok : forall m, hash_ok (H m).

  Lemma leaf_eq : forall s v, from_script H s v = leaf_root H (LScript s v).
  Proof. intros s v. unfold leaf_root, leaf_message. rewrite <- wire_bytes_eq. reflexivity. Qed.
  Lemma root_ok : forall t, tree_ok t -> hash_ok (root H t).
  Proof. intros [[s v|h]|l r] T; cbn [root leaf_root]; [apply H_ok|exact T|apply H_ok]. Qed.
  Lemma branch_comm : forall a b, hash_ok a -> hash_ok b -> branch_message H a b = branch_message H b a.
  Proof.
    intros a b A B. unfold branch_message. do 2 f_equal. destruct (N.leb_spec (be_val a) (be_val b)), (N.leb_spec (be_val b) (be_val a)); try reflexivity; try lia.
    assert (a = b) as -> by (apply be_val_inj; auto; lia). reflexivity.
  Qed.
  Lemma combine_hash_eq : forall a b, hash_ok a -> hash_ok b -> combine_hashes H a b = (H (branch_message H a b), be_val a <? be_val b).
  Proof.
    intros a b A B. unfold combine_hashes, tag_hash, branch_message, TAP_BRANCH. rewrite (hash_ltb_val a b A B). f_equal. f_equal. do 2 f_equal.
    destruct (N.ltb_spec (be_val a) (be_val b)), (N.leb_spec (be_val a) (be_val b)); try reflexivity; try lia.
    assert (a = b) as -> by (apply be_val_inj; auto; lia). reflexivity.
  Qed.
  Lemma node_hashes_eq : forall a b, hash_ok a -> hash_ok b -> from_node_hashes H a b = H (branch_message H a b).
  Proof. intros a b A B. unfold from_node_hashes. now rewrite combine_hash_eq. Qed.

  (** the node a tree gives *)
  Definition push_leaf (h : bytes) (l : leaf_node) : leaf_node := mk_leaf (ln_leaf l) (ln_branch l ++ [h]).
  Fixpoint nodes (t : tree) : list leaf_node :=
    match t with
    | Leaf (LScript s v) => [mk_leaf (LScript s v) []]
    | Leaf (LHidden _) => []
    | Branch l r =>
        if be_val (root H r) <? be_val (root H l) then map (push_leaf (root H l)) (nodes r) ++ map (push_leaf (root H r)) (nodes l)
        else map (push_leaf (root H r)) (nodes l) ++ map (push_leaf (root H l)) (nodes r)
    end.
  Definition nodef (t : tree) : node_info := mk_node (root H t) (nodes t) (hidden t).
  Lemma nodes_height : forall t l, In l (nodes t) -> lenN (ln_branch l) <= height t.
  Proof. clear H_ok.
    induction t as [[s v|h]|a IA b IB]; intros l I; cbn [nodes height] in *.
    - destruct I as [<-|[]]. cbn. lia.
    - destruct I.
    - assert (M : In l (map (push_leaf (root H b)) (nodes a)) \/ In l (map (push_leaf (root H a)) (nodes b))) by (destruct (_ <? _); apply in_app_iff in I; tauto).
      destruct M as [M|M]; apply in_map_iff in M as (x & <- & X); [apply IA in X|apply IB in X]; unfold push_leaf; cbn [ln_branch]; rewrite lenN_app; change (lenN [_]) with 1; lia.
  Qed.
  Lemma push_all_ok : forall ls h, (forall l, In l ls -> lenN (ln_branch l) < 128) -> push_all ls h = Ok (map (push_leaf h) ls).
  Proof. clear H_ok.
    induction ls as [|l ls IH]; intros h B; cbn [push_all map]; [reflexivity|]. unfold branch_push, MAX_NODE_COUNT.
    assert (X := B l (or_introl eq_refl)). destruct (N.leb_spec 128 (lenN (ln_branch l))); [lia|]. rewrite IH by (intros; apply B; now right). reflexivity.
  Qed.
  Lemma push_all_err : forall ls h e, push_all ls h = Err e -> e >= 128 /\ exists l, In l ls /\ e = lenN (ln_branch l).
  Proof. clear H_ok.
    induction ls as [|l ls IH]; intros h e; cbn [push_all]; [easy|]. unfold branch_push, MAX_NODE_COUNT. destruct (N.leb_spec 128 (lenN (ln_branch l))) as [L|L].
    - intros [= <-]. split; [lia|]. exists l. split; [now left|reflexivity].
    - destruct (push_all ls h) eqn:E; [easy|]. intros [= <-]. destruct (IH _ _ E) as (G & x & X & ->). split; [exact G|]. exists x. split; [now right|reflexivity].
  Qed.
  Lemma combine_nodef : forall l r, tree_ok l -> tree_ok r -> (forall x, In x (nodes l ++ nodes r) -> lenN (ln_branch x) < 128) ->
    combine H (nodef r) (nodef l) = Ok (nodef (Branch l r)).
  Proof.
    intros l r L R B. assert (BL : forall x, In x (nodes l) -> lenN (ln_branch x) < 128) by (intros; apply B, in_app_iff; now left).
    assert (BR : forall x, In x (nodes r) -> lenN (ln_branch x) < 128) by (intros; apply B, in_app_iff; now right).
    unfold combine, nodef. cbn [ni_hash ni_leaves ni_hidden]. rewrite combine_hash_eq by (now apply root_ok). cbn [nodes root hidden].
    rewrite (branch_comm (root H r) (root H l)) by (now apply root_ok).
    destruct (be_val (root H r) <? be_val (root H l)); cbn [ni_hash ni_leaves ni_hidden]; rewrite !push_all_ok by assumption; [|reflexivity].
    now rewrite (Bool.orb_comm (hidden r) (hidden l)).
  Qed.
  Lemma nodes_paths : forall t, Permutation (map (fun l => (ln_leaf l, ln_branch l)) (nodes t)) (filter is_script (paths H t)).
  Proof.
    induction t as [[s v|h]|a IA b IB]; cbn [nodes paths filter is_script fst map ln_leaf ln_branch]; [reflexivity..|].
    assert (M : forall h ls, map (fun l => (ln_leaf l, ln_branch l)) (map (push_leaf h) ls) = map (below h) (map (fun l => (ln_leaf l, ln_branch l)) ls)).
    { intros h ls. rewrite !map_map. apply map_ext. reflexivity. }
    assert (F : forall h ps, filter is_script (map (below h) ps) = map (below h) (filter is_script ps)).
    { intros h ps. induction ps as [|p ps IH]; [reflexivity|]. cbn [map filter]. rewrite IH. change (is_script (below h p)) with (is_script p). now destruct (is_script p). }
    rewrite filter_app, !F. destruct (_ <? _); rewrite map_app, !M.
    - rewrite Permutation_app_comm. apply Permutation_app; now apply Permutation_map.
    - apply Permutation_app; now apply Permutation_map.
  Qed.
  Lemma nodef_stands : forall t, stands_for H (nodef t) t.
  Proof. intro t. split; [reflexivity|]. split; [apply nodes_paths|reflexivity]. Qed.

  (** * Insertion *)
  Definition ts_builder (ts : list (option tree)) : builder := map (option_map nodef) ts.
  Fixpoint forest (k : N) (ts : list (option tree)) : list (N * tap_leaf) :=
    match ts with [] => [] | o :: ts' => match o with Some t => dfs k t | None => [] end ++ forest (k + 1) ts' end.
  Definition fits (k : N) (o : option tree) : Prop := match o with Some t => tree_ok t /\ k + height t <= 128 | None => True end.
  Fixpoint forest_ok (k : N) (ts : list (option tree)) : Prop := match ts with [] => True | o :: ts' => fits k o /\ forest_ok (k + 1) ts' end.
  Lemma forest_app : forall a k b, forest k (a ++ b) = forest k a ++ forest (k + lenN a) b.
  Proof. clear H_ok. induction a as [|o a IH]; intros k b; cbn [app forest]; [rewrite lenN_nil, N.add_0_r; reflexivity|]. rewrite IH, lenN_cons, app_assoc. do 2 f_equal. lia. Qed.
  Lemma forest_ok_app : forall a k b, forest_ok k (a ++ b) <-> forest_ok k a /\ forest_ok (k + lenN a) b.
  Proof. clear H_ok.
    induction a as [|o a IH]; intros k b; cbn [app forest_ok]; [rewrite lenN_nil, N.add_0_r; tauto|]. rewrite IH, lenN_cons.
    replace (k + 1 + lenN a) with (k + (1 + lenN a)) by lia. tauto.
  Qed.
  Lemma forest_none : forall n k, forest k (repeat None n) = [] /\ forest_ok k (repeat None n).
  Proof. induction n as [|n IH]; intro k; cbn [repeat forest forest_ok]; [easy|]. destruct (IH (k + 1)) as [A B]. cbn [fits app]. auto. Qed.
  Lemma lenN_ts : forall ts, lenN (ts_builder ts) = lenN ts.
  Proof. clear H_ok. intro ts. unfold lenN, ts_builder. now rewrite map_length. Qed.
  Lemma vec_pop_snoc : forall A (l : list A) x, vec_pop (l ++ [x]) = Some (l, x).
  Proof. clear H_ok. intros A l x. unfold vec_pop. rewrite rev_app_distr. cbn [rev app]. now rewrite rev_involutive. Qed.
  Lemma snoc_or : forall A (l : list A) n, lenN l = n + 1 -> exists l' x, l = l' ++ [x] /\ lenN l' = n.
  Proof. clear H_ok.
    intros A l n E. destruct l as [|y l] using rev_ind; [rewrite lenN_nil in E; lia|]. exists l, y. split; [reflexivity|]. rewrite lenN_app in E. change (lenN [y]) with 1 in E. lia.
  Qed.
  (** putting a tree at the end of a forest *)
  Definition pad (ts : list (option tree)) (d : N) : list (option tree) := ts ++ repeat None (N.to_nat (d - lenN ts)).
  Lemma lenN_repeat : forall A (x : A) n, lenN (repeat x (N.to_nat n)) = n.
  Proof. clear H_ok. intros A x n. unfold lenN. rewrite repeat_length. lia. Qed.
  Lemma pad_len : forall ts d, lenN ts <= d -> lenN (pad ts d) = d.
  Proof. clear H_ok. intros ts d L. unfold pad. rewrite lenN_app, lenN_repeat. lia. Qed.
  Lemma map_repeat' : forall A B (f : A -> B) x n, map f (repeat x n) = repeat (f x) n.
  Proof. intros A B f x n. induction n as [|n IH]; [reflexivity|]. cbn [repeat map]. now rewrite IH. Qed.
  (** one step of the loop: either it stops, or it goes on with the parent *)
  Lemma loop_stop : forall fuel ts n d, lenN ts <= d -> insert_loop H (S fuel) (ts_builder ts) n d = Ret (Ok (ts_builder (pad ts d) ++ [Some n])).
  Proof. clear H_ok.
    intros fuel ts n d L. cbn [insert_loop]. rewrite lenN_ts. destruct (N.eqb_spec (lenN ts) (d + 1)); [lia|]. destruct (N.ltb_spec (lenN ts) (d + 1)); [|lia].
    assert (P : lenN (ts_builder (pad ts d)) = d) by (rewrite lenN_ts; now apply pad_len).
    assert (E : ts_builder ts ++ repeat None (N.to_nat (d + 1 - lenN ts)) = ts_builder (pad ts d) ++ [None]).
    { unfold pad, ts_builder. rewrite map_app, <- app_assoc. f_equal. rewrite map_repeat'. cbn [option_map]. replace (N.to_nat (d + 1 - lenN ts)) with (N.to_nat (d - lenN ts) + 1)%nat by lia. now rewrite repeat_app. }
    rewrite E, lenN_app, P. change (lenN [None]) with 1. destruct (N.ltb_spec d (d + 1)); [|lia].
    do 2 f_equal. rewrite takeN_app_le by lia. rewrite takeN_all by lia. rewrite dropN_app_ge by lia. rewrite P, N.add_sub_swap, N.sub_diag by lia. reflexivity.
  Qed.
  Lemma loop_none : forall fuel ts n d, lenN ts = d -> insert_loop H (S fuel) (ts_builder (ts ++ [None])) n d = Ret (Ok (ts_builder ts ++ [Some n])).
  Proof. clear H_ok.
    intros fuel ts n d L. cbn [insert_loop]. rewrite lenN_ts, lenN_app. change (lenN [None]) with 1. rewrite L, N.eqb_refl.
    unfold ts_builder. rewrite map_app. cbn [map option_map]. rewrite vec_pop_snoc. change (map (option_map nodef) ts) with (ts_builder ts).
    rewrite lenN_app, lenN_ts. change (lenN [None]) with 1. rewrite L. destruct (N.ltb_spec (d + 1) (d + 1)); [lia|]. rewrite lenN_app, lenN_ts. change (lenN [None]) with 1. rewrite L. destruct (N.ltb_spec d (d + 1)); [|lia].
    assert (P : lenN (ts_builder ts) = d) by (now rewrite lenN_ts).
    do 2 f_equal. rewrite takeN_app_le by lia. rewrite takeN_all by lia. rewrite dropN_app_ge by lia. rewrite P, N.add_sub_swap, N.sub_diag by lia. reflexivity.
  Qed.
  Lemma loop_some : forall fuel ts l r d, lenN ts = d -> tree_ok l -> tree_ok r -> d + height l <= 128 -> d + height r <= 128 ->
    insert_loop H (S fuel) (ts_builder (ts ++ [Some l])) (nodef r) d =
    if d =? 0 then Ret (Err EOverComplete) else insert_loop H fuel (ts_builder ts) (nodef (Branch l r)) (d - 1).
  Proof.
    intros fuel ts l r d L TL TR HL HR. cbn [insert_loop]. rewrite lenN_ts, lenN_app. change (lenN [Some l]) with 1. rewrite L, N.eqb_refl.
    unfold ts_builder. rewrite map_app. cbn [map option_map]. rewrite vec_pop_snoc. destruct (N.eqb_spec d 0); [reflexivity|].
    rewrite combine_nodef; auto. intros x X. apply in_app_iff in X as [X|X]; apply nodes_height in X; lia.
  Qed.
  (** every insertion keeps the history: the leaves added so far are those of the forest *)
  Definition good (ts : list (option tree)) : Prop := forest_ok 0 ts /\ (ts = [] \/ exists ts' t, ts = ts' ++ [Some t]).
  Lemma loop_spec : forall fuel ts u d, (N.to_nat d < fuel)%nat -> lenN ts <= d + 1 -> forest_ok 0 ts -> tree_ok u -> d + height u <= 128 ->
    insert_loop H fuel (ts_builder ts) (nodef u) d = Ret (Err EOverComplete) \/
    exists ts', insert_loop H fuel (ts_builder ts) (nodef u) d = Ret (Ok (ts_builder ts')) /\ good ts' /\ ts' <> [] /\ lenN ts' <= d + 1 /\ forest 0 ts' = forest 0 ts ++ dfs d u.
  Proof.
    induction fuel as [|fuel IH]; intros ts u d F L O T HT; [lia|]. destruct (N.leb_spec (lenN ts) d) as [LE|GT].
    - right. rewrite loop_stop by exact LE. exists (pad ts d ++ [Some u]). split; [unfold ts_builder; rewrite map_app; reflexivity|].
      assert (PO : forest_ok 0 (pad ts d)) by (unfold pad; apply forest_ok_app; split; [exact O|apply forest_none]).
      split; [split; [|right; eauto]|].
      { apply forest_ok_app. split; [exact PO|]. rewrite pad_len by exact LE. cbn [forest_ok fits]. auto. }
      split; [now destruct (pad ts d)|]. rewrite lenN_app, pad_len by exact LE. change (lenN [Some u]) with 1. split; [lia|].
      rewrite forest_app, pad_len by exact LE. unfold pad. rewrite forest_app. destruct (forest_none (N.to_nat (d - lenN ts)) (0 + lenN ts)) as [-> _]. cbn [forest]. now rewrite !app_nil_r.
    - destruct (snoc_or _ ts d ltac:(lia)) as (ts0 & o & -> & L0). apply forest_ok_app in O as [O0 O1]. destruct o as [l|].
      + cbn [forest_ok fits] in O1. rewrite L0 in O1. destruct O1 as [[TL HL] _]. rewrite loop_some by (auto; lia). destruct (N.eqb_spec d 0) as [D0|D0]; [now left|].
        destruct (IH ts0 (Branch l u) (d - 1)) as [E|(ts' & E & G & NE & LN & FE)]; [lia|lia|exact O0|split; assumption|cbn [height]; lia| |].
        * left. exact E.
        * right. exists ts'. split; [exact E|]. split; [exact G|]. split; [exact NE|]. split; [lia|]. rewrite FE, forest_app. cbn [forest dfs]. replace (d - 1 + 1) with d by lia. rewrite L0. now rewrite <- !app_assoc.
      + right. rewrite loop_none by exact L0. exists (ts0 ++ [Some u]). split; [unfold ts_builder; rewrite map_app; reflexivity|].
        split; [split; [|right; eauto]|].
        { apply forest_ok_app. split; [exact O0|]. rewrite L0. cbn [forest_ok fits]. auto. }
        split; [now destruct ts0|]. rewrite lenN_app, L0. change (lenN [Some u]) with 1. split; [lia|]. rewrite !forest_app. cbn [forest]. rewrite !app_nil_r. now rewrite L0.
  Qed.
  Definition leaf_tree (l : tap_leaf) : tree := Leaf l.
  Lemma add_item_eq : forall b d l, add_item H b d l = insert H b (nodef (Leaf l)) d.
  Proof. intros b d [s v|h]; unfold add_item, add_leaf_with_ver, add_hidden_node, nodef; cbn [nodes root hidden]; [|reflexivity]. unfold new_leaf. rewrite leaf_eq. reflexivity. Qed.
  (** what adding one item does *)
  Lemma add_spec : forall ts d l, good ts -> leaf_ok l ->
    (128 < d /\ add_item H (ts_builder ts) d l = Ret (Err (EDepth d))) \/
    (d <= 128 /\ d + 1 < lenN ts /\ add_item H (ts_builder ts) d l = Ret (Err ENotDfs)) \/
    (d <= 128 /\ lenN ts <= d + 1 /\ (add_item H (ts_builder ts) d l = Ret (Err EOverComplete) \/
       exists ts', add_item H (ts_builder ts) d l = Ret (Ok (ts_builder ts')) /\ good ts' /\ ts' <> [] /\ forest 0 ts' = forest 0 ts ++ [(d, l)])).
  Proof.
    intros ts d l [O _] LO. rewrite add_item_eq. unfold insert. rewrite lenN_ts. unfold MAX_NODE_COUNT.
    destruct (N.ltb_spec 128 d); [left; auto|right]. destruct (N.ltb_spec (d + 1) (lenN ts)); [left; auto|right]. split; [assumption|]. split; [assumption|].
    destruct (loop_spec (N.to_nat d + 1) ts (Leaf l) d) as [E|(ts' & E & G & NE & _ & FE)]; [lia|assumption|assumption|exact LO|cbn [height]; lia|left; exact E|].
    right. exists ts'. auto.
  Qed.
  Lemma build_spec : forall items ts, good ts -> Forall (fun x => leaf_ok (snd x)) items ->
    (exists e, build_from H (ts_builder ts) items = Ret (Err e)) \/
    (exists ts', build_from H (ts_builder ts) items = Ret (Ok (ts_builder ts')) /\ good ts' /\ forest 0 ts' = forest 0 ts ++ items /\ (items <> [] -> ts' <> [])).
  Proof.
    induction items as [|[d l] items IH]; intros ts G F; cbn [build_from].
    - right. exists ts. rewrite app_nil_r. easy.
    - inversion F; subst. destruct (add_spec ts d l G ltac:(assumption)) as [[_ ->]|[(_ & _ & ->)|(_ & _ & [->|(ts' & -> & G' & NE & FE)])]]; eauto.
      destruct (IH ts' G' ltac:(assumption)) as [E|(ts2 & E & G2 & FE2 & NE2)]; [now left|]. right. exists ts2. split; [exact E|]. split; [exact G2|]. split; [rewrite FE2, FE, <- app_assoc; reflexivity|].
      intros _. destruct items as [|x items]; [|apply NE2; easy]. cbn [build_from] in E. assert (ts_builder ts' = ts_builder ts2) as B by congruence.
      destruct ts2; [|easy]. destruct ts'; [congruence|discriminate].
  Qed.
  (** the listing of a tree, added to a forest, puts the tree *)
  Lemma build_app : forall a b bld, build_from H bld (a ++ b) = match build_from H bld a with Ret (Ok b') => build_from H b' b | r => r end.
  Proof. induction a as [|[d l] a IH]; intros b bld; cbn [app build_from]; [reflexivity|]. destruct (add_item H bld d l) as [[b'|e]|]; [apply IH|reflexivity..]. Qed.
  Lemma build_dfs : forall t d ts, tree_ok t -> d + height t <= 128 -> lenN ts <= d + 1 -> forest_ok 0 ts ->
    build_from H (ts_builder ts) (dfs d t) = insert_loop H (N.to_nat d + 1) (ts_builder ts) (nodef t) d.
  Proof.
    induction t as [l|l IL r IR]; intros d ts T HT L O.
    - cbn [dfs build_from]. rewrite add_item_eq. unfold insert. rewrite lenN_ts. unfold MAX_NODE_COUNT. cbn [height] in HT.
      destruct (N.ltb_spec 128 d); [lia|]. destruct (N.ltb_spec (d + 1) (lenN ts)); [lia|]. destruct (insert_loop _ _ _ _ _) as [[b|e]|]; reflexivity.
    - destruct T as [TL TR]. cbn [height] in HT. cbn [dfs]. rewrite build_app, IL by (auto; lia).
      replace (N.to_nat (d + 1) + 1)%nat with (S (N.to_nat d + 1)) by lia. rewrite loop_stop by exact L.
      change (ts_builder (pad ts (d + 1)) ++ [Some (nodef l)]) with (ts_builder (pad ts (d + 1)) ++ ts_builder [Some l]). unfold ts_builder at 1 2. rewrite <- map_app. fold (ts_builder (pad ts (d + 1) ++ [Some l])).
      assert (PL : lenN (pad ts (d + 1)) = d + 1) by (now apply pad_len).
      assert (PO : forest_ok 0 (pad ts (d + 1))) by (unfold pad; apply forest_ok_app; split; [exact O|apply forest_none]).
      rewrite IR; [|assumption|lia|rewrite lenN_app, PL; change (lenN [Some l]) with 1; lia|apply forest_ok_app; split; [exact PO|]; rewrite PL; cbn [forest_ok fits]; split; [split; [exact TL|lia]|exact I]].
      replace (N.to_nat (d + 1) + 1)%nat with (S (N.to_nat d + 1)) by lia. rewrite loop_some by (auto; lia). destruct (N.eqb_spec (d + 1) 0); [lia|]. replace (d + 1 - 1) with d by lia.
      destruct (N.leb_spec (lenN ts) d) as [LE|GT].
      + assert (E : pad ts (d + 1) = pad ts d ++ [None]).
        { unfold pad. rewrite <- app_assoc. f_equal. replace (N.to_nat (d + 1 - lenN ts)) with (N.to_nat (d - lenN ts) + 1)%nat by lia. now rewrite repeat_app. }
        rewrite E. replace (N.to_nat d + 1)%nat with (S (N.to_nat d)) by lia. rewrite loop_none by (now apply pad_len). now rewrite loop_stop by exact LE.
      + assert (E : pad ts (d + 1) = ts) by (unfold pad; replace (N.to_nat (d + 1 - lenN ts)) with 0%nat by lia; apply app_nil_r). now rewrite E.
  Qed.
  Lemma build_tree : forall t, tree_ok t -> height t <= 128 -> build H (dfs 0 t) = Ret (Ok [Some (nodef t)]).
  Proof.
    intros t T HT. unfold build. change (@nil (option node_info)) with (ts_builder []). rewrite build_dfs; [|assumption|lia|rewrite lenN_nil; lia|exact I].
    change (N.to_nat 0 + 1)%nat with 1%nat. rewrite loop_stop by (rewrite lenN_nil; lia). reflexivity.
  Qed.
  Lemma dfs_leaves_ok : forall t d, Forall (fun x => leaf_ok (snd x)) (dfs d t) <-> tree_ok t.
  Proof.
    induction t as [l|l IL r IR]; intro d; cbn [dfs tree_ok].
    - split; [intro F; inversion F; assumption|intro; now constructor].
    - rewrite Forall_app, IL, IR. tauto.
  Qed.
  Lemma build_tree_inv : forall items n, Forall (fun x => leaf_ok (snd x)) items -> build H items = Ret (Ok [Some n]) -> exists t, dfs 0 t = items /\ tree_ok t /\ height t <= 128 /\ n = nodef t.
  Proof.
    intros items n F E. unfold build in E. change (@nil (option node_info)) with (ts_builder []) in E.
    destruct (build_spec items [] ltac:(split; [exact I|now left]) F) as [[e E']|(ts & E' & [O _] & FE & _)]; [congruence|].
    assert (B : ts_builder ts = [Some n]) by (rewrite E in E'; injection E' as ->; reflexivity). destruct ts as [|[t|] [|x ts]]; try discriminate. cbn [forest_ok fits] in O. destruct O as [[T HT] _].
    exists t. cbn [forest] in FE. rewrite app_nil_r in FE. cbn [app] in FE. split; [exact FE|]. split; [exact T|]. split; [lia|]. cbn in B. congruence.
  Qed.
  (** the listing determines the tree *)
  Lemma dfs_deep : forall t d x, In x (dfs d t) -> d <= fst x.
  Proof. clear H_ok. induction t as [l|l IL r IR]; intros d x I; cbn [dfs] in I; [destruct I as [<-|[]]; cbn; lia|]. apply in_app_iff in I as [X|X]; [apply IL in X|apply IR in X]; lia. Qed.
  Lemma dfs_nonempty : forall t d, exists x l, dfs d t = x :: l.
  Proof. induction t as [l|l IL r IR]; intro d; cbn [dfs]; [eauto|]. destruct (IL (d + 1)) as (x & m & ->). cbn [app]. eauto. Qed.
  Lemma dfs_inj : forall t u d r s, dfs d t ++ r = dfs d u ++ s -> t = u /\ r = s.
  Proof. clear H_ok.
    induction t as [l|l IL r0 IR]; intros [l'|l' r'] d r s E; cbn [dfs] in E.
    - injection E as -> ->. auto.
    - exfalso. destruct (dfs_nonempty l' (d + 1)) as (x & m & E'). rewrite E' in E. cbn [app] in E. injection E as <- _.
      assert (d + 1 <= fst (d, l)) by (apply (dfs_deep l' (d + 1)); rewrite E'; now left). cbn in *. lia.
    - exfalso. destruct (dfs_nonempty l (d + 1)) as (x & m & E'). rewrite E' in E. cbn [app] in E. injection E as -> _.
      assert (d + 1 <= fst (d, l')) by (apply (dfs_deep l (d + 1)); rewrite E'; now left). cbn in *. lia.
    - rewrite <- !app_assoc in E. apply IL in E as [-> E]. apply IR in E as [-> E]. auto.
  Qed.

  (** * Paths *)
  Lemma climb_snoc : forall p h x, climb H h (p ++ [x]) = H (branch_message H (climb H h p) x).
  Proof. intros p h x. unfold climb. now rewrite fold_left_app. Qed.
  Lemma climb_ok : forall p h, hash_ok h -> hash_ok (climb H h p).
  Proof. induction p as [|x p IH] using rev_ind; intros h O; [exact O|]. rewrite climb_snoc. apply H_ok. Qed.
  Lemma paths_len : forall t l p, In (l, p) (paths H t) -> lenN p <= height t.
  Proof. clear H_ok.
    induction t as [l0|a IA b IB]; intros l p I; cbn [paths height] in *.
    - destruct I as [I|[]]. injection I as _ <-. rewrite lenN_nil. lia.
    - apply in_app_iff in I as [I|I]; apply in_map_iff in I as ([l' p'] & E & I); unfold below in E; cbn [fst snd] in E; injection E as -> <-; [apply IA in I|apply IB in I]; rewrite lenN_app; change (lenN [_]) with 1; lia.
  Qed.
  Lemma paths_ok : forall t l p, tree_ok t -> In (l, p) (paths H t) -> leaf_ok l /\ Forall hash_ok p.
  Proof.
    induction t as [l0|a IA b IB]; intros l p T I; cbn [paths] in *.
    - destruct I as [I|[]]. injection I as <- <-. split; [exact T|constructor].
    - destruct T as [TA TB]. apply in_app_iff in I as [I|I]; apply in_map_iff in I as ([l' p'] & E & I); unfold below in E; cbn [fst snd] in E; injection E as -> <-;
        [destruct (IA _ _ TA I) as [L P]|destruct (IB _ _ TB I) as [L P]]; (split; [exact L|]); apply Forall_app; (split; [exact P|]); (constructor; [now apply root_ok|constructor]).
  Qed.
  Lemma paths_climb : forall t l p, tree_ok t -> In (l, p) (paths H t) -> climb H (leaf_root H l) p = root H t.
  Proof.
    induction t as [l0|a IA b IB]; intros l p T I; cbn [paths root] in *.
    - destruct I as [I|[]]. injection I as <- <-. reflexivity.
    - destruct T as [TA TB]. apply in_app_iff in I as [I|I]; apply in_map_iff in I as ([l' p'] & E & I); unfold below in E; cbn [fst snd] in E; injection E as -> <-; rewrite climb_snoc.
      + now rewrite (IA _ _ TA I).
      + rewrite (IB _ _ TB I). f_equal. apply branch_comm; now apply root_ok.
  Qed.
  Lemma fold_climb : forall p h, hash_ok h -> Forall hash_ok p -> fold_left (from_node_hashes H) p h = climb H h p.
  Proof.
    intros p. unfold climb. induction p as [|x p IH]; intros h O F; [reflexivity|]. inversion F; subst. cbn [fold_left]. rewrite node_hashes_eq by assumption. apply IH; [apply H_ok|assumption].
  Qed.
  Lemma mirror_root : forall t u, mirror t u -> tree_ok t -> tree_ok u /\ root H t = root H u /\ Permutation (paths H t) (paths H u) /\ height t = height u.
  Proof.
    induction 1 as [l|l r l' r' ML IL MR IR|l r l' r' ML IL MR IR]; intro T; [repeat split; auto|..]; destruct T as [TL TR];
      destruct (IL TL) as (OL & RL & PL & HL); destruct (IR TR) as (OR & RR & PR & HR); cbn [tree_ok root paths height]; rewrite RL, RR, HL, HR; (split; [tauto|]).
    - split; [reflexivity|]. split; [|reflexivity]. apply Permutation_app; now apply Permutation_map.
    - split; [f_equal; apply branch_comm; now apply root_ok|]. split; [|lia]. rewrite Permutation_app_comm. apply Permutation_app; now apply Permutation_map.
  Qed.
End Hash.
