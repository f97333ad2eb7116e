(** Laws of partial Merkle trees. *)
From Verif Require Import Base MDec LDec MTx MMerkle MPmt SMerkle SPmt LMerkle LPmt.
Local Open Scope N_scope.

Section Pmt.
Context {T : Type} (combine : T -> T -> T) (eqb : T -> T -> bool) (eqb_spec : forall a b, eqb a b = true <-> a = b).

Lemma fits_shown : forall n h pos (t : ptree T), fits n h pos t -> pos * 2 ^ h < n -> lenN (shown t) + pos * 2 ^ h <= n /\ lenN (shown t) <= 2 ^ h.
Proof using Type. clear eqb_spec eqb combine.
  intros n h pos t F. induction F as [h pos x|pos x|h pos l r K Fl IHl Fr IHr|h pos l K Fl IHl]; intro Hp; cbn [shown].
  - change (lenN [x]) with 1. pose proof (pow1 h). lia.
  - change (lenN [x]) with 1. change (2 ^ 0) with 1 in *. lia.
  - destruct (below _ _ _ Hp) as [B1 B2]. apply lt_nodes in K. destruct (IHl B1), (IHr K). rewrite lenN_app, pow_S in *. split; [|lia]. nia.
  - destruct (below _ _ _ Hp) as [B1 B2]. destruct (IHl B1). rewrite pow_S in *. pose proof (pow1 h). split; [|lia]. nia.
Qed.
Lemma small_height : forall n h, n <= 16666 -> tree_height n h -> h <= 15 /\ n + 2 ^ h < U32.
Proof using Type. clear eqb_spec eqb combine.
  intros n h Hn TH. apply height_spec in TH as (_ & K & _).
  assert (h <= 15). { destruct K as [->|K]; [lia|]. assert (h - 1 < 15); [|lia]. apply pow_lt. change (2 ^ 15) with 32768. lia. }
  split; auto. assert (2 ^ h <= 2 ^ 15) by (apply N.pow_le_mono_r; lia). change (2 ^ 15) with 32768 in *. unfold U32. lia.
Qed.
Definition start : @ext T := {| bits_used := 0; hash_used := 0; e_matches := []; e_indexes := [] |}.
Lemma start_room : forall n h, n <= 16666 -> tree_height n h -> room start h.
Proof using Type. clear eqb_spec eqb combine.
  intros n h Hn TH. destruct (small_height n h Hn TH) as [H15 _]. assert (2 ^ h <= 2 ^ 15) by (apply N.pow_le_mono_r; lia).
  change (2 ^ 15) with 32768 in *. unfold room, start, U32. cbn [bits_used hash_used]. lia.
Qed.
Lemma starts0 : forall {A} (l x : list A), starts 0 l x <-> exists t, l = x ++ t.
Proof using Type. clear eqb_spec eqb combine. intros A l x. unfold starts. change (dropN 0 l) with l. reflexivity. Qed.
Lemma height0 : forall n h, tree_height n h -> 0 * 2 ^ h < n.
Proof using Type. clear eqb_spec eqb combine. intros n h H. apply lt_nodes. destruct H as [-> _]. lia. Qed.

Lemma extract_ret : forall p ms ixs, pm_num p < U32 -> exists a b r, extract_matches eqb combine p ms ixs = Ret (a, b, r).
Proof using combine eqb_spec.
  intros p ms ixs Hn. unfold extract_matches. destruct (N.eqb_spec (pm_num p) 0); [eauto|]. destruct (N.ltb_spec MAX_TXS (pm_num p)) as [|HM]; [eauto|].
  destruct (pm_num p <? lenN (pm_hashes p) mod U32); [eauto|]. destruct (lenN (pm_bits p) <? lenN (pm_hashes p)); [eauto|].
  unfold MAX_TXS in HM. destruct (tree_height_ret (pm_num p)) as (h & -> & TH & _); [change (2 ^ 31) with 2147483648; lia|]. cbn [rbind].
  destruct (small_height _ _ HM TH) as [_ SH].
  destruct (trav_sound combine eqb eqb_spec p (N.to_nat h) 0 start) as (s' & r & E & _); rewrite ?N2Nat.id; auto using height0.
  { eapply start_room; eauto. }
  fold start. rewrite E. cbn [rbind]. eauto.
Qed.

Lemma extract_law : forall p ms ixs a b x, lenN (pm_bits p) < U32 -> lenN (pm_hashes p) < U32 ->
  (extract_matches eqb combine p ms ixs = Ret (a, b, Ok x) <->
   1 <= pm_num p <= 16666 /\ exists h t pad, tree_height (pm_num p) h /\ fits (pm_num p) h 0 t /\ distinct combine t /\ written p t pad /\
     proot combine t = x /\ a = map snd (found 0 t) /\ b = map fst (found 0 t)).
Proof using combine eqb_spec.
  intros p ms ixs a b x Lb Lh. assert (L8 : div_ceil8 (lenN (pm_bits p)) < U32).
  { unfold div_ceil8. apply N.le_lt_trans with ((lenN (pm_bits p) + 7 * 1) / 8); [lia|]. unfold U32 in *. apply N.div_lt_upper_bound; lia. }
  unfold extract_matches. rewrite (N.mod_small _ _ Lh), (N.mod_small _ _ L8). fold start.
  destruct (N.eqb_spec (pm_num p) 0) as [E0|E0]; [split; [discriminate|lia]|].
  destruct (N.ltb_spec MAX_TXS (pm_num p)) as [HM|HM]; unfold MAX_TXS in HM; [split; [discriminate|lia]|].
  destruct (tree_height_ret (pm_num p)) as (h & EH & TH & _); [change (2 ^ 31) with 2147483648; lia|]. rewrite EH. cbn [rbind].
  destruct (small_height _ _ HM TH) as [_ SH]. pose proof (start_room _ _ HM TH) as SR. pose proof (height0 _ _ TH) as H0.
  assert (COM : forall h' t pad, tree_height (pm_num p) h' -> fits (pm_num p) h' 0 t -> distinct combine t -> written p t pad ->
    h' = h /\ lenN (pm_hashes p) <= pm_num p /\ lenN (pm_hashes p) <= lenN (pm_bits p) /\
    traverse_and_extract eqb combine p (N.to_nat h) 0 start = Ret (adv start 0 t, Ok (proot combine t)) /\
    div_ceil8 (lenN (flags t)) = div_ceil8 (lenN (pm_bits p)) /\ lenN (shown t) = lenN (pm_hashes p)).
  { intros h' t pad TH' F D (W1 & W2 & W3). pose proof (height_unique _ _ _ TH' TH) as ->.
    destruct (fits_shown _ _ _ _ F H0) as [K1 K2]. destruct (fits_len _ _ _ _ F) as (_ & _ & _ & K3).
    rewrite W2. split; [reflexivity|]. split; [lia|]. split; [rewrite W1, lenN_app; lia|]. split; [|split; [exact W3|reflexivity]].
    destruct (trav_complete combine eqb eqb_spec p h 0 t start SH H0 SR F) as [C _]; [apply starts0; eauto|apply starts0; exists []; now rewrite app_nil_r|]. auto. }
  destruct (N.ltb_spec (pm_num p) (lenN (pm_hashes p))) as [K1|K1].
  { split; [discriminate|]. intros (_ & h' & t & pad & TH' & F & D & W & _). destruct (COM h' t pad TH' F D W) as (_ & K & _). lia. }
  destruct (N.ltb_spec (lenN (pm_bits p)) (lenN (pm_hashes p))) as [K2|K2].
  { split; [discriminate|]. intros (_ & h' & t & pad & TH' & F & D & W & _). destruct (COM h' t pad TH' F D W) as (_ & _ & K & _). lia. }
  split.
  - destruct (trav_sound combine eqb eqb_spec p (N.to_nat h) 0 start) as (s' & r & E & P); rewrite ?N2Nat.id; auto.
    rewrite E. cbn [rbind]. destruct r as [root|e]; [|discriminate]. destruct P as (t & F & D & R & S1 & S2 & ->). rewrite N2Nat.id in F.
    cbn [adv bits_used hash_used e_matches e_indexes start app]. change (bits_used start) with 0. change (hash_used start) with 0.
    destruct (N.eqb_spec (div_ceil8 (0 + lenN (flags t))) (div_ceil8 (lenN (pm_bits p)))) as [C1|C1]; cbn [negb]; [|discriminate].
    destruct (N.eqb_spec (0 + lenN (shown t)) (lenN (pm_hashes p))) as [C2|C2]; cbn [negb]; [|discriminate].
    intro Q. change (bits_used start) with 0 in S1. change (hash_used start) with 0 in S2. destruct (proj1 (starts0 (pm_bits p) (flags t)) S1) as (pad & S1b). destruct (proj1 (starts0 (pm_hashes p) (shown t)) S2) as (hp & S2b). clear S1 S2. rename S1b into S1, S2b into S2. split; [lia|]. exists h, t, pad. rewrite N.add_0_l in C1, C2.
    assert (hp = []). { rewrite S2, lenN_app in C2. destruct hp; [reflexivity|]. rewrite lenN_cons in C2. lia. } subst hp. rewrite app_nil_r in S2.
    split; [exact TH|]. split; [exact F|]. split; [exact D|]. split; [split; [exact S1|split; [exact S2|exact C1]]|].
    assert (root = x /\ a = map snd (found 0 t) /\ b = map fst (found 0 t)) as (-> & -> & ->) by (injection Q as <- <- <-; auto). auto.
  - intros (_ & h' & t & pad & TH' & F & D & W & <- & -> & ->). destruct (COM h' t pad TH' F D W) as (-> & _ & _ & E & C1 & C2). rewrite E. cbn [rbind].
    cbn [adv bits_used hash_used e_matches e_indexes start app]. rewrite !N.add_0_l, C1, C2, !N.eqb_refl. reflexivity.
Qed.
(** a written tree with two equal siblings is refused *)
Lemma extract_identical : forall p ms ixs h t pad, lenN (pm_bits p) < U32 -> lenN (pm_hashes p) < U32 -> 1 <= pm_num p <= 16666 ->
  tree_height (pm_num p) h -> fits (pm_num p) h 0 t -> ~ distinct combine t -> written p t pad ->
  exists a b, extract_matches eqb combine p ms ixs = Ret (a, b, Err MbIdentical).
Proof using combine eqb_spec.
  intros p ms ixs h t pad Lb Lh Hn TH F D (W1 & W2 & W3). unfold extract_matches. rewrite (N.mod_small _ _ Lh). fold start.
  destruct (N.eqb_spec (pm_num p) 0) as [E0|E0]; [lia|]. destruct (N.ltb_spec MAX_TXS (pm_num p)) as [HM|HM]; unfold MAX_TXS in HM; [lia|].
  destruct (tree_height_ret (pm_num p)) as (h' & EH & TH' & _); [change (2 ^ 31) with 2147483648; lia|]. pose proof (height_unique _ _ _ TH' TH) as ->.
  destruct (small_height _ _ HM TH) as [_ SH]. pose proof (start_room _ _ HM TH) as SR. pose proof (height0 _ _ TH) as H0.
  destruct (fits_shown _ _ _ _ F H0) as [K1 K2]. destruct (fits_len _ _ _ _ F) as (_ & _ & _ & K3).
  assert (lenN (pm_hashes p) = lenN (shown t)) as LH by now rewrite W2. assert (lenN (flags t) <= lenN (pm_bits p)) by (rewrite W1, lenN_app; lia).
  destruct (N.ltb_spec (pm_num p) (lenN (pm_hashes p))); [lia|]. destruct (N.ltb_spec (lenN (pm_bits p)) (lenN (pm_hashes p))); [lia|].
  rewrite EH. cbn [rbind]. destruct (trav_complete combine eqb eqb_spec p h 0 t start SH H0 SR F) as [_ C]; [apply starts0; eauto|apply starts0; exists []; now rewrite app_nil_r|].
  destruct (C D) as (s' & E). rewrite E. cbn [rbind]. eauto.
Qed.

(** *** the root *)
Lemma node_len : forall l j, (2 <= length (level_up combine j l))%nat <-> 2 <= nodes_at (lenN l) (N.of_nat j).
Proof using Type. clear eqb_spec eqb.
  intros l j. assert (A : (2 <= length (level_up combine j l))%nat <-> node combine l j 1 <> None).
  { unfold node, get. rewrite nth_error_Some. lia. }
  rewrite A, node_some. pose proof (lt_nodes (lenN l) (N.of_nat j) 1). lia.
Qed.
Lemma root_height : forall l r, merkle_root combine l r -> exists h, tree_height (lenN l) (N.of_nat h) /\ node combine l h 0 = Some r /\
  forall j, (j < h)%nat -> (2 <= length (level_up combine j l))%nat.
Proof using combine eqb_spec.
  intros l r H. destruct (levels eqb eqb_spec combine r l r H) as (h & E & L). exists h. split; [|split; [unfold node; now rewrite E|exact L]]. split.
  - pose proof (node_len l h) as K. rewrite E in K. cbn [length] in K.
    assert (0 < nodes_at (lenN l) (N.of_nat h)); [|lia]. apply lt_nodes. apply (node_some combine). unfold node. rewrite E. discriminate.
  - intros k Hk. rewrite <- (N2Nat.id k). apply node_len. apply L. lia.
Qed.
Lemma root_ex : forall l, l <> [] -> exists r, merkle_root combine l r.
Proof using combine eqb_spec.
  intros l Hl. destruct l as [|d l]; [congruence|]. set (L := d :: l) in *.
  assert (E : exists h, (1 <= length L <= 2 ^ h)%nat /\ (h = 0 \/ 2 ^ (h - 1) < length L)%nat).
  { assert (1 <= length L)%nat by (unfold L; cbn; lia). clearbody L. clear Hl.
    assert (K : forall b, (length L <= 2 ^ b)%nat -> exists h, (length L <= 2 ^ h)%nat /\ (h = 0 \/ 2 ^ (h - 1) < length L)%nat).
    { induction b as [|b IH]; intro Hb; [exists O; auto|]. destruct (Nat.le_gt_cases (length L) (2 ^ b)) as [K|K]; [auto|]. exists (S b). split; auto. right. now replace (S b - 1)%nat with b by lia. }
    destruct (K (length L)) as (h & K1 & K2); [|exists h; lia]. pose proof (Nat.pow_gt_lin_r 2 (length L)). lia. }
  destruct E as (h & E1 & E2). exists (root_rec combine h L d). now apply (root_rec_spec eqb eqb_spec).
Qed.
Lemma node_root : forall l h x, tree_height (lenN l) (N.of_nat h) -> (node combine l h 0 = Some x <-> merkle_root combine l x).
Proof using combine eqb_spec.
  intros l h x TH. assert (Hl : l <> []). { intros ->. apply height_spec in TH. change (lenN []) with 0 in TH. lia. }
  destruct (root_ex l Hl) as (r & R). destruct (root_height l r R) as (h' & TH' & E & _). pose proof (height_unique _ _ _ TH TH') as Q. assert (h = h') as -> by lia.
  split; intro K; [congruence|]. rewrite E. f_equal. eapply root_det; eauto.
Qed.
Lemma eqp_nth : forall l k x, nth_error l (2 * k)%nat = Some x -> nth_error l (2 * k + 1)%nat = Some x -> equal_pair eqb l = true.
Proof using combine eqb_spec.
  induction l as [|a|a b l IH] using list_ind2; intros k x H1 H2.
  - destruct k; discriminate.
  - destruct k; [discriminate|]. replace (2 * S k)%nat with (S (S (2 * k))) in H1 by lia. destruct k; discriminate.
  - cbn [equal_pair]. destruct k as [|k].
    + injection H1 as ->. injection H2 as ->. now rewrite (proj2 (eqb_spec x x) eq_refl).
    + replace (2 * S k + 1)%nat with (S (S (2 * k + 1))) in H2 by lia. replace (2 * S k)%nat with (S (S (2 * k))) in H1 by lia. cbn [nth_error] in *.
      rewrite (IH k x H1 H2). apply orb_true_r.
Qed.
Lemma agrees_distinct : forall l t h pos, agrees combine l t h pos -> (forall j, (j < h)%nat -> (2 <= length (level_up combine j l))%nat) ->
  ~ distinct combine t -> equal_siblings combine l.
Proof using combine eqb_spec.
  intros l. induction t as [x|x|a IHa b IHb|a IHa]; intros h pos A L D; cbn [distinct] in D; try tauto.
  - destruct A as (_ & h' & -> & A1 & A2). destruct (eqb (proot combine a) (proot combine b)) eqn:E.
    + apply eqb_spec in E. apply agrees_root in A1, A2. rewrite <- E in A2. unfold node, get in A1, A2.
      replace (N.to_nat (2 * pos)) with (2 * N.to_nat pos)%nat in A1 by lia. replace (N.to_nat (2 * pos + 1)) with (2 * N.to_nat pos + 1)%nat in A2 by lia.
      eapply (eqp_level eqb eqb_spec combine (proot combine a)); [|eapply eqp_nth; eauto]. intros i Hi. apply L. lia.
    + assert (proot combine a <> proot combine b) by (intro K; apply eqb_spec in K; congruence).
      destruct (distinct_dec combine eqb eqb_spec a); [destruct (distinct_dec combine eqb eqb_spec b); [tauto|]|].
      * eapply IHb; eauto; intros j Hj; apply L; lia.
      * eapply IHa; eauto; intros j Hj; apply L; lia.
  - destruct A as (_ & h' & -> & A1). eapply IHa; eauto; intros j Hj; apply L; lia.
Qed.

(** *** building *)
Lemma slice_all : forall {A} (l : list A), slice 0 (lenN l) l = l.
Proof using Type. clear eqb_spec eqb combine. intros A l. unfold slice. rewrite N.sub_0_r. apply takeN_all. lia. Qed.
Lemma build_law : forall txids marks, 1 <= lenN txids < 2 ^ 31 -> length txids = length marks ->
  exists p h t, from_txids combine txids marks = Ret p /\ pm_num p = lenN txids /\ tree_height (lenN txids) h /\ fits (lenN txids) h 0 t /\
    pm_bits p = flags t /\ pm_hashes p = shown t /\ lean t /\ found 0 t = marked 0 txids marks /\ agrees combine txids t (N.to_nat h) 0.
Proof using combine eqb_spec.
  intros txids marks Hn Hlen. unfold from_txids. destruct (N.eqb_spec (lenN txids) 0); [lia|].
  replace (lenN txids =? lenN marks) with true by (symmetry; apply N.eqb_eq; unfold lenN; lia). cbn [negb].
  change (2 ^ 31) with 2147483648 in Hn. rewrite N.mod_small by (unfold U32; lia). destruct (tree_height_ret (lenN txids)) as (h & -> & TH & H31); [exact Hn|]. cbn [rbind].
  pose proof (height0 _ _ TH) as H0. assert (2 ^ h <= 2 ^ 31) by (apply N.pow_le_mono_r; lia). change (2 ^ 31) with 2147483648 in *.
  destruct (build_ret combine txids marks Hlen (N.to_nat h) 0 ([], [])) as (t & E & F & A & L & M); rewrite ?N2Nat.id; [unfold U32; lia|exact H0|].
  rewrite E. cbn [rbind fst snd app]. eexists _, h, t. split; [reflexivity|]. cbn [pm_num pm_bits pm_hashes]. rewrite N2Nat.id in F, M. rewrite N.mul_0_l in M. rewrite N.add_0_l, N.mul_1_l in M.
  apply height_spec in TH as K. replace (N.min (2 ^ h) (lenN txids)) with (lenN txids) in M by lia. rewrite slice_all in M.
  assert (lenN txids = lenN marks) as LE by (unfold lenN; lia). rewrite LE, slice_all in M. auto 10.
Qed.

(** *** soundness *)
Lemma lp_nth : forall (l : list T) k (a : T), nth_error l (2 * k)%nat = Some a -> lp l a (match nth_error l (2 * k + 1)%nat with Some b => b | None => a end).
Proof using Type. clear eqb_spec eqb combine.
  induction l as [|x|x y l IH] using list_ind2; intros k a H.
  - destruct k; discriminate.
  - destruct k; [injection H as ->; cbn; auto|]. replace (2 * S k)%nat with (S (S (2 * k))) in H by lia. destruct k; discriminate.
  - cbn [lp]. destruct k as [|k]; [left; injection H as ->; auto|]. right. replace (2 * S k + 1)%nat with (S (S (2 * k + 1))) by lia.
    replace (2 * S k)%nat with (S (S (2 * k))) in H by lia. cbn [nth_error] in *. now apply IH.
Qed.
Lemma pair_dec : forall a b c e : T, (a = c /\ b = e) \/ (a, b) <> (c, e).
Proof using combine eqb_spec.
  assert (D : forall a b : T, a = b \/ a <> b). { intros a b. destruct (eqb a b) eqn:E; [left; now apply eqb_spec|right]. intro K. apply eqb_spec in K. congruence. }
  intros. destruct (D a c) as [->|]; [|right; congruence]. destruct (D b e) as [->|]; [now left|right; congruence].
Qed.
Lemma sound_law : forall l h t pos, fits (lenN l) h pos t -> node combine l (N.to_nat h) pos = Some (proot combine t) ->
  (forall j, (j < N.to_nat h)%nat -> (2 <= length (level_up combine j l))%nat) ->
  (forall i x, In (i, x) (found pos t) -> get i l = Some x) \/ pmt_collision combine t l.
Proof using combine eqb_spec.
  intros l h t pos F. induction F as [h pos x|pos x|h pos a b K Fa IHa Fb IHb|h pos a K Fa IHa]; intros R L.
  - left. intros i y [].
  - left. intros i y [E|[]]. injection E as -> ->. exact R.
  - replace (N.to_nat (h + 1)) with (S (N.to_nat h)) in * by lia. rewrite node_S in R.
    destruct (node combine l (N.to_nat h) (2 * pos)) as [u|] eqn:Eu; [|discriminate].
    apply lt_nodes in K. destruct (node_ex combine l (N.to_nat h) (2 * pos + 1)) as (v & Ev); [now rewrite N2Nat.id|]. rewrite Ev in R. injection R as R. cbn [proot] in R.
    assert (Hh : hashed combine l u v).
    { eapply (hashed_level eqb eqb_spec combine u (N.to_nat h)); [intros i Hi; apply L; lia|]. unfold node, get in Eu, Ev.
      replace (N.to_nat (2 * pos)) with (2 * N.to_nat pos)%nat in Eu by lia. replace (N.to_nat (2 * pos + 1)) with (2 * N.to_nat pos + 1)%nat in Ev by lia.
      pose proof (lp_nth _ _ _ Eu) as Q. now rewrite Ev in Q. }
    destruct (pair_dec (proot combine a) (proot combine b) u v) as [[Ea Eb]|Hne].
    + destruct IHa as [I1|(c1 & c2 & c3 & c4 & C1 & C2)]; [congruence|intros j Hj; apply L; lia| |].
      * destruct IHb as [I2|(c1 & c2 & c3 & c4 & C1 & C2)]; [congruence|intros j Hj; apply L; lia| |].
        -- left. intros i x Hi. cbn [found] in Hi. apply in_app_or in Hi as [Hi|Hi]; auto.
        -- right. exists c1, c2, c3, c4. split; [|exact C2]. cbn [pairs]. right. apply in_or_app. auto.
      * right. exists c1, c2, c3, c4. split; [|exact C2]. cbn [pairs]. right. apply in_or_app. auto.
    + right. exists (proot combine a), (proot combine b), u, v. split; [now left|]. split; [exact Hh|]. split; [exact Hne|]. congruence.
  - replace (N.to_nat (h + 1)) with (S (N.to_nat h)) in * by lia. rewrite node_S in R.
    destruct (node combine l (N.to_nat h) (2 * pos)) as [u|] eqn:Eu; [|discriminate].
    rewrite (node_none combine l (N.to_nat h) (2 * pos + 1)) in R by (rewrite N2Nat.id; pose proof (lt_nodes (lenN l) h (2 * pos + 1)); lia). injection R as R. cbn [proot] in R.
    assert (Hh : hashed combine l u u).
    { eapply (hashed_level eqb eqb_spec combine u (N.to_nat h)); [intros i Hi; apply L; lia|].
      pose proof (node_none combine l (N.to_nat h) (2 * pos + 1)) as Ev. rewrite N2Nat.id in Ev. specialize (Ev ltac:(pose proof (lt_nodes (lenN l) h (2 * pos + 1)); lia)).
      unfold node, get in Eu, Ev. replace (N.to_nat (2 * pos)) with (2 * N.to_nat pos)%nat in Eu by lia. replace (N.to_nat (2 * pos + 1)) with (2 * N.to_nat pos + 1)%nat in Ev by lia.
      pose proof (lp_nth _ _ _ Eu) as Q. now rewrite Ev in Q. }
    destruct (pair_dec (proot combine a) (proot combine a) u u) as [[Ea _]|Hne].
    + destruct IHa as [I1|(c1 & c2 & c3 & c4 & C1 & C2)]; [congruence|intros j Hj; apply L; lia| |].
      * left. intros i x Hi. cbn [found] in Hi. auto.
      * right. exists c1, c2, c3, c4. split; [|exact C2]. cbn [pairs]. now right.
    + right. exists (proot combine a), (proot combine a), u, u. split; [now left|]. split; [exact Hh|]. split; [exact Hne|]. congruence.
Qed.
(** the positions of the reported leaves *)
Fixpoint increasing_from (lo : N) (l : list N) (hi : N) : Prop :=
  match l with [] => True | x :: l' => lo <= x /\ x < hi /\ increasing_from (x + 1) l' hi end.
Lemma inc_app : forall a lo mid hi b, lo <= mid -> increasing_from lo a mid -> increasing_from mid b hi -> mid <= hi -> increasing_from lo (a ++ b) hi.
Proof using Type. clear eqb_spec eqb combine.
  induction a as [|x a IH]; intros lo mid hi b H1 H2 H3 H4; cbn [app].
  - destruct b as [|y b]; [exact I|]. destruct H3 as (K1 & K2 & K3). repeat split; auto; lia.
  - destruct H2 as (K1 & K2 & K3). repeat split; auto; [lia|]. eapply (IH (x + 1) mid); eauto. lia.
Qed.
Lemma inc_le : forall a lo hi hi', hi <= hi' -> increasing_from lo a hi -> increasing_from lo a hi'.
Proof using Type. clear eqb_spec eqb combine. induction a; intros lo hi hi' H; cbn; auto. intros (A & B & C). repeat split; auto; [lia|]. eapply IHa; eauto. Qed.
Lemma found_inc : forall n h pos (t : ptree T), fits n h pos t -> pos * 2 ^ h < n ->
  increasing_from (pos * 2 ^ h) (map fst (found pos t)) (N.min n ((pos + 1) * 2 ^ h)).
Proof using Type. clear eqb_spec eqb combine.
  intros n h pos t F. induction F as [h pos x|pos x|h pos l r K Fl IHl Fr IHr|h pos l K Fl IHl]; intro Hp; cbn [found map increasing_from]; auto.
  - change (2 ^ 0) with 1 in *. cbn [fst]. split; [lia|split; [lia|exact I]].
  - destruct (below _ _ _ Hp) as [B1 B2]. apply lt_nodes in K. rewrite map_app. specialize (IHl B1). specialize (IHr K). rewrite pow_S in *. pose proof (pow1 h).
    replace (2 * pos * 2 ^ h) with (pos * (2 * 2 ^ h)) in IHl by lia. replace ((2 * pos + 1 + 1) * 2 ^ h) with ((pos + 1) * (2 * 2 ^ h)) in IHr by lia.
    eapply (inc_app _ _ ((2 * pos + 1) * 2 ^ h)); [nia| |exact IHr|nia]. eapply inc_le; [|exact IHl]. lia.
  - destruct (below _ _ _ Hp) as [B1 B2]. specialize (IHl B1). rewrite pow_S in *. replace (2 * pos * 2 ^ h) with (pos * (2 * 2 ^ h)) in IHl by lia.
    eapply inc_le; [|exact IHl]. pose proof (pow1 h). nia.
Qed.
End Pmt.
