(** The model's encoders and limits against the wire specification. *)
From Verif Require Import Base MDec LDec LCompact MWitness SWitness LWitness LWitDec MTx MAmount LCodec LTx2 SWire.
From Coq Require Import Permutation Sorted.
Local Open Scope N_scope.

Lemma wire_compact_eq : forall v, cs_encode v = wire_compact v.
Proof.
  intro v. unfold cs_encode, wire_compact. change (2 ^ 16) with 65536. change (2 ^ 32) with 4294967296.
  destruct (N.leb_spec v 252), (N.ltb_spec v 253); try lia; [rewrite N.mod_small by lia; reflexivity|].
  destruct (N.leb_spec v 65535), (N.ltb_spec v 65536); try lia; [rewrite N.mod_small by lia; reflexivity|].
  destruct (N.leb_spec v 4294967295), (N.ltb_spec v 4294967296); try lia; [rewrite N.mod_small by lia; reflexivity|reflexivity].
Qed.
Lemma wire_bytes_eq : forall b, script_encode b = wire_bytes b.
Proof. intro. unfold script_encode, wire_bytes. now rewrite wire_compact_eq. Qed.
Lemma wire_list_eq : forall A (f h : A -> bytes) xs, (forall x, f x = h x) -> slice_encode f xs = wire_list h xs.
Proof.
  intros A f h xs H. unfold slice_encode, wire_list. rewrite wire_compact_eq, flat_map_concat_map. f_equal. f_equal.
  apply map_ext. auto.
Qed.
Lemma wire_txin_eq : forall i, txin_encode i = wire_txin i.
Proof. intro. unfold txin_encode, wire_txin. now rewrite wire_bytes_eq. Qed.
Lemma wire_txout_eq : forall o, txout_encode o = wire_txout o.
Proof. intro. unfold txout_encode, wire_txout. now rewrite wire_bytes_eq. Qed.
Lemma wire_stack_eq : forall ls, stack_bytes ls = wire_stack ls.
Proof. intro. change (stack_bytes ls) with (slice_encode elem_bytes ls). apply wire_list_eq. apply wire_bytes_eq. Qed.

Lemma stack_of_layout : forall w ls, stack_of w ls <-> w = layout ls /\ fits ls.
Proof.
  intros w ls. unfold stack_of. rewrite from_slice_spec. destruct (fitsb (offs ls 0)) eqn:Hf.
  - apply fitsb_spec in Hf. split; [intro H; inv H; auto|intros [-> _]; auto].
  - split; [discriminate|]. intros [_ F]. apply fitsb_spec in F. congruence.
Qed.
Lemma wit_encode_stack : forall w ls, stack_of w ls -> wit_encode w = wire_stack ls.
Proof. intros w ls H. apply stack_of_layout in H as [-> _]. now rewrite wit_encode_layout, wire_stack_eq. Qed.
Lemma wit_empty_stack : forall w ls, stack_of w ls -> wit_is_empty w = match ls with [] => true | _ => false end.
Proof. intros w ls H. apply stack_of_layout in H as [-> _]. unfold wit_is_empty. cbn [layout wt_elements]. destruct ls; [reflexivity|]. rewrite lenN_cons. lia. Qed.

Lemma wire_tx_eq : forall tx ws, Forall2 stack_of (map ti_witness (tx_inputs tx)) ws -> tx_encode tx = wire_tx tx ws.
Proof.
  intros [v lt ins outs] ws H. cbn [tx_inputs] in H. unfold tx_encode, wire_tx, uses_segwit, wire_legacy, wire_segwit.
  cbn [tx_version tx_lock_time tx_inputs tx_outputs].
  rewrite (wire_list_eq _ _ _ ins wire_txin_eq), (wire_list_eq _ _ _ outs wire_txout_eq).
  assert (K : existsb (fun i => negb (wit_is_empty (ti_witness i))) ins = negb (forallb (fun s : list bytes => match s with [] => true | _ => false end) ws) /\
    flat_map (fun i => wit_encode (ti_witness i)) ins = concat (map wire_stack ws)).
  { clear - H. revert ws H. induction ins as [|i ins IH]; intros ws H; inv H; [auto|]. destruct (IH _ H4) as [E1 E2].
    cbn [existsb forallb flat_map map concat]. rewrite E1, E2, (wit_empty_stack _ _ H2), (wit_encode_stack _ _ H2), negb_andb. auto. }
  destruct K as [-> ->]. destruct (forallb _ ws); cbn [negb andb orb]; [|reflexivity].
  destruct ins; reflexivity.
Qed.
Lemma witness_ok_eq : forall w, wf_witness w <-> witness_ok w.
Proof.
  intro w. unfold wf_witness, witness_ok, stack_ok. split.
  - intros (ls & -> & S & Hn & F & Hok). exists ls. rewrite stack_of_layout. repeat split; auto.
    unfold small in S. rewrite Forall_forall in *. intros e He. split; [now apply S|now apply Hok].
  - intros (ls & Hs & Hn & F). apply stack_of_layout in Hs as [-> Fi]. exists ls. repeat split; auto.
    + unfold small. eapply Forall_impl; [|exact F]. now intros e [? _].
    + eapply Forall_impl; [|exact F]. now intros e [_ ?].
Qed.
Lemma txin_ok_eq : forall i, wf_txin i <-> txin_ok i.
Proof. intro i. unfold wf_txin, txin_ok. now rewrite witness_ok_eq. Qed.

(** *** structural rules *)
Lemma beqb_eq : forall a b, beqb a b = true <-> a = b.
Proof. apply beqb_spec. Qed.
Lemma outpoint_eqb_eq : forall a b, outpoint_eqb a b = true <-> a = b.
Proof.
  intros [t v] [t' v']. unfold outpoint_eqb. cbn. rewrite andb_true_iff, beqb_eq, N.eqb_eq. split; [intros [-> ->]; auto|intro H; inv H; auto].
Qed.
Lemma bytes_leb_total : forall a b, bytes_leb a b = true \/ bytes_leb b a = true.
Proof.
  induction a as [|x a IH]; intros [|y b]; cbn; auto. destruct (N.lt_trichotomy x y) as [H|[->|H]].
  - left. apply N.ltb_lt in H. now rewrite H.
  - rewrite N.ltb_irrefl, N.eqb_refl. cbn. apply IH.
  - right. apply N.ltb_lt in H. now rewrite H.
Qed.
Lemma bytes_leb_antisym : forall a b, bytes_leb a b = true -> bytes_leb b a = true -> a = b.
Proof.
  induction a as [|x a IH]; intros [|y b] H1 H2; cbn in *; try discriminate; auto.
  destruct (N.lt_trichotomy x y) as [H|[->|H]].
  - replace (y <? x) with false in H2 by lia. replace (y =? x) with false in H2 by lia. discriminate.
  - rewrite N.ltb_irrefl, N.eqb_refl in *. cbn in *. f_equal. auto.
  - replace (x <? y) with false in H1 by lia. replace (x =? y) with false in H1 by lia. discriminate.
Qed.
Lemma bytes_leb_trans : forall a b c, bytes_leb a b = true -> bytes_leb b c = true -> bytes_leb a c = true.
Proof.
  induction a as [|x a IH]; intros [|y b] [|z c] H1 H2; cbn in *; try discriminate; auto.
  apply orb_true_iff in H1, H2. rewrite andb_true_iff in H1, H2. rewrite N.eqb_eq, N.ltb_lt in *.
  apply orb_true_iff. rewrite andb_true_iff, N.eqb_eq, N.ltb_lt.
  destruct H1 as [H1|[-> H1]], H2 as [H2|[-> H2]]; try (left; lia). right. split; eauto.
Qed.
Lemma op_total : forall a b, outpoint_leb a b = true \/ outpoint_leb b a = true.
Proof.
  intros [t v] [t' v']. unfold outpoint_leb. cbn. destruct (beqb t t') eqn:He.
  - apply beqb_eq in He. subst. rewrite (proj2 (beqb_eq t' t') eq_refl). lia.
  - destruct (beqb t' t) eqn:He'; [apply beqb_eq in He'; subst; rewrite (proj2 (beqb_eq t t) eq_refl) in He; discriminate|]. apply bytes_leb_total.
Qed.
Lemma op_antisym : forall a b, outpoint_leb a b = true -> outpoint_leb b a = true -> a = b.
Proof.
  intros [t v] [t' v']. unfold outpoint_leb. cbn. destruct (beqb t t') eqn:He.
  - apply beqb_eq in He. subst. rewrite (proj2 (beqb_eq t' t') eq_refl). intros. f_equal. lia.
  - destruct (beqb t' t) eqn:He'; [apply beqb_eq in He'; subst; rewrite (proj2 (beqb_eq t t) eq_refl) in He; discriminate|].
    intros H1 H2. rewrite (bytes_leb_antisym _ _ H1 H2), (proj2 (beqb_eq t' t') eq_refl) in He. discriminate.
Qed.
Lemma op_trans : forall a b c, outpoint_leb a b = true -> outpoint_leb b c = true -> outpoint_leb a c = true.
Proof.
  intros [t v] [t' v'] [t'' v'']. unfold outpoint_leb. cbn. intros H1 H2.
  destruct (beqb t t') eqn:E1; destruct (beqb t' t'') eqn:E2; try (apply beqb_eq in E1); try (apply beqb_eq in E2); subst.
  - rewrite (proj2 (beqb_eq t'' t'') eq_refl). lia.
  - rewrite E2. auto.
  - rewrite E1. auto.
  - destruct (beqb t t'') eqn:E3.
    + apply beqb_eq in E3. subst t''. rewrite (bytes_leb_antisym _ _ H1 H2), (proj2 (beqb_eq t' t') eq_refl) in E1. discriminate.
    + eapply bytes_leb_trans; eauto.
Qed.
Definition ople a b := outpoint_leb a b = true.
Lemma insert_perm : forall x l, Permutation (insert_op x l) (x :: l).
Proof.
  induction l as [|y l IH]; cbn; [auto|]. destruct (outpoint_leb x y); [auto|].
  eapply perm_trans; [apply perm_skip, IH|apply perm_swap].
Qed.
Lemma sort_perm : forall l, Permutation (sort_ops l) l.
Proof. induction l; cbn; [auto|]. eapply perm_trans; [apply insert_perm|]. now apply perm_skip. Qed.
Lemma insert_sorted : forall x l, StronglySorted ople l -> StronglySorted ople (insert_op x l).
Proof.
  induction l as [|y l IH]; intro H; cbn; [repeat constructor|]. inv H. destruct (outpoint_leb x y) eqn:He.
  - constructor; [constructor; auto|]. constructor; [exact He|].
    eapply Forall_impl; [|exact H3]. intros z Hz. exact (op_trans _ _ _ He Hz).
  - constructor; [auto|]. eapply Permutation_Forall; [apply Permutation_sym, insert_perm|].
    constructor; auto. destruct (op_total x y) as [K|K]; [congruence|exact K].
Qed.
Lemma sort_sorted : forall l, StronglySorted ople (sort_ops l).
Proof. induction l; cbn; [constructor|]. now apply insert_sorted. Qed.
Lemma first_dup_none : forall l, StronglySorted ople l -> (first_dup l = None <-> NoDup l).
Proof.
  induction l as [|a l IH]; intro S; [split; [constructor|auto]|]. inv S. destruct l as [|b l].
  - cbn. split; [intros _; repeat constructor; intros []|auto].
  - change (first_dup (a :: b :: l)) with (if outpoint_eqb a b then Some a else first_dup (b :: l)).
    destruct (outpoint_eqb a b) eqn:He.
    + apply outpoint_eqb_eq in He. subst b. split; [discriminate|]. intro N. inv N. exfalso. apply H3. now left.
    + rewrite IH by auto. split; intro N.
      * constructor; auto. intro Hin. assert (K : ople b a).
        { destruct Hin as [->|Hin]; [destruct (op_total a a); auto|]. apply StronglySorted_inv in H1 as [_ H1]. rewrite Forall_forall in H1. now apply H1. }
        apply Forall_inv in H2. pose proof (op_antisym _ _ H2 K) as ->.
        rewrite (proj2 (outpoint_eqb_eq b b) eq_refl) in He. discriminate.
      * now inv N.
Qed.
Lemma first_dup_some : forall l o, first_dup l = Some o -> exists a b, l = a ++ o :: o :: b.
Proof.
  induction l as [|a l IH]; intros o H; [discriminate|]. destruct l as [|b l]; [discriminate|].
  change (first_dup (a :: b :: l)) with (if outpoint_eqb a b then Some a else first_dup (b :: l)) in H.
  destruct (outpoint_eqb a b) eqn:He.
  - apply outpoint_eqb_eq in He. inv H. exists [], l. reflexivity.
  - destruct (IH _ H) as (x & y & ->). exists (a :: x), y. reflexivity.
Qed.
Lemma dups_none : forall l, first_dup (sort_ops l) = None <-> NoDup l.
Proof.
  intro l. rewrite first_dup_none by apply sort_sorted. split; apply Permutation_NoDup; [|apply Permutation_sym]; apply sort_perm.
Qed.
Lemma null_at_none : forall ins i, null_prevout_at ins i = None <-> ~ In null_outpoint (map ti_prevout ins).
Proof.
  induction ins as [|x ins IH]; intro i; cbn [null_prevout_at map In]; [tauto|].
  destruct (outpoint_eqb (ti_prevout x) COINBASE_PREVOUT) eqn:He.
  - apply outpoint_eqb_eq in He. split; [discriminate|]. intro H. exfalso. apply H. left. exact He.
  - rewrite IH. split; intro H.
    + intros [K|K]; [|auto]. change null_outpoint with COINBASE_PREVOUT in K. rewrite K in He.
      rewrite (proj2 (outpoint_eqb_eq _ _) eq_refl) in He. discriminate.
    + intro K. apply H. now right.
Qed.
Lemma sum_none : forall outs t, Forall (fun o => to_amount o <= MAX_MONEY) outs -> t <= MAX_MONEY ->
  (sum_too_large outs t = None <-> t + fold_right (fun o acc => to_amount o + acc) 0 outs <= MAX_MONEY).
Proof.
  unfold MAX_MONEY, U64_MAX_. change (Z.to_N AMOUNT_MAX) with 2100000000000000.
  induction outs as [|o outs IH]; intros t F Ht; cbn [sum_too_large fold_right].
  - split; auto. lia.
  - inv F. unfold MAX_MONEY, U64_MAX_. change (Z.to_N AMOUNT_MAX) with 2100000000000000.
    destruct (N.ltb_spec 2100000000000000 (N.min (t + to_amount o) 18446744073709551615)).
    + split; [discriminate|]. lia.
    + rewrite IH by (auto; lia). lia.
Qed.

Lemma tx_check_rules : forall tx, Forall (fun o => to_amount o <= MAX_MONEY) (tx_outputs tx) ->
  (tx_check tx = Ok tx <-> tx_rules tx).
Proof.
  intros [v lt ins outs] F. unfold tx_check. cbn [tx_inputs tx_outputs] in *.
  assert (Hs : sum_too_large outs 0 = None <-> total_out {| tx_version := v; tx_lock_time := lt; tx_inputs := ins; tx_outputs := outs |} <= 2100000000000000).
  { rewrite sum_none by (auto; lia). unfold total_out. cbn [tx_outputs]. rewrite N.add_0_l. reflexivity. }
  pose proof (dups_none (map ti_prevout ins)) as Hd.
  split.
  - intro H. destruct outs as [|o outs]; [discriminate|].
    destruct (if 1 <? lenN ins then null_prevout_at ins 0 else None) eqn:Hn; [discriminate|].
    match type of H with match ?x with _ => _ end = _ => destruct x eqn:Hc; [discriminate|] end.
    destruct (first_dup _); [discriminate|]. destruct (sum_too_large _ _); [discriminate|].
    constructor; cbn [tx_inputs tx_outputs].
    + discriminate.
    + intro Hl. replace (1 <? lenN ins) with true in Hn by (unfold lenN; lia). now apply null_at_none in Hn.
    + intros i -> Hp. unfold is_coinbase in Hc. cbn [tx_inputs] in Hc. change null_outpoint with COINBASE_PREVOUT in Hp.
      rewrite Hp, (proj2 (outpoint_eqb_eq _ _) eq_refl) in Hc.
      destruct (N.ltb_spec (lenN (ti_script i)) 2); [discriminate|]. destruct (N.ltb_spec 100 (lenN (ti_script i))); [discriminate|]. lia.
    + now apply Hd.
    + now apply Hs.
  - intros [R1 R2 R3 R4 R5]. cbn [tx_inputs tx_outputs] in *. destruct outs as [|o outs]; [congruence|].
    assert (Hn : (if 1 <? lenN ins then null_prevout_at ins 0 else None) = None).
    { destruct (N.ltb_spec 1 (lenN ins)); auto. apply null_at_none. apply R2. unfold lenN in *. lia. }
    rewrite Hn. match goal with |- match ?x with _ => _ end = _ => assert (Hc : x = None) end.
    { destruct ins as [|i ins]; auto. unfold is_coinbase. cbn [tx_inputs]. destruct ins as [|]; auto.
      destruct (outpoint_eqb _ _) eqn:He; auto. apply outpoint_eqb_eq in He. specialize (R3 i eq_refl He).
      destruct (N.ltb_spec (lenN (ti_script i)) 2); [lia|]. destruct (N.ltb_spec 100 (lenN (ti_script i))); [lia|]. reflexivity. }
    rewrite Hc, (proj2 Hd R4), (proj2 Hs R5). reflexivity.
Qed.
Lemma tx_ok_eq : forall tx, wf_tx tx <-> tx_ok tx.
Proof.
  intro tx. unfold wf_tx, tx_ok, tx_shape.
  assert (K : is_vec wf_txin MAX_VEC_SIZE (tx_inputs tx) <-> list_ok txin_ok (tx_inputs tx)).
  { unfold is_vec, list_ok. split; intros [H1 H2]; split; auto; (eapply Forall_impl; [|exact H2]); intros i Hi; now apply txin_ok_eq. }
  rewrite K. unfold is_u32. change (2 ^ 32) with U32.
  split.
  - intros (H1 & H2 & H3 & H4 & H5). split; [repeat (split; [assumption|]); exact H4|]. apply tx_check_rules; auto.
    eapply Forall_impl; [|apply H4]. now intros o [? _].
  - intros ((H1 & H2 & H3 & H4) & H5). repeat (split; [assumption|]). apply tx_check_rules; auto.
    eapply Forall_impl; [|apply H4]. now intros o [? _].
Qed.
Lemma tx_codec_ok : codec tx_dec tx_encode tx_ok.
Proof. eapply codec_ext; [apply tx_codec|auto|apply tx_ok_eq]. Qed.
Lemma block_codec_ok : codec block_dec (fun b => wire_header (b_header b) ++ slice_encode tx_encode (b_txs b)) block_ok.
Proof.
  eapply codec_ext; [apply block_codec|auto|]. intros [h txs]. unfold wf_block, block_ok, is_vec, list_ok. cbn [b_header b_txs].
  split; intros (H1 & H2 & H3); (split; [exact H1|]); split; auto; (eapply Forall_impl; [|exact H3]); intros t Ht; now apply tx_ok_eq.
Qed.
