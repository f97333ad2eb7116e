(** Transaction ids, and the meaning of the decoder's structural errors. *)
From Verif Require Import Base MDec LDec LDec2 LDrive LPrefix LCompact MWitness SWitness LWitness LWitDec MTx MAmount LCodec LTx LTx2 LBuilt SWire STx LWire.
Local Open Scope N_scope.
From Coq Require Import Permutation.

(** *** errors *)
Lemma null_at_some : forall ins i k, null_prevout_at ins i = Some k -> i <= k /\
  exists inp, nth_error ins (N.to_nat (k - i)) = Some inp /\ ti_prevout inp = null_outpoint.
Proof.
  induction ins as [|x ins IH]; intros i k H; [discriminate|]. cbn [null_prevout_at] in H.
  destruct (outpoint_eqb _ _) eqn:He.
  - inv H. apply outpoint_eqb_eq in He. split; [lia|]. exists x. rewrite N.sub_diag. split; [reflexivity|exact He].
  - destruct (IH _ _ H) as [Hle (inp & Hn & Hp)]. split; [lia|]. exists inp. split; auto.
    replace (N.to_nat (k - i)) with (S (N.to_nat (k - (i + 1)))) by lia. exact Hn.
Qed.
Lemma dup_nth : forall A (l : list A) a b o, Permutation (a ++ o :: o :: b) l ->
  exists i j, i <> j /\ nth_error l i = Some o /\ nth_error l j = Some o.
Proof.
  intros A l a b o P. assert (P' : Permutation (o :: o :: a ++ b) l).
  { eapply perm_trans; [|exact P]. eapply perm_trans; [apply perm_skip, Permutation_middle|]. apply Permutation_middle. }
  clear P. assert (Hin : In o l) by (eapply Permutation_in; [exact P'|now left]).
  apply in_split in Hin as (l1 & l2 & ->).
  assert (P2 : Permutation (o :: a ++ b) (l1 ++ l2)).
  { eapply Permutation_cons_inv with (a := o). eapply perm_trans; [exact P'|]. apply Permutation_sym, Permutation_middle. }
  assert (Hin : In o (l1 ++ l2)) by (eapply Permutation_in; [exact P2|now left]).
  apply in_app_or in Hin as [Hin|Hin]; apply In_nth_error in Hin as [n Hn].
  - exists n, (length l1). assert (n < length l1)%nat by (apply nth_error_Some; congruence). split; [lia|]. split.
    + now rewrite nth_error_app1.
    + rewrite nth_error_app2, Nat.sub_diag by lia. reflexivity.
  - exists (length l1), (length l1 + S n)%nat. split; [lia|]. split.
    + rewrite nth_error_app2, Nat.sub_diag by lia. reflexivity.
    + rewrite nth_error_app2 by lia. replace (length l1 + S n - length l1)%nat with (S n) by lia. exact Hn.
Qed.
Lemma sum_some : forall outs t v, t <= MAX_MONEY -> sum_too_large outs t = Some v ->
  MAX_MONEY < v /\ v <= t + fold_right (fun o acc => to_amount o + acc) 0 outs.
Proof.
  induction outs as [|o outs IH]; intros t v Ht H; [discriminate|]. cbn [sum_too_large fold_right] in *.
  destruct (MAX_MONEY <? N.min (t + to_amount o) U64_MAX_) eqn:Hc.
  - inv H. lia.
  - apply IH in H; lia.
Qed.

Lemma tx_check_violates : forall tx e, tx_check tx = Err e -> violates tx e.
Proof.
  intros tx e H. unfold tx_check in H. destruct (tx_outputs tx) as [|o outs] eqn:Ho.
  { inv H. now constructor. }
  destruct (if 1 <? lenN (tx_inputs tx) then null_prevout_at (tx_inputs tx) 0 else None) eqn:Hn.
  { inv H. destruct (N.ltb_spec 1 (lenN (tx_inputs tx))); [|discriminate].
    apply null_at_some in Hn as [_ (inp & Hn & Hp)]. rewrite N.sub_0_r in Hn. apply V_null with inp; auto. unfold lenN in *. lia. }
  match type of H with match ?x with _ => _ end = _ => destruct x eqn:Hc end.
  { inv H. destruct (tx_inputs tx) as [|i l] eqn:Hi; [discriminate|]. unfold is_coinbase in Hc. rewrite Hi in Hc.
    destruct l as [|]; [|discriminate]. destruct (outpoint_eqb _ _) eqn:He; [|discriminate]. apply outpoint_eqb_eq in He.
    destruct (N.ltb_spec (lenN (ti_script i)) 2); [inv Hc; now apply V_small|].
    destruct (N.ltb_spec 100 (lenN (ti_script i))); [inv Hc; now apply V_large|discriminate]. }
  destruct (first_dup _) eqn:Hd.
  { inv H. apply first_dup_some in Hd as (a & b & Hs).
    destruct (dup_nth _ (map ti_prevout (tx_inputs tx)) a b o0) as (i & j & Hij & H1 & H2).
    { rewrite <- Hs. apply sort_perm. }
    rewrite nth_error_map in H1, H2. destruct (nth_error _ i) as [x|] eqn:E1; [|discriminate]. destruct (nth_error _ j) as [y|] eqn:E2; [|discriminate].
    inv H1. apply V_dup with i j y; auto. inv H2. auto. }
  destruct (sum_too_large _ _) eqn:Hs; [|discriminate]. inv H. apply V_sum. rewrite <- Ho in Hs. apply sum_some in Hs; [|apply N.le_0_l].
  unfold total_out. rewrite N.add_0_l in Hs. exact Hs.
Qed.

Lemma tx_shape_wf0 : forall tx, tx_shape tx <-> wf_tx0 tx.
Proof.
  intro tx. unfold wf_tx0, tx_shape.
  assert (K : is_vec wf_txin MAX_VEC_SIZE (tx_inputs tx) <-> list_ok txin_ok (tx_inputs tx)).
  { unfold is_vec, list_ok. split; intros [H1 H2]; split; auto; (eapply Forall_impl; [|exact H2]); intros i Hi; now apply txin_ok_eq. }
  rewrite K. unfold is_u32. change (2 ^ 32) with U32. split; intros (H1 & H2 & H3 & H4); repeat (split; [assumption|]); exact H4.
Qed.

(** the decoder on the encoding of a transaction of the right shape *)
Lemma decode_shape : forall tx t, tx_shape tx ->
  match tx_check tx with
  | Ok _ => decode_from_slice_unbounded tx_dec (tx_encode tx ++ t) = Ret (Ok tx, t)
  | Err e => exists r, decode_from_slice_unbounded tx_dec (tx_encode tx ++ t) = Ret (Err e, r)
  end.
Proof.
  intros tx t W. apply tx_shape_wf0 in W.
  destruct u32_codec as (gu & du & Lu & Nu & RTu & CNu & NBu).
  destruct ins_codec as (gi & di & Li & Ni & RTi & CNi & NBi).
  destruct outs_codec as (go & d_o & Lo & No & RTo & CNo & NBo).
  destruct witness_codec as (gw & dw & Lw & Nw & RTw & CNw & NBw).
  assert (L : lawful tx_dec (tx_good gu gi go gw) (tx_den du di d_o dw)) by now apply tx_lawful.
  pose proof (slice_unbounded_den tx_dec _ _ L (tx_encode tx ++ t)) as K.
  rewrite (tx_rt0 _ RTu _ RTi _ RTo _ RTw _ t W) in K.
  destruct (tx_check tx) as [tx'|e] eqn:Hc; cbn [of_res] in K.
  - apply tx_check_ok in Hc as Hc'. subst tx'. exact K.
  - exact K.
Qed.
Lemma decode_empty_witnesses : forall tx ws t, tx_shape tx -> tx_inputs tx <> [] ->
  Forall2 stack_of (map ti_witness (tx_inputs tx)) ws -> Forall (fun s => s = []) ws ->
  exists r, decode_from_slice_unbounded tx_dec (wire_segwit tx ws ++ t) = Ret (Err TeNoWitnesses, r).
Proof.
  intros tx ws t W Hne F2 Hall. apply tx_shape_wf0 in W. destruct tx as [v lt ins outs]. destruct W as (W1 & W2 & W3 & W4).
  cbn [tx_version tx_lock_time tx_inputs tx_outputs] in *.
  destruct u32_codec as (gu & du & Lu & Nu & RTu & CNu & NBu).
  destruct ins_codec as (gi & di & Li & Ni & RTi & CNi & NBi).
  destruct outs_codec as (go & d_o & Lo & No & RTo & CNo & NBo).
  destruct witness_codec as (gw & dw & Lw & Nw & RTw & CNw & NBw).
  assert (L : lawful tx_dec (tx_good gu gi go gw) (tx_den du di d_o dw)) by now apply tx_lawful.
  assert (Hw : concat (map wire_stack ws) = flat_map (fun i => wit_encode (ti_witness i)) ins).
  { clear - F2. revert ws F2. induction ins; intros ws F2; inv F2; auto. cbn [map concat flat_map]. rewrite (wit_encode_stack _ _ H1). f_equal. now apply IHins. }
  assert (He : all_empty ins = true).
  { clear - F2 Hall. revert ws F2 Hall. induction ins; intros ws F2 Hall; inv F2; auto. inv Hall. unfold all_empty in *. cbn [forallb].
    rewrite (wit_empty_stack _ _ H1). cbn. eapply IHins; eauto. }
  pose proof (slice_unbounded_den tx_dec _ _ L (wire_segwit {| tx_version := v; tx_lock_time := lt; tx_inputs := ins; tx_outputs := outs |} ws ++ t)) as K.
  unfold wire_segwit in *. cbn [tx_version tx_lock_time tx_inputs tx_outputs] in *. rewrite Hw in *.
  rewrite <- (wire_list_eq _ _ _ ins wire_txin_eq), <- (wire_list_eq _ _ _ outs wire_txout_eq) in *. rewrite <- !app_assoc in *.
  rewrite (tx_rt_empty _ RTu _ RTi _ RTo _ RTw v lt ins outs t W1 Hne W3 W4 He) in K. exact K.
Qed.
Lemma decode_bad_flag : forall v b t, is_u32 v -> b <> 1 ->
  exists r, decode_from_slice_unbounded tx_dec (le_bytes 4 v ++ 0 :: b :: t) = Ret (Err (TeSegwitFlag b), r).
Proof.
  intros v b t W Hb.
  destruct u32_codec as (gu & du & Lu & Nu & RTu & CNu & NBu).
  destruct ins_codec as (gi & di & Li & Ni & RTi & CNi & NBi).
  destruct outs_codec as (go & d_o & Lo & No & RTo & CNo & NBo).
  destruct witness_codec as (gw & dw & Lw & Nw & RTw & CNw & NBw).
  assert (L : lawful tx_dec (tx_good gu gi go gw) (tx_den du di d_o dw)) by now apply tx_lawful.
  pose proof (slice_unbounded_den tx_dec _ _ L (le_bytes 4 v ++ 0 :: b :: t)) as K.
  rewrite (tx_rt_flag _ RTu _ RTi d_o dw v b t W Hb) in K. exact K.
Qed.

(** *** the room a decodable witness takes *)
Lemma stack_flat_bound : forall ls, fits ls -> small ls -> lenN (flat ls) <= U32_MAX + 4000005.
Proof.
  intros ls F S. destruct ls as [|e ls _] using rev_ind; [unfold U32_MAX; cbn; lia|].
  unfold fits in F. rewrite offs_app in F. apply Forall_app in F as [_ F]. cbn [offs] in F. apply Forall_inv in F.
  unfold small in S. apply Forall_app in S as [_ S]. apply Forall_inv in S.
  rewrite flat_app, lenN_app, flat_cons, app_nil_r, elem_bytes_len. rewrite N.add_0_l in F.
  unfold cs_encoded_size. destr_if; try lia. destr_if; try lia. destr_if; lia.
Qed.
Lemma stack_room : forall ls, fits ls -> small ls -> lenN ls <= 4000000 -> lenN (wt_content (layout ls)) + 4 < USIZE.
Proof.
  intros ls F S Hn. cbn [layout wt_content]. rewrite lenN_app, idxs_len, offs_len.
  pose proof (stack_flat_bound ls F S). unfold U32_MAX, USIZE in *. lia.
Qed.
Lemma wit_to_vec_ok : forall w ls, stack_of w ls -> stack_ok ls -> wit_to_vec w = Ret ls.
Proof.
  intros w ls H [Hn S]. apply stack_of_layout in H as [-> F].
  assert (S' : small ls) by (eapply Forall_impl; [|exact S]; now intros e [? _]).
  apply to_vec_spec; auto. now apply stack_room.
Qed.

(** *** ids *)
Lemma hash_preimage_legacy : forall tx, hash_preimage tx false = Ret (wire_legacy tx).
Proof.
  intros tx. unfold hash_preimage, wire_legacy. cbn [rbind app]. f_equal. f_equal.
  rewrite <- (wire_list_eq _ _ _ (tx_inputs tx) wire_txin_eq), <- (wire_list_eq _ _ _ (tx_outputs tx) wire_txout_eq).
  unfold slice_encode. rewrite <- !app_assoc. f_equal. f_equal.
  apply flat_map_ext. intro i. unfold txin_encode, script_encode, outpoint_encode. now rewrite <- !app_assoc.
Qed.
Lemma hash_witnesses_ok : forall ins, Forall (fun i => witness_ok (ti_witness i)) ins ->
  hash_witnesses ins = Ret (flat_map (fun i => wit_encode (ti_witness i)) ins).
Proof.
  induction ins as [|i ins IH]; intro F; [reflexivity|]. inv F. destruct H1 as (ls & S & Sok).
  cbn [hash_witnesses flat_map]. rewrite (wit_to_vec_ok _ _ S Sok), IH by auto. cbn [rbind]. f_equal.
  rewrite (wit_encode_stack _ _ S). rewrite <- wire_stack_eq. unfold stack_bytes. rewrite <- app_assoc.
  apply stack_of_layout in S as [-> _]. reflexivity.
Qed.
Lemma hash_preimage_full : forall tx, witnesses_ok tx -> hash_preimage tx (uses_segwit tx) = Ret (tx_encode tx).
Proof.
  intros tx F. unfold tx_encode. destruct (uses_segwit tx) eqn:Hs.
  - unfold hash_preimage. rewrite hash_witnesses_ok by exact F. cbn [rbind]. f_equal. f_equal. f_equal.
    unfold slice_encode. rewrite <- !app_assoc. f_equal. f_equal.
    apply flat_map_ext. intro i. unfold txin_encode, script_encode, outpoint_encode. now rewrite <- !app_assoc.
  - rewrite hash_preimage_legacy. f_equal. unfold wire_legacy. cbn [app].
    now rewrite <- (wire_list_eq _ _ _ (tx_inputs tx) wire_txin_eq), <- (wire_list_eq _ _ _ (tx_outputs tx) wire_txout_eq).
Qed.

(** *** injectivity of the wire forms *)
Lemma codec_pf : forall A E (D : decoder A E) enc (wf : A -> Prop), codec D enc wf -> forall a b r s, wf a -> wf b ->
  enc a ++ r = enc b ++ s -> a = b /\ r = s.
Proof.
  intros A E D enc wf (g & den & _ & _ & RT & _ & _) a b r s Ha Hb H.
  pose proof (RT a r Ha) as H1. rewrite H, (RT b s Hb) in H1. inv H1. auto.
Qed.
Lemma strip_same : forall a b, Forall2 (fun i j => ti_prevout i = ti_prevout j /\ ti_script i = ti_script j /\ ti_sequence i = ti_sequence j) a b
  <-> map strip a = map strip b.
Proof.
  induction a as [|x a IH]; intros [|y b]; cbn [map]; split; intro H; try discriminate; try (inv H; fail); auto.
  - inv H. destruct H3 as (E1 & E2 & E3). f_equal; [unfold strip, setw; now rewrite E1, E2, E3|now apply IH].
  - inv H. constructor; [auto|now apply IH].
Qed.
Lemma ins_pf : forall a b r s, list_ok txin_ok a -> list_ok txin_ok b ->
  slice_encode txin_encode a ++ r = slice_encode txin_encode b ++ s -> map strip a = map strip b /\ r = s.
Proof.
  intros a b r s [Ha Wa] [Hb Wb] H. rewrite <- (slice_strip a), <- (slice_strip b) in H.
  assert (K : forall l, lenN l <= MAX_LEN -> Forall txin_ok l -> is_vec wf_txin0 MAX_VEC_SIZE (map strip l)).
  { intros l Hl Wl. split; [unfold lenN in *; now rewrite map_length|]. apply wf_strip.
    eapply Forall_impl; [|exact Wl]. intros i Hi. now apply txin_ok_eq. }
  apply (codec_pf _ _ _ _ _ ins_codec); auto.
Qed.
Lemma outs_pf : forall a b r s, list_ok txout_ok a -> list_ok txout_ok b ->
  slice_encode txout_encode a ++ r = slice_encode txout_encode b ++ s -> a = b /\ r = s.
Proof. intros a b r s Ha Hb H. apply (codec_pf _ _ _ _ _ outs_codec); auto. Qed.
Lemma u32_pf : forall a b r s, is_u32 a -> is_u32 b -> le_bytes 4 a ++ r = le_bytes 4 b ++ s -> a = b /\ r = s.
Proof. intros a b r s Ha Hb H. apply (codec_pf _ _ _ _ _ u32_codec); auto. Qed.
Lemma wits_pf : forall a b r s, length a = length b -> Forall (fun i => witness_ok (ti_witness i)) a ->
  Forall (fun i => witness_ok (ti_witness i)) b ->
  flat_map (fun i => wit_encode (ti_witness i)) a ++ r = flat_map (fun i => wit_encode (ti_witness i)) b ++ s ->
  map ti_witness a = map ti_witness b /\ r = s.
Proof.
  induction a as [|x a IH]; intros [|y b] r s Hl Fa Fb H; try discriminate; [auto|]. inv Fa. inv Fb.
  cbn [flat_map] in H. rewrite <- !app_assoc in H.
  apply (codec_pf _ _ _ _ _ witness_codec) in H as [E H]; [|now apply witness_ok_eq|now apply witness_ok_eq].
  cbn in Hl. apply IH in H as [E' ->]; auto. cbn [map]. now rewrite E, E'.
Qed.

Lemma wire_legacy_inj : forall a b, tx_shape a -> tx_shape b -> wire_legacy a = wire_legacy b -> same_but_witness a b.
Proof.
  intros a b (A1 & A2 & A3 & A4) (B1 & B2 & B3 & B4) H. unfold wire_legacy in H.
  rewrite <- (wire_list_eq _ _ _ (tx_inputs a) wire_txin_eq), <- (wire_list_eq _ _ _ (tx_outputs a) wire_txout_eq),
    <- (wire_list_eq _ _ _ (tx_inputs b) wire_txin_eq), <- (wire_list_eq _ _ _ (tx_outputs b) wire_txout_eq) in H.
  apply u32_pf in H as [E1 H]; auto. apply ins_pf in H as [E2 H]; auto. apply outs_pf in H as [E3 H]; auto.
  rewrite <- (app_nil_r (le_bytes 4 (tx_lock_time a))), <- (app_nil_r (le_bytes 4 (tx_lock_time b))) in H.
  apply u32_pf in H as [E4 _]; auto. repeat split; auto. now apply strip_same.
Qed.
Lemma strip_wit_inj : forall a b, map strip a = map strip b -> map ti_witness a = map ti_witness b -> a = b.
Proof.
  induction a as [|x a IH]; intros [|y b] H1 H2; try discriminate; auto. cbn [map] in *. inv H1. inv H2. f_equal; auto.
  destruct x, y; cbn in *; congruence.
Qed.
Lemma empty_witness_layout : forall w, witness_ok w -> wit_is_empty w = true -> w = wit_new.
Proof. intros w (ls & S & _) H. rewrite (wit_empty_stack _ _ S) in H. destruct ls; [|discriminate]. apply stack_of_layout in S as [-> _]. reflexivity. Qed.

Lemma slice_head_nonzero : forall A (f : A -> bytes) x l r, exists b t, slice_encode f (x :: l) ++ r = b :: t /\ b <> 0.
Proof.
  intros A f x l r. unfold slice_encode. rewrite <- app_assoc. unfold cs_encode. rewrite lenN_cons.
  destruct (N.leb_spec (1 + lenN l) 252); [rewrite N.mod_small by lia; do 2 eexists; split; [reflexivity|lia]|].
  destr_if; [do 2 eexists; split; [reflexivity|lia]|]. destr_if; do 2 eexists; (split; [reflexivity|lia]).
Qed.
Lemma shape_witnesses : forall tx, tx_shape tx -> witnesses_ok tx.
Proof. intros tx (_ & _ & [_ H] & _). eapply Forall_impl; [|exact H]. now intros i (_ & _ & _ & ?). Qed.

Lemma tx_encode_inj : forall a b, tx_shape a -> tx_shape b -> tx_encode a = tx_encode b -> a = b.
Proof.
  intros a b Sa Sb H. pose proof (shape_witnesses _ Sa) as Wa. pose proof (shape_witnesses _ Sb) as Wb.
  destruct Sa as (A1 & A2 & A3 & A4), Sb as (B1 & B2 & B3 & B4). unfold tx_encode in H.
  apply u32_pf in H as [E1 H]; auto.
  assert (Fin : forall x y, le_bytes 4 x = le_bytes 4 y -> is_u32 x -> is_u32 y -> x = y).
  { intros x y Hxy Hx Hy. rewrite <- (app_nil_r (le_bytes 4 x)), <- (app_nil_r (le_bytes 4 y)) in Hxy. apply u32_pf in Hxy as [? _]; auto. }
  assert (Emp : forall t, witnesses_ok t -> uses_segwit t = false -> tx_inputs t <> [] /\ map ti_witness (tx_inputs t) = repeat wit_new (length (tx_inputs t))).
  { intros t W U. unfold uses_segwit in U. apply orb_false_iff in U as [U1 U2]. split; [intro K; rewrite K in U2; discriminate|].
    unfold witnesses_ok in W. clear U2. induction (tx_inputs t) as [|i l IH]; auto. inv W. cbn [existsb] in U1. apply orb_false_iff in U1 as [U1 U3].
    cbn [map length repeat]. rewrite IH by auto. f_equal. apply empty_witness_layout; auto. now apply negb_false_iff in U1. }
  destruct (uses_segwit a) eqn:Ua, (uses_segwit b) eqn:Ub.
  - injection H as H. apply ins_pf in H as [E2 H]; auto. apply outs_pf in H as [E3 H]; auto.
    assert (Hl : length (tx_inputs a) = length (tx_inputs b)) by (rewrite <- (map_length strip), E2; apply map_length).
    apply wits_pf in H as [E5 H]; auto. apply Fin in H; auto. pose proof (strip_wit_inj _ _ E2 E5) as E6.
    destruct a, b; cbn in *; congruence.
  - exfalso. destruct (Emp b Wb Ub) as [Hne _]. destruct (tx_inputs b) as [|i l]; [congruence|]. cbn [app] in H.
    destruct (slice_head_nonzero _ txin_encode i l (slice_encode txout_encode (tx_outputs b) ++ le_bytes 4 (tx_lock_time b))) as (x & t & K & Hx).
    rewrite K in H. inv H. congruence.
  - exfalso. destruct (Emp a Wa Ua) as [Hne _]. destruct (tx_inputs a) as [|i l]; [congruence|]. cbn [app] in H.
    destruct (slice_head_nonzero _ txin_encode i l (slice_encode txout_encode (tx_outputs a) ++ le_bytes 4 (tx_lock_time a))) as (x & t & K & Hx).
    rewrite K in H. inv H. congruence.
  - cbn [app] in H. apply ins_pf in H as [E2 H]; auto. apply outs_pf in H as [E3 H]; auto. apply Fin in H; auto.
    assert (Hl : length (tx_inputs a) = length (tx_inputs b)) by (rewrite <- (map_length strip), E2; apply map_length).
    destruct (Emp a Wa Ua) as [_ Ka]. destruct (Emp b Wb Ub) as [_ Kb]. rewrite <- Hl, <- Ka in Kb.
    pose proof (strip_wit_inj _ _ E2 (eq_sym Kb)) as E6. destruct a, b; cbn in *; congruence.
Qed.
