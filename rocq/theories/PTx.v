(** Properties C06, C07, C08 and C36: transaction serialization, structural rules, ids and sizes.
    Wire format: SWire.v.  Errors and identity: STx.v.  Decoder model: MTx.v. *)
From Verif Require Import Base MDec MWitness MTx MAmount SWire STx LTx2 LBuilt LWire LTxId MTxSize LTxSize LPredict LTxEx.
Local Open Scope N_scope.

(** *** C06: serialization *)
(** What [encode] emits is the legacy format when all witnesses are empty and there is an input,
    and BIP144 otherwise. *)
Theorem C06_wire_format : forall tx ws, Forall2 stack_of (map ti_witness (tx_inputs tx)) ws ->
  tx_encode tx = wire_tx tx ws.
Proof. exact wire_tx_eq. Qed.

Theorem C06_round_trip : forall tx rest, tx_ok tx ->
  decode_from_slice_unbounded tx_dec (tx_encode tx ++ rest) = Ret (Ok tx, rest).
Proof.
  intros tx rest [Hs Hr]. pose proof (decode_shape tx rest Hs) as K.
  assert (Hc : tx_check tx = Ok tx).
  { apply tx_check_rules; auto. destruct Hs as (_ & _ & _ & [_ H]). eapply Forall_impl; [|exact H]. now intros o [? _]. }
  now rewrite Hc in K.
Qed.

Theorem C06_canonical : forall l tx rest, bytes_ok l ->
  decode_from_slice_unbounded tx_dec l = Ret (Ok tx, rest) -> l = tx_encode tx ++ rest /\ tx_ok tx.
Proof. intros l tx rest Hl. now apply (codec_prefix tx_codec_ok). Qed.

Theorem C06_slice : forall l tx, bytes_ok l ->
  (decode_from_slice tx_dec l = Ret (Ok tx) <-> l = tx_encode tx /\ tx_ok tx).
Proof. intros l tx Hl. now apply (codec_slice tx_codec_ok). Qed.

Theorem C06_injective : forall a b, tx_shape a -> tx_shape b -> tx_encode a = tx_encode b -> a = b.
Proof. exact tx_encode_inj. Qed.

Theorem C06_no_panic : forall l, bytes_ok l -> lenN l < 2 ^ 32 ->
  decode_from_slice_unbounded tx_dec l <> Panic /\ decode_from_slice tx_dec l <> Panic.
Proof. exact (codec_no_panic tx_codec_ok). Qed.

Example C06_witness : tx_ok ex_tx /\ tx_ok ex_none /\ tx_ok ex_plain /\
  Forall2 stack_of (map ti_witness (tx_inputs ex_tx)) [[[1; 2]; []]; []].
Proof. exact (conj ex_tx_ok (conj ex_none_ok (conj ex_plain_ok ex_stacks))). Qed.
Example C06_witness_bytes : decode_from_slice tx_dec (tx_encode ex_tx) = Ret (Ok ex_tx).
Proof. vm_compute. reflexivity. Qed.

(** *** C07: structural rules *)
Theorem C07_accepted : forall l tx rest, bytes_ok l ->
  decode_from_slice_unbounded tx_dec l = Ret (Ok tx, rest) -> tx_rules tx.
Proof. intros l tx rest Hl H. apply (codec_prefix tx_codec_ok) in H as [_ [_ H]]; auto. Qed.

(** The encoding of a transaction that breaks a rule is rejected, with an error that says which. *)
Theorem C07_rejected : forall tx rest, tx_shape tx -> ~ tx_rules tx ->
  exists e r, decode_from_slice_unbounded tx_dec (tx_encode tx ++ rest) = Ret (Err e, r) /\ violates tx e.
Proof.
  intros tx rest Hs Hr. pose proof (decode_shape tx rest Hs) as K. destruct (tx_check tx) as [tx'|e] eqn:Hc.
  - exfalso. apply Hr. pose proof (tx_check_ok _ _ Hc) as <-. apply tx_check_rules; auto.
    destruct Hs as (_ & _ & _ & [_ H]). eapply Forall_impl; [|exact H]. now intros o [? _].
  - destruct K as [r K]. exists e, r. split; [exact K|]. now apply tx_check_violates.
Qed.

(** The extended form with only empty witnesses is rejected. *)
Theorem C07_empty_witnesses : forall tx ws rest, tx_shape tx -> tx_inputs tx <> [] ->
  Forall2 stack_of (map ti_witness (tx_inputs tx)) ws -> Forall (fun s => s = []) ws ->
  exists r, decode_from_slice_unbounded tx_dec (wire_segwit tx ws ++ rest) = Ret (Err TeNoWitnesses, r).
Proof. exact decode_empty_witnesses. Qed.

(** After the marker only the flag 1 is accepted. *)
Theorem C07_flag : forall v b rest, is_u32 v -> b <> 1 ->
  exists r, decode_from_slice_unbounded tx_dec (le_bytes 4 v ++ 0 :: b :: rest) = Ret (Err (TeSegwitFlag b), r).
Proof. exact decode_bad_flag. Qed.

Example C07_witness : tx_shape ex_dup /\ ~ tx_rules ex_dup.
Proof. exact ex_dup_shape. Qed.
Example C07_witness_error : exists r, decode_from_slice_unbounded tx_dec (tx_encode ex_dup) =
  Ret (Err (TeDuplicate {| op_txid := repeat 7 32; op_vout := 1 |}), r).
Proof. eexists. vm_compute. reflexivity. Qed.
Example C07_witness_empty : tx_shape ex_plain /\ tx_inputs ex_plain <> [] /\
  Forall2 stack_of (map ti_witness (tx_inputs ex_plain)) [[]] /\ Forall (fun s : list bytes => s = []) [[]].
Proof. split; [apply ex_plain_ok|]. split; [discriminate|]. split; repeat constructor. Qed.

(** *** C08: ids *)
Theorem C08_txid : forall H tx, compute_txid H tx = Ret (H (wire_legacy tx)).
Proof. intros H tx. unfold compute_txid. now rewrite hash_preimage_legacy. Qed.

Theorem C08_wtxid : forall H tx ws, Forall2 stack_of (map ti_witness (tx_inputs tx)) ws -> Forall stack_ok ws ->
  compute_wtxid H tx = Ret (H (wire_tx tx ws)) /\ tx_encode tx = wire_tx tx ws.
Proof.
  intros H tx ws F2 Fo. split; [|now apply wire_tx_eq]. unfold compute_wtxid. rewrite hash_preimage_full.
  - cbn [rbind]. now rewrite (wire_tx_eq tx ws).
  - unfold witnesses_ok. clear H. remember (tx_inputs tx) as ins eqn:E. clear E. revert ws F2 Fo.
    induction ins as [|i ins IH]; intros ws F2 Fo; inv F2; constructor.
    + inv Fo. exists y. auto.
    + inv Fo. eapply IH; eauto.
Qed.

Theorem C08_txid_ignores_witness : forall H a b, same_but_witness a b -> compute_txid H a = compute_txid H b.
Proof.
  intros H a b (E1 & E2 & E3 & E4). rewrite !C08_txid. f_equal. f_equal. unfold wire_legacy. rewrite E1, E2, E3. f_equal. f_equal.
  unfold wire_list. f_equal; [|f_equal].
  - f_equal. unfold lenN. f_equal. induction E4; cbn; auto.
  - induction E4 as [|i j l l' (X & Y & Z)]; cbn [map]; auto. f_equal; auto. unfold wire_txin. now rewrite X, Y, Z.
Qed.

Theorem C08_ntxid_ignores_scripts : forall H a b, same_but_scripts a b -> compute_ntxid H a = compute_ntxid H b.
Proof.
  intros H a b (E1 & E2 & E3 & E4). unfold compute_ntxid. rewrite E1, E2, E3. do 2 f_equal.
  induction E4 as [|i j l l' (X & Y)]; cbn [map]; auto. f_equal; auto. now rewrite X, Y.
Qed.

(** Equal txids: the transactions differ only in witnesses, or these two messages collide. *)
Theorem C08_txid_binds : forall H a b, tx_shape a -> tx_shape b -> compute_txid H a = compute_txid H b ->
  same_but_witness a b \/ (wire_legacy a <> wire_legacy b /\ H (wire_legacy a) = H (wire_legacy b)).
Proof.
  intros H a b Ha Hb E. rewrite !C08_txid in E. injection E as E.
  destruct (list_eq_dec N.eq_dec (wire_legacy a) (wire_legacy b)) as [K|K]; [|now right]. left. now apply wire_legacy_inj.
Qed.

Theorem C08_wtxid_binds : forall H a b, tx_shape a -> tx_shape b -> compute_wtxid H a = compute_wtxid H b ->
  a = b \/ (tx_encode a <> tx_encode b /\ H (tx_encode a) = H (tx_encode b)).
Proof.
  intros H a b Ha Hb E. unfold compute_wtxid in E. rewrite !hash_preimage_full in E by now apply shape_witnesses.
  cbn [rbind] in E. injection E as E.
  destruct (list_eq_dec N.eq_dec (tx_encode a) (tx_encode b)) as [K|K]; [|now right]. left. now apply tx_encode_inj.
Qed.

Theorem C08_no_witness : forall H tx, no_witness tx -> tx_inputs tx <> [] -> compute_wtxid H tx = compute_txid H tx.
Proof.
  intros H tx Hw Hne. unfold compute_wtxid, compute_txid. replace (uses_segwit tx) with false; [reflexivity|].
  unfold uses_segwit, no_witness in *. symmetry. apply orb_false_iff. split; [|destruct (tx_inputs tx); congruence].
  clear Hne. induction (tx_inputs tx) as [|i l IH]; auto. inv Hw. cbn [existsb]. rewrite (wit_empty_stack _ _ H2), IH by auto. reflexivity.
Qed.

(** Without inputs the two ids hash different messages although there is no witness. *)
Theorem C08_no_inputs_refuted : exists tx m m', tx_ok tx /\ no_witness tx /\ m <> m' /\
  (forall H, compute_txid H tx = Ret (H m)) /\ (forall H, compute_wtxid H tx = Ret (H m')).
Proof.
  exists ex_none, (wire_legacy ex_none), (tx_encode ex_none). split; [apply ex_none_ok|]. split; [constructor|].
  split; [vm_compute; discriminate|]. split; intro H; [apply C08_txid|]. unfold compute_wtxid. rewrite hash_preimage_full; [reflexivity|constructor].
Qed.

(** With a witness element above 4,000,000 bytes (which [Witness] accepts) the message hashed for
    the wtxid is not the encoding. *)
Theorem C08_big_element_refuted : exists tx ws m, Forall2 stack_of (map ti_witness (tx_inputs tx)) ws /\
  (forall H, compute_wtxid H tx = Ret (H m)) /\ m <> tx_encode tx.
Proof.
  destruct big_exists as [big Hb]. destruct (big_preimage big Hb) as (m & Hm & Hne).
  exists (big_tx big), [[big]], m. split; [|split; auto].
  - constructor; [|constructor]. apply big_stack.
  - intro H. unfold compute_wtxid. now rewrite Hm.
Qed.

Example C08_witness : tx_shape ex_tx /\ witnesses_ok ex_tx /\ same_but_witness ex_tx ex_tx /\
  no_witness ex_plain /\ tx_inputs ex_plain <> [].
Proof.
  split; [apply ex_tx_ok|]. split; [apply shape_witnesses, ex_tx_ok|]. split; [repeat constructor|]. split; [repeat constructor|discriminate].
Qed.
(** same txid, different wtxid message *)
Example C08_witness_differs :
  let bare := {| tx_version := 2; tx_lock_time := 17; tx_outputs := [ex_out; ex_out];
    tx_inputs := [{| ti_prevout := ti_prevout ex_in1; ti_script := [81]; ti_sequence := 4294967295; ti_witness := wit_new |}; ex_in2] |} in
  same_but_witness ex_tx bare /\ tx_encode ex_tx <> tx_encode bare.
Proof. split; [repeat constructor|vm_compute; discriminate]. Qed.

(** *** C36: sizes *)
Theorem C36_base_size : forall tx, tx_shape tx -> tx_base_size tx = Ret (lenN (wire_legacy tx)).
Proof. exact base_size_ok. Qed.
Theorem C36_total_size : forall tx, tx_shape tx -> tx_total_size tx = Ret (lenN (tx_encode tx)).
Proof. exact total_size_ok. Qed.
Theorem C36_weight : forall tx, tx_shape tx ->
  tx_weight tx = Ret (3 * lenN (wire_legacy tx) + lenN (tx_encode tx)).
Proof. exact weight_ok. Qed.
(** the least number of virtual bytes with at least that weight *)
Theorem C36_vsize : forall tx, tx_shape tx -> exists w v, tx_weight tx = Ret w /\ tx_vsize tx = Ret v /\
  w <= 4 * v /\ 4 * v < w + 4.
Proof.
  intros tx W. eexists. eexists. split; [apply weight_ok; auto|]. split; [apply vsize_ok; auto|].
  generalize (3 * lenN (wire_legacy tx) + lenN (tx_encode tx)). intro w. lia.
Qed.
Theorem C36_txin : forall i ls, txin_ok i -> stack_of (ti_witness i) ls ->
  let b := lenN (wire_txin i) in let w := lenN (wire_stack ls) in
  txin_base_size i = Ret b /\ txin_total_size i = Ret (b + w) /\
  txin_legacy_weight i = Ret (4 * b) /\ txin_segwit_weight i = Ret (4 * b + w).
Proof.
  intros i ls Hi S b w. assert (Hb : b = txin_len i).
  { unfold b. rewrite <- wire_txin_eq. apply txin_encode_len. now destruct Hi as [[[? _] _] _]. }
  assert (Hw : lenN (wit_encode (ti_witness i)) = w) by (unfold w; now rewrite (wit_encode_stack _ _ S)).
  assert (Wok : witness_ok (ti_witness i)) by apply Hi.
  assert (B : txin_len i <= 4000049).
  { destruct Hi as (_ & [H _] & _). unfold txin_len, MAX_LEN in *. pose proof (esize_bound (lenN (ti_script i))). lia. }
  pose proof (wit_len_bound _ Wok) as B'. rewrite Hw in B'.
  assert (H0 : txin_base_size i = Ret b) by (unfold txin_base_size; fold (txin_len i); rewrite Hb; apply usz_ok; unfold USIZE; lia).
  split; [exact H0|]. unfold txin_total_size, txin_legacy_weight, txin_segwit_weight. rewrite H0, (wit_size_ok _ Wok), Hw. cbn [rbind].
  rewrite usz_ok by (unfold USIZE; lia). split; [reflexivity|]. rewrite usz_ok by (unfold USIZE; lia). cbn [rbind].
  rewrite usz_ok by (unfold USIZE; lia). split; f_equal; lia.
Qed.
Theorem C36_txout : forall o, txout_ok o ->
  txout_size o = Ret (lenN (wire_txout o)) /\ txout_weight o = Ret (4 * lenN (wire_txout o)).
Proof.
  intros o [_ [H _]]. rewrite <- wire_txout_eq, txout_encode_len. unfold txout_weight, txout_size. fold (txout_len o).
  assert (B : txout_len o <= 4000017) by (unfold txout_len, MAX_LEN in *; pose proof (esize_bound (lenN (to_script o))); lia).
  rewrite usz_ok by (unfold USIZE; lia). split; [reflexivity|]. cbn [rbind]. rewrite usz_ok by (unfold USIZE; lia). f_equal. lia.
Qed.

(** Predicting the weight from the lengths of scripts and witness elements gives the weight, when
    there is an input and the weight of each input fits 32 bits. *)
Theorem C36_predict_weight : forall tx ws, tx_shape tx -> Forall2 stack_of (map ti_witness (tx_inputs tx)) ws ->
  tx_inputs tx <> [] ->
  Forall2 (fun i s => 4 * lenN (wire_bytes (ti_script i)) + lenN (wire_stack s) < 2 ^ 32) (tx_inputs tx) ws ->
  exists ps, rmap (fun '(i, s) => iwp_new (lenN (ti_script i)) (map lenN s)) (combine (tx_inputs tx) ws) = Ret ps /\
    map (fun '(i, s) => iwp_from_slice (lenN (ti_script i)) (map lenN s)) (combine (tx_inputs tx) ws) = ps /\
    predict_weight ps (map (fun o => lenN (to_script o)) (tx_outputs tx)) = tx_weight tx /\
    predict_weight_from_slices ps (map (fun o => lenN (to_script o)) (tx_outputs tx)) = tx_weight tx.
Proof.
  intros tx ws W F2 Hne R.
  assert (Room : Forall2 (fun i s => 4 * script_room (ti_script i) + stack_room_ s <= U32_MAX) (tx_inputs tx) ws).
  { clear - R. induction R as [|i s l l' H]; constructor; auto. rewrite <- wire_bytes_eq, <- wire_stack_eq in H.
    fold (script_room (ti_script i)) in H. change (2 ^ 32) with 4294967296 in H. unfold U32_MAX. destruct s; cbn [stack_room_]; lia. }
  exists (predictions tx ws). pose proof (predictions_new tx ws Room) as K. split; [|split; [|split]].
  - clear - K. induction K as [|[i s] p l l' [H _]]; [reflexivity|]. cbn [rmap]. now rewrite H, IHK.
  - clear - K. induction K as [|[i s] p l l' [_ H]]; [reflexivity|]. cbn [map]. now rewrite H, IHK.
  - now apply predict_ok.
  - rewrite predict_slices_eq. now apply predict_ok.
Qed.
(** On any predictions the two functions agree, overflow panics included. *)
Theorem C36_predict_agree : forall ps lens, predict_weight_from_slices ps lens = predict_weight ps lens.
Proof. exact predict_slices_eq. Qed.
(** Without inputs the prediction misses the marker and flag bytes. *)
Theorem C36_predict_no_inputs_refuted : exists tx, tx_ok tx /\
  predict_weight [] (map (fun o => lenN (to_script o)) (tx_outputs tx)) <> tx_weight tx.
Proof. exists ex_none. split; [apply ex_none_ok|]. vm_compute. discriminate. Qed.
(** The two constructors of a prediction differ on huge lengths: one panics, the other saturates,
    and using the saturated prediction panics. *)
Theorem C36_prediction_overflow_refuted : exists len, iwp_new len [] = Panic /\
  exists p, iwp_from_slice len [] = p /\ iwp_total_weight p = Panic.
Proof. exists 4294967295. split; [reflexivity|]. eexists. split; reflexivity. Qed.

Example C36_witness : tx_shape ex_tx /\ Forall2 stack_of (map ti_witness (tx_inputs ex_tx)) [[[1; 2]; []]; []] /\
  tx_inputs ex_tx <> [] /\
  Forall2 (fun i s => 4 * lenN (wire_bytes (ti_script i)) + lenN (wire_stack s) < 2 ^ 32) (tx_inputs ex_tx) [[[1; 2]; []]; []].
Proof. split; [apply ex_tx_ok|]. split; [apply ex_stacks|]. split; [discriminate|]. repeat constructor. Qed.
Example C36_witness_values : tx_weight ex_tx = Ret 476 /\ tx_vsize ex_tx = Ret 119 /\ lenN (tx_encode ex_tx) = 125.
Proof. vm_compute. auto. Qed.

Print Assumptions C06_round_trip.
Print Assumptions C06_canonical.
Print Assumptions C06_slice.
Print Assumptions C06_injective.
Print Assumptions C07_rejected.
Print Assumptions C07_empty_witnesses.
Print Assumptions C08_wtxid_binds.
Print Assumptions C08_txid_binds.
Print Assumptions C08_big_element_refuted.
Print Assumptions C36_vsize.
Print Assumptions C36_predict_weight.
Print Assumptions C06_wire_format.
Print Assumptions C06_no_panic.
Print Assumptions C07_accepted.
Print Assumptions C07_flag.
Print Assumptions C08_txid.
Print Assumptions C08_wtxid.
Print Assumptions C08_txid_ignores_witness.
Print Assumptions C08_ntxid_ignores_scripts.
Print Assumptions C08_no_witness.
Print Assumptions C08_no_inputs_refuted.
Print Assumptions C36_base_size.
Print Assumptions C36_total_size.
Print Assumptions C36_weight.
Print Assumptions C36_txin.
Print Assumptions C36_txout.
Print Assumptions C36_predict_agree.
Print Assumptions C36_predict_no_inputs_refuted.
Print Assumptions C36_prediction_overflow_refuted.
