(** Weight prediction. *)
From Verif Require Import Base MDec LDec LCompact MWitness SWitness LWitness LWitDec MTx MAmount LCodec LTx2 SWire STx LWire LTxId MTxSize LTxSize.
Local Open Scope N_scope.

Lemma usz_cases : forall v, (usz v = Ret v /\ v < USIZE) \/ (usz v = Panic /\ USIZE <= v).
Proof. intro v. unfold usz. destruct (N.ltb_spec v USIZE); auto. Qed.

(** the two ways of predicting agree, overflow included *)
Lemma pws_inputs_eq : forall ins iw iww, iw < USIZE ->
  pws_inputs ins iw iww =
  rbind (rmap iwp_total_weight ins) (fun ws => rbind (usz (iw + sumN ws)) (fun w =>
  Ret (w, iww + lenN (filter (fun p => 0 <? iwp_witness p) ins)))).
Proof.
  induction ins as [|p ins IH]; intros iw iww Hw.
  - cbn [pws_inputs rmap rbind sumN filter]. rewrite N.add_0_r, usz_ok by auto. cbn [rbind]. rewrite lenN_nil, N.add_0_r. reflexivity.
  - cbn [pws_inputs rmap rbind sumN filter]. destruct (iwp_total_weight p) as [w|]; [|reflexivity]. cbn [rbind].
    destruct (usz_cases (iw + w)) as [[-> Hu]|[-> Hu]]; cbn [rbind].
    + rewrite IH by auto. destruct (rmap iwp_total_weight ins) as [ws|]; [|reflexivity]. cbn [rbind sumN].
      rewrite <- N.add_assoc. destruct (usz (iw + (w + sumN ws))); [|reflexivity]. cbn [rbind]. f_equal. f_equal.
      destruct (0 <? iwp_witness p); rewrite ?lenN_cons; lia.
    + destruct (rmap iwp_total_weight ins) as [ws|]; [|reflexivity]. cbn [rbind sumN].
      destruct (usz_cases (iw + (w + sumN ws))) as [[_ K]|[-> _]]; [lia|reflexivity].
Qed.
Lemma pws_outputs_eq : forall lens o, o < USIZE ->
  pws_outputs lens o = usz (o + sumN (map (fun l => l + cs_encoded_size l) lens)).
Proof.
  induction lens as [|l lens IH]; intros o Ho; cbn [pws_outputs map sumN].
  - now rewrite N.add_0_r, usz_ok.
  - destruct (usz_cases (o + (l + cs_encoded_size l))) as [[-> Hu]|[-> Hu]]; cbn [rbind].
    + rewrite IH by auto. f_equal. lia.
    + destruct (usz_cases (o + (l + cs_encoded_size l + sumN (map (fun l0 => l0 + cs_encoded_size l0) lens)))) as [[_ K]|[-> _]]; [lia|reflexivity].
Qed.
Lemma predict_slices_eq : forall ins lens, predict_weight_from_slices ins lens = predict_weight ins lens.
Proof.
  intros. unfold predict_weight_from_slices, predict_weight. rewrite pws_inputs_eq, pws_outputs_eq by (unfold USIZE; lia).
  destruct (rmap iwp_total_weight ins); [|reflexivity]. cbn [rbind]. rewrite !N.add_0_l.
  destruct (usz (sumN a)); [|reflexivity]. cbn [rbind]. reflexivity.
Qed.

(** what the prediction stands for *)
Definition script_room (s : bytes) : N := lenN (script_encode s).
Definition stack_room_ (ls : list bytes) : N := match ls with [] => 0 | _ => lenN (stack_bytes ls) end.

Lemma iwp_size_eq : forall v, iwp_encoded_size v = cs_encoded_size v.
Proof. reflexivity. Qed.
Lemma iwp_total_ok : forall ls t, t + lenN (flat ls) <= U32_MAX -> iwp_total (map lenN ls) t = t + lenN (flat ls).
Proof.
  induction ls as [|e ls IH]; intros t H; cbn [map iwp_total].
  - change (lenN (flat [])) with 0. lia.
  - rewrite flat_cons, lenN_app, elem_bytes_len in *. unfold saturate_to_u32, u32_sat_add. rewrite iwp_size_eq.
    replace (U32_MAX <? lenN e) with false by lia. rewrite IH; lia.
Qed.
Lemma iwp_new_ok : forall s ls, script_room s <= U32_MAX -> stack_room_ ls <= U32_MAX ->
  iwp_new (lenN s) (map lenN ls) = Ret {| iwp_script := script_room s; iwp_witness := stack_room_ ls |} /\
  iwp_from_slice (lenN s) (map lenN ls) = {| iwp_script := script_room s; iwp_witness := stack_room_ ls |}.
Proof.
  intros s ls Hs Hw. assert (Es : script_room s = lenN s + cs_encoded_size (lenN s)).
  { unfold script_room, script_encode. rewrite lenN_app, cs_encode_len. lia. }
  assert (Sat : saturate_to_u32 (lenN s) = lenN s) by (unfold saturate_to_u32; destruct (N.ltb_spec U32_MAX (lenN s)); lia).
  unfold iwp_new, iwp_from_slice, u32c, u32_sat_add. change iwp_encoded_size with cs_encoded_size. rewrite Sat, <- Es.
  replace (script_room s <=? U32_MAX) with true by lia. replace (N.min (script_room s) U32_MAX) with (script_room s) by lia.
  destruct ls as [|e ls]; [split; reflexivity|].
  assert (Ew : stack_room_ (e :: ls) = lenN (flat (e :: ls)) + cs_encoded_size (lenN (e :: ls))).
  { unfold stack_room_, stack_bytes. rewrite lenN_app, cs_encode_len. lia. }
  assert (Hl : lenN (map (@lenN N) (e :: ls)) = lenN (e :: ls)) by (unfold lenN; now rewrite map_length).
  rewrite Hl. rewrite iwp_total_ok by lia. rewrite N.add_0_l, <- Ew.
  replace (0 <? lenN (e :: ls)) with true by (rewrite lenN_cons; lia).
  replace (stack_room_ (e :: ls) <=? U32_MAX) with true by lia. cbn [rbind]. split; [reflexivity|].
  cbn [map]. f_equal. lia.
Qed.

Lemma Forall2_len : forall A B (R : A -> B -> Prop) l l', Forall2 R l l' -> length l = length l'.
Proof. induction 1; cbn; auto. Qed.

Section Predict.
Context (tx : transaction) (ws : list (list bytes)) (W : tx_shape tx)
  (F2 : Forall2 stack_of (map ti_witness (tx_inputs tx)) ws) (Hne : tx_inputs tx <> [])
  (Room : Forall2 (fun i s => 4 * script_room (ti_script i) + stack_room_ s <= U32_MAX) (tx_inputs tx) ws).
Definition predictions : list iwp :=
  map (fun '(i, s) => {| iwp_script := script_room (ti_script i); iwp_witness := stack_room_ s |}) (combine (tx_inputs tx) ws).

Lemma stack_bytes_pos : forall ls, 0 < lenN (stack_bytes ls).
Proof. intro ls. unfold stack_bytes. rewrite lenN_app, cs_encode_len. unfold cs_encoded_size. destr_if; [lia|]. destr_if; [lia|]. destr_if; lia. Qed.
Lemma predict_len : lenN predictions = lenN (tx_inputs tx).
Proof using Room.
  unfold predictions, lenN. rewrite map_length, combine_length. rewrite (Forall2_len _ _ _ _ _ Room). f_equal. lia.
Qed.
Lemma predict_counts :
  let e := lenN predictions - lenN (filter (fun p => 0 <? iwp_witness p) predictions) in
  lenN (filter (fun p => 0 <? iwp_witness p) predictions) <= lenN predictions /\
  (lenN (filter (fun p => 0 <? iwp_witness p) predictions) =? 0) = negb (uses_segwit tx) /\
  sumN (map iwp_witness predictions) + e = wits_bytes tx.
Proof using F2 Room Hne.
  assert (Hu : uses_segwit tx = existsb (fun i => negb (wit_is_empty (ti_witness i))) (tx_inputs tx)).
  { unfold uses_segwit. destruct (tx_inputs tx); [congruence|]. apply orb_false_r. }
  rewrite Hu. clear Hu.
  unfold predictions, wits_bytes. revert ws F2 Room. clear Hne W. induction (tx_inputs tx) as [|i ins IH]; intros ws' F R.
  - cbn. repeat split; lia.
  - inv F. inv R. specialize (IH _ H3 H6). cbn [combine map filter existsb sumN] in *. cbn zeta in *. rewrite lenN_cons.
    rewrite (wit_empty_stack _ _ H1), (wit_encode_stack _ _ H1), <- wire_stack_eq. cbn [iwp_witness].
    destruct IH as (I1 & I2 & I3). destruct y as [|e ls].
    + cbn [stack_room_]. change (0 <? 0) with false. cbn [negb orb]. change (lenN (stack_bytes [])) with 1. rewrite I2. repeat split; lia.
    + replace (0 <? stack_room_ (e :: ls)) with true by (cbn [stack_room_]; pose proof (stack_bytes_pos (e :: ls)); lia).
      rewrite lenN_cons. cbn [negb orb stack_room_]. repeat split; lia.
Qed.
Lemma predict_totals : rmap iwp_total_weight predictions = Ret (map (fun p => 160 + 4 * iwp_script p + iwp_witness p) predictions).
Proof using Room.
  apply rmap_ok. unfold predictions. clear F2 Hne W. induction Room as [|x y l l' H R IH]; cbn [combine map]; constructor; auto.
  unfold iwp_total_weight, iwp_witness_weight. cbn [iwp_script iwp_witness].
  replace (script_room (ti_script x) * 4 + stack_room_ y) with (4 * script_room (ti_script x) + stack_room_ y) by lia.
  unfold u32c. destruct (N.leb_spec (4 * script_room (ti_script x) + stack_room_ y) U32_MAX); [|lia]. cbn [rbind].
  rewrite usz_ok by (unfold USIZE, U32_MAX in *; lia). f_equal. lia.
Qed.
Lemma predict_scripts : sumN (map (fun p => 160 + 4 * iwp_script p + iwp_witness p) predictions) =
  4 * ins_bytes tx + sumN (map iwp_witness predictions).
Proof using Room.
  unfold predictions, ins_bytes. clear F2 Hne W. induction Room as [|x y l l' H R IH]; cbn [combine map sumN]; [reflexivity|].
  rewrite IH by exact R. cbn [iwp_script iwp_witness]. unfold txin_len, script_room, script_encode. rewrite lenN_app, cs_encode_len. lia.
Qed.
Lemma out_lens : sumN (map (fun l => l + cs_encoded_size l) (map (fun o => lenN (to_script o)) (tx_outputs tx))) + 8 * lenN (tx_outputs tx) = outs_bytes tx.
Proof.
  unfold outs_bytes. induction (tx_outputs tx) as [|o l IH]; [reflexivity|]. cbn [map sumN]. rewrite lenN_cons. unfold txout_len at 1. lia.
Qed.
Lemma predict_ok : predict_weight predictions (map (fun o => lenN (to_script o)) (tx_outputs tx)) = tx_weight tx.
Proof using W F2 Hne Room.
  rewrite weight_ok by exact W. rewrite (encode_len tx W).
  unfold predict_weight. rewrite predict_totals. cbn [rbind]. rewrite predict_scripts.
  destruct predict_counts as (C1 & C2 & C3). pose proof out_lens as Ho.
  pose proof (legacy_bound tx W) as B1. pose proof (wits_bytes_bound tx W) as B2. rewrite (legacy_len tx W) in *.
  rewrite usz_ok by (unfold USIZE; lia). cbn [rbind].
  rewrite usz_ok by (unfold USIZE; lia). cbn [rbind].
  unfold predict_weight_internal. rewrite C2, predict_len in *. cbv zeta.
  assert (Hl : lenN (map (fun o => lenN (to_script o)) (tx_outputs tx)) = lenN (tx_outputs tx)) by (unfold lenN; now rewrite map_length).
  assert (Hi : lenN (tx_inputs tx) <= 4000000) by apply W.
  rewrite Hl. set (k := lenN (filter _ _)) in *. destruct (uses_segwit tx); cbn [negb].
  - rewrite usz_ok by (unfold USIZE; lia). cbn [rbind].
    match goal with |- (if ?a <? k then _ else _) = _ => destruct (N.ltb_spec a k); [lia|] end.
    rewrite usz_ok by (unfold USIZE; lia). f_equal. lia.
  - assert (k = 0) by lia. rewrite usz_ok by (unfold USIZE; lia). f_equal. 
    assert (wits_bytes tx = lenN (tx_inputs tx) + sumN (map iwp_witness predictions)) by lia.
    assert (Z : sumN (map iwp_witness predictions) = 0).
    { assert (Fk : filter (fun p => 0 <? iwp_witness p) predictions = []) by (destruct (filter (fun p => 0 <? iwp_witness p) predictions); [auto|unfold k in *; rewrite lenN_cons in *; lia]).
      clear - Fk. induction predictions as [|p l IH]; auto. cbn [filter map sumN] in *. destruct (N.ltb_spec 0 (iwp_witness p)); [discriminate|].
      rewrite IH by auto. lia. }
    lia.
Qed.
Lemma predictions_new : Forall2 (fun '(i, s) p => iwp_new (lenN (ti_script i)) (map lenN s) = Ret p /\
    iwp_from_slice (lenN (ti_script i)) (map lenN s) = p) (combine (tx_inputs tx) ws) predictions.
Proof using Room.
  unfold predictions. clear F2 Hne W. induction Room as [|x y l l' H R IH]; cbn [combine map]; constructor; auto.
  apply iwp_new_ok; lia.
Qed.
End Predict.
