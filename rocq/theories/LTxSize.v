(** Sizes and weights. *)
From Verif Require Import Base MDec LDec LCompact MWitness SWitness LWitness LWitDec MTx MAmount LCodec LTx2 SWire STx LWire LTxId MTxSize.
Local Open Scope N_scope.

Lemma usz_ok : forall v, v < USIZE -> usz v = Ret v.
Proof. intros v H. unfold usz. destruct (N.ltb_spec v USIZE); [auto|lia]. Qed.
Lemma rmap_ok : forall A B (f : A -> rust B) (g : A -> B) l, Forall (fun x => f x = Ret (g x)) l -> rmap f l = Ret (map g l).
Proof. induction l as [|x l IH]; intro F; [reflexivity|]. inv F. cbn [rmap map]. rewrite H1, IH by auto. reflexivity. Qed.
Lemma sum_flat_map : forall A (f : A -> bytes) l, sumN (map (fun x => lenN (f x)) l) = lenN (flat_map f l).
Proof. induction l as [|x l IH]; [reflexivity|]. cbn [map sumN flat_map]. now rewrite lenN_app, IH. Qed.
Lemma sum_bound : forall A (f : A -> N) l b, Forall (fun x => f x <= b) l -> sumN (map f l) <= lenN l * b.
Proof. induction l as [|x l IH]; intros b F; [cbn; lia|]. inv F. cbn [map sumN]. rewrite lenN_cons. specialize (IH b H2). lia. Qed.
Lemma sum_add : forall A (f g : A -> N) l, sumN (map (fun x => f x + g x) l) = sumN (map f l) + sumN (map g l).
Proof. induction l as [|x l IH]; [reflexivity|]. cbn [map sumN]. lia. Qed.
Lemma le_len : forall n v, lenN (le_bytes n v) = N.of_nat n.
Proof. intros. unfold lenN. now rewrite le_bytes_length. Qed.
Lemma esize_bound : forall v, cs_encoded_size v <= 9.
Proof. intro v. unfold cs_encoded_size. destr_if; [lia|]. destr_if; [lia|]. destr_if; lia. Qed.

Definition txin_len (i : txin) : N := 36 + cs_encoded_size (lenN (ti_script i)) + lenN (ti_script i) + 4.
Definition txout_len (o : txout) : N := 8 + cs_encoded_size (lenN (to_script o)) + lenN (to_script o).
Lemma txin_encode_len : forall i, lenN (op_txid (ti_prevout i)) = 32 -> lenN (txin_encode i) = txin_len i.
Proof.
  intros i H. unfold txin_encode, outpoint_encode, script_encode, txin_len. rewrite !lenN_app, !le_len, cs_encode_len, H. lia.
Qed.
Lemma txout_encode_len : forall o, lenN (txout_encode o) = txout_len o.
Proof. intros o. unfold txout_encode, script_encode, txout_len. rewrite !lenN_app, !le_len, cs_encode_len. lia. Qed.
Lemma slice_len : forall A (f : A -> bytes) l, lenN (slice_encode f l) = cs_encoded_size (lenN l) + lenN (flat_map f l).
Proof. intros. unfold slice_encode. now rewrite lenN_app, cs_encode_len. Qed.
Lemma ins_len : forall l, Forall txin_ok l -> lenN (flat_map txin_encode l) = sumN (map txin_len l).
Proof.
  intros l F. rewrite <- sum_flat_map. f_equal. apply map_ext_in. intros i Hi. rewrite Forall_forall in F. apply txin_encode_len.
  now destruct (F i Hi) as [[[? _] _] _].
Qed.
Lemma outs_len : forall l, lenN (flat_map txout_encode l) = sumN (map txout_len l).
Proof. intros l. rewrite <- sum_flat_map. f_equal. apply map_ext. apply txout_encode_len. Qed.

Lemma wit_size_ok : forall w, witness_ok w -> wit_size w = Ret (lenN (wit_encode w)).
Proof.
  intros w (ls & S & Sok). unfold wit_size. rewrite (wit_to_vec_ok _ _ S Sok). cbn [rbind]. f_equal.
  rewrite content_size_flat, (wit_encode_stack _ _ S), <- wire_stack_eq. unfold stack_bytes. rewrite lenN_app, cs_encode_len.
  apply stack_of_layout in S as [-> _]. reflexivity.
Qed.
Lemma wit_len_bound : forall w, witness_ok w -> lenN (wit_encode w) <= 4298967309.
Proof.
  intros w (ls & S & Hn & Sok). rewrite (wit_encode_stack _ _ S), <- wire_stack_eq. unfold stack_bytes. rewrite lenN_app, cs_encode_len.
  apply stack_of_layout in S as [_ F]. assert (S' : small ls) by (eapply Forall_impl; [|exact Sok]; now intros e [? _]).
  pose proof (stack_flat_bound ls F S'). pose proof (esize_bound (lenN ls)). unfold U32_MAX in *. lia.
Qed.

Section Shape.
Context (tx : transaction) (W : tx_shape tx).
Let Wi : list_ok txin_ok (tx_inputs tx). Proof. apply W. Qed.
Let Wo : list_ok txout_ok (tx_outputs tx). Proof. apply W. Qed.
Definition ins_bytes := sumN (map txin_len (tx_inputs tx)).
Definition outs_bytes := sumN (map txout_len (tx_outputs tx)).
Definition wits_bytes := sumN (map (fun i => lenN (wit_encode (ti_witness i))) (tx_inputs tx)).

Lemma txin_len_bound : Forall (fun i => txin_len i <= 4000049) (tx_inputs tx).
Proof using W.
  destruct Wi as [_ F]. eapply Forall_impl; [|exact F]. intros i (_ & [H _] & _). unfold txin_len, MAX_LEN in *.
  pose proof (esize_bound (lenN (ti_script i))). lia.
Qed.
Lemma txout_len_bound : Forall (fun o => txout_len o <= 4000017) (tx_outputs tx).
Proof using W.
  destruct Wo as [_ F]. eapply Forall_impl; [|exact F]. intros i [_ [H _]]. unfold txout_len, MAX_LEN in *.
  pose proof (esize_bound (lenN (to_script i))). lia.
Qed.
Lemma ins_bytes_bound : ins_bytes <= 16000196000000.
Proof using W. unfold ins_bytes. pose proof (sum_bound _ _ _ _ txin_len_bound). destruct Wi as [H' _]. unfold MAX_LEN in H'. nia. Qed.
Lemma outs_bytes_bound : outs_bytes <= 16000196000000.
Proof using W. unfold outs_bytes. pose proof (sum_bound _ _ _ _ txout_len_bound). destruct Wo as [H' _]. unfold MAX_LEN in H'. nia. Qed.
Lemma wits_bytes_bound : wits_bytes <= 17195869236000000.
Proof using W.
  unfold wits_bytes. assert (F : Forall (fun i => lenN (wit_encode (ti_witness i)) <= 4298967309) (tx_inputs tx)).
  { eapply Forall_impl; [|apply (shape_witnesses _ W)]. intros i Hi. now apply wit_len_bound. }
  pose proof (sum_bound _ _ _ _ F). destruct Wi as [H' _]. unfold MAX_LEN in H'. nia.
Qed.

Lemma rmap_base : rmap txin_base_size (tx_inputs tx) = Ret (map txin_len (tx_inputs tx)).
Proof using W.
  apply rmap_ok. eapply Forall_impl; [|apply txin_len_bound]. intros i Hi. cbn beta in Hi. apply usz_ok. fold (txin_len i). unfold USIZE. lia.
Qed.
Lemma rmap_outs : rmap txout_size (tx_outputs tx) = Ret (map txout_len (tx_outputs tx)).
Proof using W.
  apply rmap_ok. eapply Forall_impl; [|apply txout_len_bound]. intros i Hi. cbn beta in Hi. apply usz_ok. fold (txout_len i). unfold USIZE. lia.
Qed.
Lemma rmap_total : rmap txin_total_size (tx_inputs tx) = Ret (map (fun i => txin_len i + lenN (wit_encode (ti_witness i))) (tx_inputs tx)).
Proof using W.
  apply rmap_ok. pose proof txin_len_bound as B. pose proof (shape_witnesses _ W) as Ww. unfold witnesses_ok in Ww.
  rewrite Forall_forall in *. intros i Hi. specialize (B i Hi). cbn beta in B. unfold txin_total_size, txin_base_size. fold (txin_len i).
  rewrite usz_ok by (unfold USIZE; lia). cbn [rbind]. rewrite wit_size_ok by auto. cbn [rbind].
  apply usz_ok. pose proof (wit_len_bound _ (Ww i Hi)). unfold USIZE. lia.
Qed.
Lemma legacy_len : lenN (wire_legacy tx) =
  4 + cs_encoded_size (lenN (tx_inputs tx)) + ins_bytes + cs_encoded_size (lenN (tx_outputs tx)) + outs_bytes + 4.
Proof using W.
  unfold wire_legacy. rewrite <- (wire_list_eq _ _ _ (tx_inputs tx) wire_txin_eq), <- (wire_list_eq _ _ _ (tx_outputs tx) wire_txout_eq).
  rewrite !lenN_app, !le_len, !slice_len, outs_len, ins_len by apply Wi. fold ins_bytes outs_bytes. lia.
Qed.
Lemma encode_len : lenN (tx_encode tx) =
  lenN (wire_legacy tx) + (if uses_segwit tx then 2 + wits_bytes else 0).
Proof using W.
  rewrite legacy_len. unfold tx_encode.
  rewrite !lenN_app, !le_len, !slice_len, outs_len, ins_len by apply Wi. fold ins_bytes outs_bytes.
  destruct (uses_segwit tx).
  - rewrite <- sum_flat_map. fold wits_bytes. change (lenN [0; 1]) with 2. lia.
  - rewrite !lenN_nil. lia.
Qed.
Lemma legacy_bound : lenN (wire_legacy tx) <= 32000392000030.
Proof using W.
  rewrite legacy_len. pose proof ins_bytes_bound. pose proof outs_bytes_bound.
  pose proof (esize_bound (lenN (tx_inputs tx))). pose proof (esize_bound (lenN (tx_outputs tx))). lia.
Qed.
Lemma encode_bound : lenN (tx_encode tx) <= 17227869628000032.
Proof using W.
  rewrite encode_len. pose proof legacy_bound. pose proof wits_bytes_bound. destruct (uses_segwit tx); lia.
Qed.

Lemma base_size_ok : tx_base_size tx = Ret (lenN (wire_legacy tx)).
Proof using W.
  unfold tx_base_size. rewrite rmap_base, rmap_outs. cbn [rbind]. fold ins_bytes outs_bytes. rewrite <- legacy_len.
  apply usz_ok. pose proof legacy_bound. unfold USIZE. lia.
Qed.
Lemma total_size_ok : tx_total_size tx = Ret (lenN (tx_encode tx)).
Proof using W.
  unfold tx_total_size. cbv zeta. pose proof encode_bound as B. rewrite encode_len, legacy_len in *. destruct (uses_segwit tx).
  - change (fun i => txin_total_size i) with txin_total_size. rewrite rmap_total, rmap_outs. cbn [rbind]. rewrite sum_add. fold ins_bytes outs_bytes. rewrite usz_ok; [f_equal; unfold wits_bytes; lia|].
    unfold USIZE, wits_bytes in *. lia.
  - change (fun i => txin_base_size i) with txin_base_size. rewrite rmap_base, rmap_outs. cbn [rbind]. fold ins_bytes outs_bytes. rewrite usz_ok; [f_equal; lia|]. unfold USIZE. lia.
Qed.
Lemma weight_ok : tx_weight tx = Ret (3 * lenN (wire_legacy tx) + lenN (tx_encode tx)).
Proof using W.
  unfold tx_weight. rewrite base_size_ok, total_size_ok. cbn [rbind]. pose proof legacy_bound. pose proof encode_bound.
  rewrite usz_ok by (unfold USIZE; lia). f_equal. lia.
Qed.
Lemma vsize_ok : tx_vsize tx = Ret ((3 * lenN (wire_legacy tx) + lenN (tx_encode tx) + 3) / 4).
Proof using W.
  unfold tx_vsize. rewrite weight_ok. cbn [rbind]. f_equal. generalize (3 * lenN (wire_legacy tx) + lenN (tx_encode tx)). intro w.
  unfold weight_to_vb_ceil, u64_div_ceil, WITNESS_SCALE_FACTOR. cbv zeta. destr_if; lia.
Qed.
End Shape.
