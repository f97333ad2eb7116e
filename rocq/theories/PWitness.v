(** Properties C12 and C45: witnesses, and taproot spends read from them.
    Model: MWitness.v, MWitness2.v.  Specification: SWire.v ([stack_of w ls]: [w] is what
    [Witness::from_slice(ls)] gives; [wire_stack]), SWitness2.v. *)
From Verif Require Import Base MDec LCompact MWitness SWitness LWitness LWitDec LCodec LBuilt SWire LWire LTxId LTxEx MTxSize LTxSize MWitness2 SWitness2 LWitness2.
Local Open Scope N_scope.

(** *** C12 *)
(** Any history leaves the witness that the same history on a list gives. *)
Theorem C12_history : forall ops w, wit_ops wit_new ops = Ret w -> stack_of w (list_ops [] ops).
Proof. intros ops w H. eapply ops_stack; [|exact H]. reflexivity. Qed.

(** It does not panic while the serialized elements stay within 4 GiB. *)
Theorem C12_history_total : forall ops, (forall k, elements_size (list_ops [] (firstn k ops)) <= 2 ^ 32) ->
  exists w, wit_ops wit_new ops = Ret w.
Proof. intros ops H. eapply ops_total; [|exact H]. reflexivity. Qed.

(** Reading, for elements of at most 4,000,000 bytes. *)
Theorem C12_observe : forall w ls, stack_of w ls -> short_elements ls ->
  wit_len w = lenN ls /\
  wit_is_empty w = (match ls with [] => true | _ => false end) /\
  wit_to_vec w = Ret ls /\
  (forall i, i < 2 ^ 61 -> wit_get w i = Ret (nth_error ls (N.to_nat i))) /\
  (forall i, i < 2 ^ 61 -> wit_index w i = match nth_error ls (N.to_nat i) with Some e => Ret e | None => Panic end) /\
  (forall i, wit_get_back w i = Ret (nth_error (rev ls) (N.to_nat i))) /\
  wit_last w = Ret (hd_error (rev ls)) /\
  (forall k, k <= lenN ls -> iter_size_hint w k = Ret (lenN ls - k)) /\
  wit_size w = Ret (lenN (wire_stack ls)).
Proof.
  intros w ls St Sh. pose proof (wit_empty_stack _ _ St) as He. apply stack_of_layout in St as [-> F]. assert (Sm : small ls) by exact Sh.
  destruct (room ls F Sm) as (R1 & R2 & R3).
  split; [reflexivity|]. split; [exact He|]. split; [now apply to_vec_list|]. split; [intros; now apply get_nth|].
  split; [intros i Hi; unfold wit_index; rewrite get_nth by auto; reflexivity|].
  split; [intros; now apply get_back_nth|]. split; [unfold wit_last; rewrite get_back_nth by auto; reflexivity|]. split.
  - intros k Hk. unfold iter_size_hint. cbn [layout wt_content wt_start]. rewrite lenN_app, idxs_len, offs_len.
    replace (lenN (flat ls) + 4 * lenN ls <? lenN (flat ls)) with false by lia.
    replace (lenN (flat ls) + 4 * lenN ls - lenN (flat ls)) with (lenN ls * 4) by lia. rewrite N.div_mul by lia.
    now replace (lenN ls <? k) with false by lia.
  - unfold wit_size. rewrite to_vec_list by auto. cbn [rbind]. rewrite <- wire_stack_eq. unfold stack_bytes. rewrite lenN_app, cs_encode_len, content_size_flat. reflexivity.
Qed.

(** Equality with a list, and between witnesses. *)
Theorem C12_eq_list : forall w ls rhs, stack_of w ls -> short_elements ls ->
  exists b, wit_eq_slice w rhs = Ret b /\ (b = true <-> ls = rhs).
Proof.
  intros w ls rhs St Sh. apply stack_of_layout in St as [-> F]. unfold wit_eq_slice. change (wt_elements (layout ls)) with (lenN ls).
  destruct (N.eqb_spec (lenN ls) (lenN rhs)) as [H|H]; cbn [negb].
  - rewrite to_vec_list by auto. cbn [rbind]. eexists. split; [reflexivity|]. apply zip_all_spec. unfold lenN in H. lia.
  - exists false. split; auto. split; [discriminate|]. intros ->. now destruct H.
Qed.
Theorem C12_eq : forall w w' ls ls', stack_of w ls -> stack_of w' ls' ->
  Forall (fun e => lenN e < 2 ^ 64) ls -> Forall (fun e => lenN e < 2 ^ 64) ls' -> (w = w' <-> ls = ls').
Proof.
  intros w w' ls ls' H H' F F'. split.
  - intros <-. apply stack_of_layout in H as [-> _]. apply stack_of_layout in H' as [H' _]. now apply layout_inj.
  - intros <-. unfold stack_of in *. congruence.
Qed.

Theorem C12_encode : forall w ls, stack_of w ls -> wit_encode w = wire_stack ls.
Proof. exact wit_encode_stack. Qed.
Theorem C12_decode : forall l w rest, bytes_ok l ->
  (decode_from_slice_unbounded witness_dec l = Ret (Ok w, rest) <-> l = wit_encode w ++ rest /\ witness_ok w).
Proof. intros l w rest Hl. rewrite <- witness_ok_eq. now apply (codec_prefix witness_codec). Qed.
Theorem C12_decode_no_panic : forall l, bytes_ok l -> lenN l < 2 ^ 32 ->
  decode_from_slice_unbounded witness_dec l <> Panic /\ decode_from_slice witness_dec l <> Panic.
Proof. exact (codec_no_panic witness_codec). Qed.
(** What a decoded witness keeps is at most five times what was read. *)
Theorem C12_memory : forall l w rest, bytes_ok l -> decode_from_slice_unbounded witness_dec l = Ret (Ok w, rest) ->
  lenN (wt_content w) <= 5 * (lenN l - lenN rest).
Proof. exact decoded_memory. Qed.

(** The bounds cannot be dropped. *)
Theorem C12_big_element_refuted : exists big w, stack_of w [big] /\
  wit_get w 0 = Ret None /\ wit_to_vec w = Ret [] /\ (forall x, wit_eq_slice w [x] = Ret true) /\
  exists n, wit_size w = Ret n /\ n <> lenN (wit_encode w).
Proof.
  destruct big_exists as [big H]. exists big, (big_wit big). split; [now apply big_stack|]. split; [now apply big_get|]. split; [now apply big_to_vec|].
  split; [intro x; now apply big_eq|now apply big_size].
Qed.
Theorem C12_huge_index_refuted : exists w ls, stack_of w ls /\ short_elements ls /\ wit_get w (2 ^ 62) = Panic.
Proof. exists (layout [[7]]), [[7]]. split; [reflexivity|]. split; [repeat constructor; discriminate|exact get_wrap]. Qed.
Theorem C12_decode_panic_refuted : exists l, decode_from_slice witness_dec l = Panic.
Proof. exists (wire_stack (repeat (repeat 0 (N.to_nat 4000000)) 1074 ++ [repeat 0 (N.to_nat 4000000)])). apply decode_boom. apply repeat_lenN. Qed.

Example C12_witness : wit_ops wit_new [OpPush [9]; OpExtend [[1; 2]; []]; OpClear; OpFrom [[3]; [4; 5]]; OpPush []] =
    from_slice [[3]; [4; 5]; []] /\
  (forall k, elements_size (list_ops [] (firstn k [OpPush [9]; OpPush [1; 2]])) <= 2 ^ 32) /\ short_elements [[3]; [4; 5]; []].
Proof.
  split; [reflexivity|]. split; [|repeat constructor; discriminate]. intro k. do 3 (destruct k as [|k]; [vm_compute; discriminate|]). vm_compute. discriminate.
Qed.
Example C12_witness_decode : exists w, decode_from_slice_unbounded witness_dec [2; 1; 7; 0; 99] = Ret (Ok w, [99]) /\ stack_of w [[7]; []].
Proof. eexists. split; vm_compute; reflexivity. Qed.

(** *** C45: taproot spends, for any control block decoder. *)
Theorem C45_annex : forall C (dcb : bytes -> option C) w ls, stack_of w ls -> short_elements ls ->
  taproot_annex dcb w = Ret (match bip341_script ls with
                             | Some (_, cbb) => match dcb cbb with Some _ => bip341_annex ls | None => None end
                             | None => bip341_annex ls
                             end).
Proof.
  intros C dcb w ls St Sh. unfold taproot_annex. rewrite (from_witness_spec dcb w ls St Sh). cbn [rbind]. f_equal. unfold bip341_spend.
  destruct ls; [reflexivity|]. destruct (bip341_script _) as [[s cbb]|]; [|reflexivity]. now destruct (dcb cbb).
Qed.
Theorem C45_leaf_script : forall C (dcb : bytes -> option C) w ls, stack_of w ls -> short_elements ls ->
  taproot_leaf_script dcb w = Ret (match bip341_script ls with
                                   | Some (s, cbb) => match dcb cbb with Some cb => Some (s, cb) | None => None end
                                   | None => None
                                   end).
Proof.
  intros C dcb w ls St Sh. unfold taproot_leaf_script. rewrite (from_witness_spec dcb w ls St Sh). cbn [rbind]. f_equal. unfold bip341_spend.
  destruct ls; [reflexivity|]. destruct (bip341_script _) as [[s cbb]|]; [|reflexivity]. now destruct (dcb cbb).
Qed.
Theorem C45_control_block : forall C (dcb : bytes -> option C) w ls, stack_of w ls -> short_elements ls ->
  taproot_control_block dcb w = Ret (match bip341_script ls with Some (_, cbb) => dcb cbb | None => None end).
Proof.
  intros C dcb w ls St Sh. unfold taproot_control_block. rewrite (from_witness_spec dcb w ls St Sh). cbn [rbind]. f_equal. unfold bip341_spend.
  destruct ls; [reflexivity|]. destruct (bip341_script _) as [[s cbb]|]; [|reflexivity]. now destruct (dcb cbb).
Qed.
Theorem C45_big_element_refuted : forall C (dcb : bytes -> option C),
  exists w ls, stack_of w ls /\ taproot_annex dcb w = Panic /\ taproot_leaf_script dcb w = Panic.
Proof.
  intros C dcb. destruct big_exists as [big H]. destruct (big_spend C dcb big [] H) as (w & St & K); [cbn; lia|].
  exists w, [[]; big]. split; auto. unfold taproot_annex, taproot_leaf_script. rewrite K. auto.
Qed.
Example C45_witness : let ls := [[1]; [172]; [192; 5]; [80; 1]] in
  bip341_annex ls = Some [80; 1] /\ bip341_script ls = Some ([172], [192; 5]) /\ exists w, stack_of w ls /\ short_elements ls.
Proof. cbn zeta. do 2 (split; [reflexivity|]). eexists. split; [vm_compute; reflexivity|]. repeat constructor; discriminate. Qed.
Example C45_witness_key : bip341_annex [[9]; [80]] = Some [80] /\ bip341_script [[9]; [80]] = None /\ bip341_annex [[80]] = None.
Proof. repeat split. Qed.

Print Assumptions C12_history.
Print Assumptions C12_observe.
Print Assumptions C12_decode.
Print Assumptions C45_annex.
Print Assumptions C12_history_total.
Print Assumptions C12_eq_list.
Print Assumptions C12_eq.
Print Assumptions C12_encode.
Print Assumptions C12_decode_no_panic.
Print Assumptions C12_memory.
Print Assumptions C12_big_element_refuted.
Print Assumptions C12_huge_index_refuted.
Print Assumptions C12_decode_panic_refuted.
Print Assumptions C45_leaf_script.
Print Assumptions C45_control_block.
Print Assumptions C45_big_element_refuted.

(** The witness script of a P2WSH spend is the last element. *)
Theorem C45_witness_script : forall w ls, stack_of w ls -> short_elements ls ->
  wit_witness_script w = Ret (match rev ls with [] => None | e :: _ => Some e end).
Proof. intros w ls St Sh. unfold wit_witness_script. destruct (C12_observe w ls St Sh) as (_ & _ & _ & _ & _ & _ & -> & _). now destruct (rev ls). Qed.
Print Assumptions C45_witness_script.
