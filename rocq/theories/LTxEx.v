(** Concrete transactions used to show that hypotheses can be met, and the examples behind the
    refuted statements. *)
From Verif Require Import Base MDec LDec LCompact MWitness SWitness LWitness LWitDec MTx MAmount SWire STx LWire LTxId MTxSize LTxSize.
Local Open Scope N_scope.

Definition ex_wit : witness := match from_slice [[1; 2]; []] with Ret w => w | Panic => wit_new end.
Definition ex_in1 : txin := {| ti_prevout := {| op_txid := repeat 7 32; op_vout := 1 |}; ti_script := [81];
  ti_sequence := 4294967295; ti_witness := ex_wit |}.
Definition ex_in2 : txin := {| ti_prevout := {| op_txid := repeat 8 32; op_vout := 0 |}; ti_script := [];
  ti_sequence := 0; ti_witness := wit_new |}.
Definition ex_out : txout := {| to_amount := 5000000000; to_script := [106; 1; 2] |}.
Definition ex_tx : transaction := {| tx_version := 2; tx_lock_time := 17; tx_inputs := [ex_in1; ex_in2]; tx_outputs := [ex_out; ex_out] |}.
(** the same input twice *)
Definition ex_dup : transaction := {| tx_version := 2; tx_lock_time := 17; tx_inputs := [ex_in1; ex_in2; ex_in1]; tx_outputs := [ex_out] |}.
(** no inputs *)
Definition ex_none : transaction := {| tx_version := 1; tx_lock_time := 0; tx_inputs := []; tx_outputs := [ex_out] |}.
(** no witness *)
Definition ex_plain : transaction := {| tx_version := 1; tx_lock_time := 0; tx_inputs := [ex_in2]; tx_outputs := [ex_out] |}.

Ltac conc := repeat match goal with
  | |- _ /\ _ => split
  | |- Forall _ (_ :: _) => constructor
  | |- Forall _ [] => constructor
  | |- bytes_ok _ => repeat (constructor; [reflexivity|]); constructor
  | |- _ => reflexivity
  end.
Lemma ex_in1_ok : txin_ok ex_in1.
Proof.
  split; [split; [split; [reflexivity|conc]|reflexivity]|]. split; [split; [discriminate|conc]|]. split; [reflexivity|].
  exists [[1; 2]; []]. split; [reflexivity|]. split; [discriminate|]. constructor; [split; [discriminate|conc]|].
  constructor; [split; [discriminate|conc]|]. constructor.
Qed.
Lemma ex_in2_ok : txin_ok ex_in2.
Proof.
  split; [split; [split; [reflexivity|conc]|reflexivity]|]. split; [split; [discriminate|conc]|]. split; [reflexivity|].
  exists []. split; [reflexivity|]. split; [discriminate|]. constructor.
Qed.
Lemma ex_out_ok : txout_ok ex_out.
Proof. split; [discriminate|]. split; [discriminate|conc]. Qed.
Lemma ex_tx_ok : tx_ok ex_tx.
Proof.
  split.
  - split; [reflexivity|]. split; [reflexivity|]. split; (split; [discriminate|]).
    + repeat constructor; try apply ex_in1_ok; try apply ex_in2_ok.
    + repeat constructor; apply ex_out_ok.
  - constructor; cbn [ex_tx tx_inputs tx_outputs].
    + discriminate.
    + intros _ [H|[H|[]]]; discriminate.
    + discriminate.
    + constructor; [intros [H|[]]; discriminate|]. constructor; [intros []|constructor].
    + discriminate.
Qed.
Lemma ex_dup_shape : tx_shape ex_dup /\ ~ tx_rules ex_dup.
Proof.
  split.
  - split; [reflexivity|]. split; [reflexivity|]. split; (split; [discriminate|]).
    + repeat constructor; try apply ex_in1_ok; try apply ex_in2_ok.
    + repeat constructor; apply ex_out_ok.
  - intros [_ _ _ H _]. cbn in H. inv H. apply H2. right. left. reflexivity.
Qed.
Lemma ex_none_ok : tx_ok ex_none.
Proof.
  split.
  - split; [reflexivity|]. split; [reflexivity|]. split; (split; [discriminate|]); repeat constructor; apply ex_out_ok.
  - constructor; cbn [ex_none tx_inputs tx_outputs].
    + discriminate.
    + cbn. lia.
    + discriminate.
    + constructor.
    + discriminate.
Qed.
Lemma ex_plain_ok : tx_ok ex_plain.
Proof.
  split.
  - split; [reflexivity|]. split; [reflexivity|]. split; (split; [discriminate|]); repeat constructor; (apply ex_in2_ok || apply ex_out_ok).
  - constructor; cbn [ex_plain tx_inputs tx_outputs].
    + discriminate.
    + cbn. lia.
    + intros i H. inv H. discriminate.
    + constructor; [intros []|constructor].
    + discriminate.
Qed.
Lemma ex_stacks : Forall2 stack_of (map ti_witness (tx_inputs ex_tx)) [[[1; 2]; []]; []].
Proof. repeat constructor. Qed.

(** a witness element beyond the limit of the accessors *)
Section Big.
Context (big : bytes) (big_len : lenN big = 4000001).
Definition big_wit : witness := layout [big].
Lemma big_fits : fits [big]. Proof. repeat constructor. unfold U32_MAX. discriminate. Qed.
Lemma big_stack : stack_of big_wit [big].
Proof. apply stack_of_layout. split; [reflexivity|apply big_fits]. Qed.
Lemma big_get : wit_get big_wit 0 = Ret None.
Proof.
  unfold big_wit. pose proof (get_spec [] big [] big_fits) as K. cbn [app] in K. change (lenN (@nil bytes)) with 0 in K. rewrite K.
  - rewrite big_len. reflexivity.
  - cbn [layout wt_content]. rewrite lenN_app, idxs_len, offs_len, flat_cons, lenN_app, elem_bytes_len, big_len. reflexivity.
Qed.
Lemma big_to_vec : wit_to_vec big_wit = Ret [].
Proof. unfold wit_to_vec. cbn [iter_loop]. now rewrite big_get. Qed.
Definition big_in : txin := {| ti_prevout := {| op_txid := repeat 7 32; op_vout := 1 |}; ti_script := [];
  ti_sequence := 0; ti_witness := big_wit |}.
Definition big_tx : transaction := {| tx_version := 2; tx_lock_time := 0; tx_inputs := [big_in]; tx_outputs := [ex_out] |}.
Lemma big_preimage : exists m, hash_preimage big_tx (uses_segwit big_tx) = Ret m /\ m <> tx_encode big_tx.
Proof.
  assert (Hu : uses_segwit big_tx = true) by reflexivity.
  unfold tx_encode. rewrite Hu. unfold hash_preimage. cbn [big_tx tx_inputs hash_witnesses big_in ti_witness]. rewrite big_to_vec. cbn [rbind].
  eexists. split; [reflexivity|]. intro H. apply (f_equal (@lenN N)) in H.
  cbn [flat_map] in H. change (ti_witness big_in) with big_wit in H.
  rewrite (wit_encode_stack _ _ big_stack), <- wire_stack_eq in H. unfold stack_bytes in H.
  rewrite flat_cons in H. change (flat []) with (@nil N) in H. rewrite !app_nil_r in H. rewrite !lenN_app, elem_bytes_len, big_len in H.
  change (wt_elements big_wit) with 1 in H.
  vm_compute in H. discriminate.
Qed.
Lemma big_size : exists n, wit_size big_wit = Ret n /\ n <> lenN (wit_encode big_wit).
Proof.
  unfold wit_size. rewrite big_to_vec. cbn [rbind]. eexists. split; [reflexivity|].
  rewrite (wit_encode_stack _ _ big_stack), <- wire_stack_eq. unfold stack_bytes. rewrite flat_cons, !lenN_app, elem_bytes_len, big_len.
  change (lenN (flat [])) with 0. vm_compute. discriminate.
Qed.
End Big.
Lemma big_exists : exists big : bytes, lenN big = 4000001.
Proof. exists (repeat 0 (N.to_nat 4000001)). apply repeat_lenN. Qed.
