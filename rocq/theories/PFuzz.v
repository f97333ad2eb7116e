(** C36, C47: what two of the project's fuzz targets assert. *)
From Coq Require Import String.
From Verif Require Import Base MDec LDec MWitness SWitness MText LText MAmount MTx MTxSize SWire LTx2 LTxSize LTxEx PTx MP2p MBip32 LBip32b MBase58 SBase58 SBech32 MBech32 LBech32b MScript MTaproot MKey MPow MAddress SAddress LAmountText LWire LAddress LAddress2 PAddress.
Local Open Scope N_scope.

(** fuzz/fuzz_targets/bitcoin/parse_address.rs asserts that an address displays as the text it was parsed from.  That is so of
    every base58 text and of every segwit text in lower case; a segwit text in upper case displays in lower case, and
    displays as it was when the alternate form is asked for. *)
Theorem C47_canonical : forall sha256d s a, (forall m, SWire.hash_ok (sha256d m)) -> from_str sha256d s = Ret (Ok a) ->
  exists t, display sha256d false a = Ret t /\ from_str sha256d t = Ret (Ok a) /\
    (s = t \/ is_segwit a /\ s <> t /\ s = upper t /\ t = lower s /\ display sha256d true a = Ret s).
Proof.
  intros sha s a SHA H. apply (C47_parse sha s SHA) in H as [OK (t & T & X)].
  destruct (C47_display sha a SHA OK) as (t' & D & T' & U & _). rewrite (address_text_fun sha a t' t T' T) in *. exists t. split; [exact D|].
  split; [apply (C47_parse sha t SHA); split; [exact OK|]; exists t; auto|].
  destruct (list_eq_dec N.eq_dec s t) as [E|E]; [now left|right]. destruct X as [X|[G X]]; [contradiction|]. split; [exact G|]. split; [exact E|]. split; [exact X|].
  destruct a as [h k|h k|p k]; try contradiction. cbn [address_text] in T. split; [symmetry; apply (lower_text k _ _ t s T); now right|]. now rewrite U, X.
Qed.
Print Assumptions C47_canonical.
Theorem C47_canonical_refuted : forall sha256d, (forall m, SWire.hash_ok (sha256d m)) ->
  exists s t a, from_str sha256d s = Ret (Ok a) /\ display sha256d false a = Ret t /\ s <> t.
Proof.
  intros sha _. exists (lit "BC1QW508D6QEJXTDG4Y5R3ZARVARY0C5XW7KV8F3T4"), (lit "bc1qw508d6qejxtdg4y5r3zarvary0c5xw7kv8f3t4").
  eexists. split; [vm_compute; reflexivity|]. split; [vm_compute; reflexivity|]. vm_compute. discriminate.
Qed.
Print Assumptions C47_canonical_refuted.

(** fuzz/fuzz_targets/bitcoin/arbitrary_transaction.rs: the weight is three times the length after every witness has been
    replaced by the empty one, plus the length before; without inputs that target's correction holds, eight off on one side
    and two on the other. *)
Definition strip (tx : transaction) : transaction :=
  {| tx_version := tx_version tx; tx_lock_time := tx_lock_time tx;
     tx_inputs := map (fun i => {| ti_prevout := ti_prevout i; ti_script := ti_script i; ti_sequence := ti_sequence i; ti_witness := wit_new |}) (tx_inputs tx);
     tx_outputs := tx_outputs tx |}.
Lemma strip_encode : forall tx, tx_encode (strip tx) = match tx_inputs tx with [] => tx_encode tx | _ => wire_legacy tx end.
Proof.
  intros tx. assert (S : Forall2 stack_of (map ti_witness (tx_inputs (strip tx))) (map (fun _ => []) (tx_inputs tx))).
  { cbn [strip tx_inputs]. rewrite map_map. induction (tx_inputs tx); constructor; [reflexivity|assumption]. }
  destruct tx as [v lt ins outs]. cbn [tx_inputs] in *. destruct ins as [|i ins]; [reflexivity|].
  rewrite (wire_tx_eq _ _ S). unfold wire_tx. replace (forallb _ (map (fun _ => []) (i :: ins))) with true.
  2:{ symmetry. apply forallb_forall. intros x H. apply in_map_iff in H as (? & <- & _). reflexivity. }
  cbn [strip tx_inputs map negb andb]. unfold wire_legacy. cbn [strip tx_version tx_lock_time tx_inputs tx_outputs]. do 2 f_equal.
  unfold wire_list. rewrite map_map. f_equal. f_equal. unfold lenN. now rewrite map_length.
Qed.
Theorem C36_stripped : forall tx, tx_shape tx -> exists w, tx_weight tx = Ret w /\
  let len := lenN (tx_encode tx) in let no_witness_len := lenN (tx_encode (strip tx)) in
  match tx_inputs tx with
  | [] => no_witness_len * 3 + len - 8 = w - 2 /\ no_witness_len = len /\ 10 <= len
  | _ => no_witness_len * 3 + len = w
  end.
Proof.
  intros tx W. exists (3 * lenN (wire_legacy tx) + lenN (tx_encode tx)). split; [now apply C36_weight|]. cbv zeta. rewrite strip_encode.
  destruct (tx_inputs tx) eqn:E; [|lia].
  assert (S : Forall2 stack_of (map ti_witness (tx_inputs tx)) []) by (rewrite E; constructor).
  rewrite (wire_tx_eq tx [] S). unfold wire_tx, wire_segwit, wire_legacy. rewrite E. cbn [forallb negb andb map concat app].
  rewrite !lenN_app, !lenN_cons, !lenN_app. rewrite !LCompact.le_bytes_lenN.
  assert (P : lenN (wire_list wire_txin []) = 1) by reflexivity. rewrite P.
  assert (Q : 1 <= lenN (wire_list wire_txout (tx_outputs tx))).
  { unfold wire_list. rewrite lenN_app. unfold wire_compact. repeat match goal with |- context[if ?b then _ else _] => destruct b end; rewrite lenN_cons; lia. }
  lia.
Qed.
Print Assumptions C36_stripped.
Example C36_stripped_ex : tx_shape ex_tx /\ tx_shape ex_none /\ tx_inputs ex_none = [] /\
  lenN (tx_encode (strip ex_tx)) < lenN (tx_encode ex_tx).
Proof. split; [apply ex_tx_ok|]. split; [apply ex_none_ok|]. split; [reflexivity|]. vm_compute. reflexivity. Qed.
