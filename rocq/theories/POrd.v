(** C66: the comparison operators of transactions, blocks, serialized signatures and script trees. *)
From Coq Require Import Sorted Permutation.
From Verif Require Import Base MDec MWitness LWitness PWitness MTx LWire SWire MSig MTaproot LTaproot MOrd SOrd LOrd.
From Verif Require SSha2.
Local Open Scope N_scope.

Lemma ordering_of : forall A (cmp : A -> A -> comparison), total_order cmp -> ordering cmp eq.
Proof. intros A cmp O. split; [apply (to_eq _ O)|apply (to_opp _ O)|apply (to_trans _ O)|now intros x y z ->]. Qed.

(** ** Transactions and their parts: a total order whose Equal is ==, which is "all fields are the same". *)
Theorem C66_transaction : ordering tx_cmp (fun a b => tx_eqb a b = true) /\
  (forall a b, tx_eqb a b = true <-> a = b) /\ (forall a b, tx_partial_cmp a b = Some (tx_cmp a b)).
Proof.
  split; [|split; [exact tx_eqb_eq|reflexivity]]. destruct (ordering_of _ _ tx_order) as [A B C D]. split; auto.
  - intros x y. now rewrite tx_eqb_eq.
  - intros x y z E. apply tx_eqb_eq in E. auto.
Qed.
Theorem C66_parts : ordering txin_cmp (fun a b => txin_eqb a b = true) /\ ordering txout_cmp (fun a b => txout_eqb a b = true) /\
  ordering outpoint_cmp (fun a b => outpoint_eqb a b = true) /\ ordering witness_cmp (fun a b => witness_eqb a b = true).
Proof.
  assert (K : forall A (c : A -> A -> comparison) e, total_order c -> (forall x y, e x y = true <-> x = y) -> ordering c (fun a b => e a b = true)).
  { intros A c e O E. destruct (ordering_of _ _ O) as [O1 O2 O3 O4]. split; auto.
    - intros x y. now rewrite E.
    - intros x y z X. apply E in X. auto. }
  split; [|split; [|split]]; (apply K; [auto using txin_order, txout_order, outpoint_order, witness_order|auto using txin_eqb_eq, txout_eqb_eq, outpoint_eqb_eq, witness_eqb_eq]).
Qed.
(** Which of two transactions is first: version, lock time, inputs, outputs. *)
Definition bytes_less : bytes -> bytes -> Prop := dictionary N.lt.
Definition outpoint_less : outpoint -> outpoint -> Prop := field op_txid bytes_less (last op_vout N.lt).
Definition witness_less : witness -> witness -> Prop := field wt_content bytes_less (field wt_elements N.lt (last wt_start N.lt)).
Definition txin_less : txin -> txin -> Prop :=
  field ti_prevout outpoint_less (field ti_script bytes_less (field ti_sequence N.lt (last ti_witness witness_less))).
Definition txout_less : txout -> txout -> Prop := field to_amount N.lt (last to_script bytes_less).
Theorem C66_first : forall a b, tx_cmp a b = Lt <->
  field tx_version N.lt (field tx_lock_time N.lt (field tx_inputs (dictionary txin_less) (last tx_outputs (dictionary txout_less)))) a b.
Proof.
  assert (BL : forall x y, bytes_cmp x y = Lt <-> bytes_less x y) by (apply (lex_dictionary _ _ _ N_order); exact N.compare_lt_iff).
  assert (OL : forall x y, outpoint_cmp x y = Lt <-> outpoint_less x y).
  { intros x y. apply (field_lt _ _ op_txid bytes_cmp bytes_less (fun x y => N.compare (op_vout x) (op_vout y))); [exact bytes_order|exact BL|]. intros. apply N.compare_lt_iff. }
  assert (WL : forall x y, witness_cmp x y = Lt <-> witness_less x y).
  { intros x y. apply (field_lt _ _ wt_content bytes_cmp bytes_less (fun x y => then_cmp (N.compare (wt_elements x) (wt_elements y)) (N.compare (wt_start x) (wt_start y)))); [exact bytes_order|exact BL|].
    intros. apply (field_lt _ _ wt_elements N.compare N.lt (fun x y => N.compare (wt_start x) (wt_start y))); [exact N_order|exact N.compare_lt_iff|]. intros. apply N.compare_lt_iff. }
  assert (IL : forall x y, txin_cmp x y = Lt <-> txin_less x y).
  { intros x y. apply (field_lt _ _ ti_prevout outpoint_cmp outpoint_less (fun x y => then_cmp (bytes_cmp (ti_script x) (ti_script y)) (then_cmp (N.compare (ti_sequence x) (ti_sequence y)) (witness_cmp (ti_witness x) (ti_witness y))))); [exact outpoint_order|exact OL|].
    intros. apply (field_lt _ _ ti_script bytes_cmp bytes_less (fun x y => then_cmp (N.compare (ti_sequence x) (ti_sequence y)) (witness_cmp (ti_witness x) (ti_witness y)))); [exact bytes_order|exact BL|].
    intros. apply (field_lt _ _ ti_sequence N.compare N.lt (fun x y => witness_cmp (ti_witness x) (ti_witness y))); [exact N_order|exact N.compare_lt_iff|]. intros. apply WL. }
  assert (TL : forall x y, txout_cmp x y = Lt <-> txout_less x y).
  { intros x y. apply (field_lt _ _ to_amount N.compare N.lt (fun x y => bytes_cmp (to_script x) (to_script y))); [exact N_order|exact N.compare_lt_iff|]. intros. apply BL. }
  intros a b. unfold tx_cmp. rewrite !then_assoc.
  apply (field_lt _ _ tx_version N.compare N.lt (fun x y => then_cmp (N.compare (tx_lock_time x) (tx_lock_time y)) (then_cmp (lex_cmp txin_cmp (tx_inputs x) (tx_inputs y)) (lex_cmp txout_cmp (tx_outputs x) (tx_outputs y))))); [exact N_order|exact N.compare_lt_iff|].
  intros. apply (field_lt _ _ tx_lock_time N.compare N.lt (fun x y => then_cmp (lex_cmp txin_cmp (tx_inputs x) (tx_inputs y)) (lex_cmp txout_cmp (tx_outputs x) (tx_outputs y)))); [exact N_order|exact N.compare_lt_iff|].
  intros. apply (field_lt _ _ tx_inputs (lex_cmp txin_cmp) (dictionary txin_less) (fun x y => lex_cmp txout_cmp (tx_outputs x) (tx_outputs y))); [apply lex_order, txin_order|apply lex_dictionary; [exact txin_order|exact IL]|].
  intros. apply (lex_dictionary _ _ _ txout_order TL).
Qed.
(** Sorting transactions, inputs or outputs leaves no choice: the result depends only on what is sorted. *)
Theorem C66_sort : (forall l m, sorted tx_cmp l -> sorted tx_cmp m -> Permutation l m -> l = m) /\
  (forall l m, sorted txin_cmp l -> sorted txin_cmp m -> Permutation l m -> l = m) /\
  (forall l m, sorted txout_cmp l -> sorted txout_cmp m -> Permutation l m -> l = m).
Proof. split; [|split]; apply sorted_unique; auto using tx_order, txin_order, txout_order. Qed.

(** Two witnesses compare Equal exactly when they are the same stack of elements... *)
Theorem C66_witness : forall w w' ls ls', stack_of w ls -> stack_of w' ls' ->
  Forall (fun e => lenN e < 2 ^ 64) ls -> Forall (fun e => lenN e < 2 ^ 64) ls' -> (witness_cmp w w' = Eq <-> ls = ls').
Proof. intros w w' ls ls' H H' F F'. rewrite (to_eq _ witness_order). now apply C12_eq. Qed.
(** ... but a smaller stack is not always the smaller witness: the encoded lengths are compared too. *)
Theorem C66_witness_refuted : exists w w' ls ls', stack_of w ls /\ stack_of w' ls' /\
  dictionary bytes_less ls ls' /\ witness_cmp w w' = Gt.
Proof.
  exists (layout [[1; 0]]), (layout [[2]]), [[1; 0]], [[2]]. split; [|split; [|split]].
  - vm_compute. reflexivity.
  - vm_compute. reflexivity.
  - apply Here, Here. reflexivity.
  - vm_compute. reflexivity.
Qed.

(** ** Blocks: equality sees the header and the transactions, never the cached witness root. *)
Theorem C66_block : forall a b, block_eqb a b = true <-> cb_block a = cb_block b.
Proof.
  intros [[h t] r] [[h' t'] r']. unfold block_eqb. cbn [cb_block b_header b_txs]. rewrite Bool.andb_true_iff, header_eqb_eq, (list_eqb_eq _ _ tx_eqb_eq).
  split; [now intros [-> ->]|now intros [= -> ->]].
Qed.

(** ** Serialized signatures: only the bytes in use count, whatever lies behind them. *)
Theorem C66_signature : forall a b, ss_len a <= lenN (ss_data a) -> ss_len b <= lenN (ss_data b) ->
  let x := firstn (N.to_nat (ss_len a)) (ss_data a) in let y := firstn (N.to_nat (ss_len b)) (ss_data b) in
  (exists e c, ser_eqb a b = Ret e /\ ser_cmp a b = Ret c /\ (e = true <-> x = y) /\ (c = Eq <-> x = y) /\
     (c = Lt <-> dictionary N.lt x y) /\ (c = Gt <-> dictionary N.lt y x)) /\
  (forall z, exists e c, ser_eqb_slice a z = Ret e /\ ser_cmp_slice a z = Ret c /\ (e = true <-> x = z) /\ (c = Eq <-> x = z) /\
     (c = Lt <-> dictionary N.lt x z) /\ (c = Gt <-> dictionary N.lt z x)).
Proof.
  intros a b A B x y.
  assert (XA : ss_bytes a = Ret x). { unfold ss_bytes. now rewrite (proj2 (N.leb_le _ _) A). }
  assert (XB : ss_bytes b = Ret y). { unfold ss_bytes. now rewrite (proj2 (N.leb_le _ _) B). }
  assert (BL : forall x y, bytes_cmp x y = Lt <-> dictionary N.lt x y) by (apply (lex_dictionary _ _ _ N_order); exact N.compare_lt_iff).
  assert (BG : forall x y, bytes_cmp x y = Gt <-> dictionary N.lt y x).
  { intros p q. rewrite <- BL, (to_opp _ bytes_order p q). now destruct (bytes_cmp p q). }
  split; [exists (beqb x y), (bytes_cmp x y)|intro z; exists (beqb x z), (bytes_cmp x z)];
    unfold ser_eqb, ser_cmp, ser_eqb_slice, ser_cmp_slice; rewrite XA, ?XB; cbn [rbind];
    (split; [reflexivity|split; [reflexivity|split; [apply beqb_eq|split; [apply (to_eq _ bytes_order)|split; [apply BL|apply BG]]]]]).
Qed.

(** ** Script trees: the order is total, and values that compare Equal are equal and hash alike; == is an
    equivalence, and equal values feed the hasher the same bytes. *)
Theorem C66_node : ordering node_cmp eq /\ equality node_eqb /\
  (forall a b, node_cmp a b = Eq -> node_eqb a b = true) /\ (forall a b, node_eqb a b = true <-> node_hash_input a = node_hash_input b).
Proof.
  assert (K : forall a b, node_eqb a b = true <-> ni_hash a = ni_hash b) by (intros; apply beqb_eq).
  split; [apply ordering_of, node_order|]. split; [|split].
  - split.
    + intro x. now apply K.
    + intros x y. apply Bool.eq_true_iff_eq. rewrite !K. split; congruence.
    + intros x y z. rewrite !K. congruence.
  - intros a b E. apply (to_eq _ node_order) in E as ->. now apply K.
  - exact K.
Qed.
(** The other half of the contract fails for every script: the leaf and the hidden node of its hash are ==
    but do not compare Equal. *)
Theorem C66_node_refuted : forall H script ver,
  node_eqb (new_leaf H script ver) (new_hidden_node (from_script H script ver)) = true /\
  node_cmp (new_leaf H script ver) (new_hidden_node (from_script H script ver)) = Gt.
Proof.
  intros H s v. split; [now apply beqb_eq|]. unfold node_cmp. cbn [ni_hash new_leaf new_hidden_node ni_leaves lex_cmp].
  now rewrite (proj2 (to_eq _ hash_order _ _) eq_refl).
Qed.

(** ** Examples *)
Definition ex_out (n : N) : txout := {| to_amount := n; to_script := [81] |}.
Definition ex_tx (v l : N) (outs : list txout) : transaction := {| tx_version := v; tx_lock_time := l; tx_inputs := []; tx_outputs := outs |}.
Example C66_ex_first : tx_cmp (ex_tx 1 9 []) (ex_tx 2 3 []) = Lt /\ tx_cmp (ex_tx 2 9 []) (ex_tx 2 3 []) = Gt /\
  tx_cmp (ex_tx 2 3 [ex_out 5]) (ex_tx 2 3 [ex_out 5; ex_out 1]) = Lt /\ tx_cmp (ex_tx 2 3 [ex_out 7]) (ex_tx 2 3 [ex_out 5; ex_out 1]) = Gt.
Proof. repeat split. Qed.
Example C66_ex_sort : sorted tx_cmp [ex_tx 1 9 []; ex_tx 2 3 []; ex_tx 2 3 [ex_out 5]] /\ ~ sorted tx_cmp [ex_tx 2 3 []; ex_tx 1 9 []].
Proof.
  split.
  - repeat (constructor; try (vm_compute; discriminate)).
  - intro H. inversion H as [|? ? ? F]. inversion F as [|? ? G]. apply G. reflexivity.
Qed.
Example C66_ex_witness : stack_of (layout [[1; 0]; []]) [[1; 0]; []] /\ Forall (fun e => lenN e < 2 ^ 64) [[1; 0]; []].
Proof. split; [vm_compute; reflexivity|repeat constructor]. Qed.
Example C66_ex_signature : ser_eqb (mk_ser [1; 2; 3; 4] 2) (mk_ser [1; 2; 9; 9; 9] 2) = Ret true /\
  ser_cmp (mk_ser [1; 2; 3; 4] 2) (mk_ser [1; 2; 0; 0] 3) = Ret Lt.
Proof. split; reflexivity. Qed.
Example C66_ex_block : forall h, block_eqb (mk_cb {| b_header := h; b_txs := [ex_tx 1 2 []] |} None) (mk_cb {| b_header := h; b_txs := [ex_tx 1 2 []] |} (Some [1])) = true.
Proof. intro h. now apply C66_block. Qed.
Example C66_ex_node : node_cmp (new_leaf SSha2.SHA256 [81] TapScript) (new_hidden_node (from_script SSha2.SHA256 [81] TapScript)) <> Eq.
Proof. now rewrite (proj2 (C66_node_refuted _ _ _)). Qed.
Print Assumptions C66_transaction.
Print Assumptions C66_parts.
Print Assumptions C66_first.
Print Assumptions C66_sort.
Print Assumptions C66_witness.
Print Assumptions C66_witness_refuted.
Print Assumptions C66_block.
Print Assumptions C66_signature.
Print Assumptions C66_node.
Print Assumptions C66_node_refuted.
