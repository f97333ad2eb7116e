(** C54: sizes and weight of blocks, the height in the coinbase, version bits. *)
From Verif Require Import Base MDec MWitness MTx MTxSize MMerkle MScript SWire SScript LTxEx LScriptNum MBlockExt SBlockExt LBlockExt PMerkle.
Local Open Scope N_scope.

(** Reading the height from a block of version 2 or more answers what the script of its first input says; the
    answer of the specification is unique.  Blocks of versions below 2 (as signed numbers) have none. *)
Theorem C54_height_read : forall b tx txs i ins, b_txs b = tx :: txs -> tx_inputs tx = i :: ins -> bytes_ok (ti_script i) ->
  ((signed (h_version (b_header b)) < 2)%Z -> bip34_block_height b = Ret (Err B34Unsupported)) /\
  ((2 <= signed (h_version (b_header b)))%Z -> exists r, bip34_block_height b = Ret r /\ script_height (ti_script i) r).
Proof.
  intros b tx txs i ins E1 E2 B. rewrite (bip34_eq b tx txs i ins E1 E2). split; intro K.
  - destruct (Z.ltb_spec (signed (h_version (b_header b))) 2); [reflexivity|lia].
  - destruct (Z.ltb_spec (signed (h_version (b_header b))) 2); [lia|]. destruct (height_of_ok _ B) as (r & R1 & R2). eauto.
Qed.
Theorem C54_height_fun : forall s r r', script_height s r -> script_height s r' -> r = r'.
Proof. exact script_fun. Qed.
(** A height is found exactly when the script starts with the encoding of that height by Bitcoin Core. *)
Theorem C54_height : forall b tx txs i ins h, b_txs b = tx :: txs -> tx_inputs tx = i :: ins -> bytes_ok (ti_script i) ->
  (bip34_block_height b = Ret (Ok h) <->
   (2 <= signed (h_version (b_header b)))%Z /\ h < 2 ^ 31 /\ exists e rest, ti_script i = e ++ rest /\ height_script h e).
Proof.
  intros b tx txs i ins h E1 E2 B. rewrite (bip34_eq b tx txs i ins E1 E2).
  destruct (Z.ltb_spec (signed (h_version (b_header b))) 2).
  - split; [discriminate|lia].
  - rewrite height_of_iff by auto. tauto.
Qed.
(** Every height below 2^31 has one encoding, and [push_int] writes it. *)
Theorem C54_height_push : forall h, h < 2 ^ 31 -> exists e, sb_push_int [] (Z.of_N h) = Ret (Ok e) /\ height_script h e /\
  forall e', height_script h e' -> e' = e.
Proof.
  intros h H. assert (U : forall e e', height_script h e -> height_script h e' -> e' = e).
  { intros e e' [(-> & ->)|[(R & ->)|(R & d & B & M & V & ->)]] [(Z0 & ->)|[(R' & ->)|(R' & d' & B' & M' & V' & ->)]]; try reflexivity; try lia.
    assert (d' = d) as -> by (apply num_minimal_inj; auto; congruence). reflexivity. }
  enough (exists e, sb_push_int [] (Z.of_N h) = Ret (Ok e) /\ height_script h e) as (e & A & B) by (exists e; eauto).
  unfold sb_push_int, sb_push_int_unchecked, I32_MIN. destruct (Z.eqb_spec (Z.of_N h) (-2147483648)); [lia|].
  destruct (Z.eqb_spec (Z.of_N h) (-1)); [lia|]. destruct (Z.eqb_spec (Z.of_N h) 0).
  { eexists. split; [reflexivity|]. left. split; [lia|reflexivity]. }
  destruct ((1 <=? Z.of_N h) && (Z.of_N h <=? 16))%Z eqn:E; cbn [rbind].
  { apply andb_true_iff in E. destruct E as [E1 E2]. apply Z.leb_le in E1, E2. eexists. split; [reflexivity|]. right. left. split; [lia|].
    unfold sb_push_opcode. cbn [app]. f_equal. rewrite N2Z.id. change (OP_1 - 1) with 80. lia. }
  apply andb_false_iff in E. rewrite !Z.leb_gt in E. assert (K : (Z.of_N h < 2147483648)%Z) by (change (2 ^ 31) with 2147483648 in H; lia).
  destruct (scriptint_bytes_ok (Z.of_N h)) as (d & D1 & D2 & D3 & D4 & D5); [split; [lia|]; eapply Z.lt_trans; [exact K|reflexivity]|].
  unfold sb_push_int_non_minimal. rewrite D1. cbn [rbind]. eexists. split; [reflexivity|]. right. right. split; [lia|]. exists d.
  split; [exact D2|]. split; [exact D4|]. split; [exact D3|]. unfold sb_push_slice_no_opt. cbn [app].
  change OP_PUSHDATA1 with 76. destruct (N.ltb_spec (lenN d) 76); [|lia]. unfold as_u8. rewrite N.mod_small by lia. reflexivity.
Qed.
(** A block that passed validation has a coinbase with an input, so these functions do not panic on it. *)
Theorem C54_checked : forall H h txs b wr, new_checked H h txs = Ret (Ok (b, wr)) ->
  b = {| b_header := h; b_txs := txs |} /\ exists tx rest i ins, b_txs b = tx :: rest /\ tx_inputs tx = i :: ins /\ block_coinbase b = Ret tx /\
  (bytes_ok (ti_script i) -> exists r, bip34_block_height b = Ret r).
Proof.
  intros H h txs b wr V. unfold new_checked, validate in V. cbn [b_txs] in V. destruct txs as [|tx rest] eqn:E; [discriminate|].
  destruct (is_coinbase tx) eqn:C; cbn [negb] in V; [|discriminate].
  assert (b = {| b_header := h; b_txs := tx :: rest |}) as ->.
  { destruct (check_merkle_root H {| b_header := h; b_txs := tx :: rest |}) as [[]|]; cbn [rbind negb] in V; try discriminate.
    destruct (check_witness_commitment H (tx :: rest)) as [[[] ?]|]; cbn [rbind] in V; try discriminate. congruence. }
  split; [reflexivity|]. unfold is_coinbase in C. destruct (tx_inputs tx) as [|i ins] eqn:I; [discriminate|]. exists tx, rest, i, ins.
  split; [reflexivity|]. split; [exact I|]. split; [reflexivity|]. intro B.
  destruct (C54_height_read {| b_header := h; b_txs := tx :: rest |} tx rest i ins eq_refl I B) as [X Y].
  destruct (Z.lt_ge_cases (signed (h_version h)) 2); [eauto|]. destruct Y as (r & R & _); eauto.
Qed.

(** The sizes and weight the library reports are those of the serializations, for blocks whose weight fits in 64 bits. *)
Theorem C54_total_size : forall b, header_ok (b_header b) -> Forall tx_shape (b_txs b) -> lenN (block_encode b) < 2 ^ 64 ->
  block_total_size b = Ret (lenN (block_encode b)).
Proof. exact total_size_eq. Qed.
Theorem C54_weight : forall b, header_ok (b_header b) -> Forall tx_shape (b_txs b) -> 4 * lenN (block_encode b) < 2 ^ 64 ->
  block_weight b = Ret (3 * lenN (stripped b) + lenN (block_encode b)).
Proof. exact weight_eq. Qed.

(** BIP9: bits 0 to 28 signal when the top three bits are 001. *)
Theorem C54_signalling : forall v bit, v < 2 ^ 32 ->
  (is_signalling_soft_fork v bit = true <-> bit <= 28 /\ version_bits v /\ N.testbit v bit = true).
Proof. exact signalling_iff. Qed.

Definition ex_height (v : N) (s : bytes) : block :=
  {| b_header := {| h_version := v; h_prev := repeat 0 32; h_merkle := repeat 0 32; h_time := 0; h_bits := 0; h_nonce := 0 |};
     b_txs := [{| tx_version := 1; tx_lock_time := 0; tx_inputs := [{| ti_prevout := null_outpoint; ti_script := s; ti_sequence := 0; ti_witness := wit_new |}];
                  tx_outputs := [ex_out] |}] |}.
Example C54_heights :
  bip34_block_height (ex_height 2 [3; 0x4e; 0x01; 0x0a; 9; 9]) = Ret (Ok 655694) /\
  bip34_block_height (ex_height 1 [3; 0x4e; 0x01; 0x0a]) = Ret (Err B34Unsupported) /\
  bip34_block_height (ex_height 0xFFFFFFFF [3; 0x4e; 0x01; 0x0a]) = Ret (Err B34Unsupported) /\
  bip34_block_height (ex_height 0x20000000 [0x51]) = Ret (Ok 1) /\
  bip34_block_height (ex_height 2 [1; 1]) = Ret (Err B34NonMinimalPush) /\
  bip34_block_height (ex_height 2 [2; 5; 0]) = Ret (Err B34NonMinimalPush) /\
  bip34_block_height (ex_height 2 [0x4c; 1; 0x20]) = Ret (Err B34NonMinimalPush) /\
  bip34_block_height (ex_height 2 [1; 0xa0]) = Ret (Err B34NegativeHeight) /\
  bip34_block_height (ex_height 2 [5; 1; 2; 3; 4; 5]) = Ret (Err B34NotPresent) /\
  bip34_block_height (ex_height 2 [3; 1]) = Ret (Err B34NotPresent) /\
  bip34_block_height (ex_height 2 [0x61]) = Ret (Err B34NotPresent) /\
  bip34_block_height (ex_height 2 []) = Ret (Err B34NotPresent).
Proof. repeat split; vm_compute; reflexivity. Qed.
Example C54_sizes : header_ok (b_header (ex_height 2 [1; 2])) /\ Forall tx_shape (b_txs ex_valid) /\
  4 * lenN (block_encode ex_valid) < 2 ^ 64 /\
  block_total_size (ex_height 2 [1; 2]) = Ret 146 /\ block_weight (ex_height 2 [1; 2]) = Ret 584.
Proof.
  split; [|split; [|split; [vm_compute; reflexivity|split; vm_compute; reflexivity]]].
  - repeat split; try reflexivity; repeat constructor; reflexivity.
  - constructor; [apply ex_coinbase_shape|]. constructor; [apply ex_tx_ok|constructor].
Qed.
Example C54_bits : is_signalling_soft_fork 0x20000002 1 = true /\ is_signalling_soft_fork 0x20000002 0 = false /\
  is_signalling_soft_fork 0x20000002 29 = false /\ is_signalling_soft_fork 0x60000002 1 = false /\ is_signalling_soft_fork 2 1 = false.
Proof. repeat split. Qed.

Print Assumptions C54_height_read.
Print Assumptions C54_height_fun.
Print Assumptions C54_height.
Print Assumptions C54_height_push.
Print Assumptions C54_checked.
Print Assumptions C54_total_size.
Print Assumptions C54_weight.
Print Assumptions C54_signalling.
