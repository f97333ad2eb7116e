(** Lemmas about checked blocks. *)
From Verif Require Import Base MDec MWitness MAmount MTx MTxSize MMerkle MScript SWire SScript LWire LCompact LTxSize LScript LScript2 LScriptNum MBlockExt SBlockExt.
Local Open Scope N_scope.

Lemma version_signed : forall v, version_i32 v = signed v.
Proof.
  intros v. unfold version_i32, signed. change (2 ^ 31) with 2147483648. change ((2 ^ 32)%Z) with 4294967296%Z.
  destruct (v <? 2147483648) eqn:E; reflexivity.
Qed.
Lemma minimal_dec : forall d, bytes_ok d -> num_minimal d \/ ~ num_minimal d.
Proof. intros d H. destruct (code_min d) eqn:E; [left; apply code_min_ok; auto|right; rewrite <- code_min_ok by auto; congruence]. Qed.

(** what the code answers for an element *)
Lemma element_push : forall d, bytes_ok d -> exists r, element_height d r /\
  rbind (read_scriptint_non_minimal d) (fun x => Ret (match x with Ok z => Some z | Err _ => None end)) =
    Ret (if lenN d <=? 4 then Some (num_val d) else None) /\
  rbind (rbind (read_scriptint d) (fun x => Ret (Some x))) (fun int =>
    Ret match (if lenN d <=? 4 then Some (num_val d) else None), int with
        | Some n, Some (Ok _) | Some n, None => if (n <? 0)%Z then Err B34NegativeHeight else Ok (Z.to_N n)
        | _, Some (Err e) => Err (of_int_err e)
        | None, _ => Err B34NotPresent
        end) = Ret r.
Proof.
  intros d H. rewrite read_non_minimal_spec by auto. destruct (read_scriptint_spec d H) as (A & B & C).
  destruct (N.leb_spec (lenN d) 4) as [L|L].
  - destruct (minimal_dec d H) as [M|M].
    + rewrite (A L M). cbn [rbind]. destruct (Z.ltb_spec (num_val d) 0).
      * eexists. split; [apply eh_negative; auto|]. split; reflexivity.
      * exists (Ok (Z.to_N (num_val d))). split; [apply eh_ok; auto; lia|]. split; reflexivity.
    + rewrite (B L M). cbn [rbind]. eexists. split; [apply eh_non_minimal; auto|]. split; reflexivity.
  - rewrite (C L). cbn [rbind]. eexists. split; [apply eh_long; auto|]. split; reflexivity.
Qed.
Lemma element_op : forall op d, 79 <= op <= 255 -> pushed (Op op) = Some d -> exists n, op_num op = Some n /\
  element_height d (if (n <? 0)%Z then Err B34NegativeHeight else Ok (Z.to_N n)).
Proof.
  intros op d R P. unfold pushed in P. unfold op_num, between. destruct (N.eqb_spec op 79) as [->|].
  - injection P as <-. exists (-1)%Z. split; [reflexivity|]. apply eh_negative; [vm_compute; discriminate| |reflexivity].
    apply num_minimal_intro; [repeat constructor; lia|]. right. left. split; [reflexivity|discriminate].
  - destruct ((81 <=? op) && (op <=? 96)) eqn:E; [|discriminate]. injection P as <-. apply andb_true_iff in E. destruct E as [E1 E2].
    apply N.leb_le in E1, E2. eexists. split; [reflexivity|]. destruct (Z.ltb_spec (Z.of_N op - 80) 0); [lia|].
    assert (V : num_val [op - 80] = (Z.of_N op - 80)%Z).
    { unfold num_val. cbn [le_val]. change (lenN [op - 80]) with 1. change (2 ^ (8 * 1 - 1)) with 128.
      destruct (N.ltb_spec (op - 80 + 256 * 0) 128); lia. }
    apply eh_ok; [cbn; lia| |rewrite V; lia].
    apply num_minimal_intro; [repeat constructor; unfold byte_ok; lia|]. right. left. split; [reflexivity|]. rewrite V. lia.
Qed.
Lemma op_none : forall op, pushed (Op op) = None -> op_num op = None.
Proof.
  intros op. unfold pushed, op_num, between. destruct (op =? 79); [discriminate|]. destruct ((81 <=? op) && (op <=? 96)); [discriminate|reflexivity].
Qed.
Lemma encodes_bytes : forall i e s, encodes i e -> bytes_ok (e ++ s) -> match i with PushBytes d => bytes_ok d | Op op => 79 <= op <= 255 end.
Proof.
  intros i e s H B. apply bytes_ok_app in B. destruct B as [B _].
  destruct H; auto; apply bytes_ok_cons in B; destruct B as [_ B]; try exact B; apply bytes_ok_app in B; apply B.
Qed.

Definition height_of (s : bytes) : rust (result N bip34_err) :=
  rbind (instr_next true s) (fun '(o, _) =>
    match o with
    | None => Ret (Err B34NotPresent)
    | Some (Err e) => Ret (Err (to_bip34_error e))
    | Some (Ok push) =>
        rbind (script_num push) (fun num =>
        rbind (match push with PushBytes d => rbind (read_scriptint d) (fun r => Ret (Some r)) | Op _ => Ret None end) (fun int =>
        Ret match num, int with
            | Some n, Some (Ok _) | Some n, None => if (n <? 0)%Z then Err B34NegativeHeight else Ok (Z.to_N n)
            | _, Some (Err e) => Err (of_int_err e)
            | None, _ => Err B34NotPresent
            end))
    end).
Lemma height_of_ok : forall s, bytes_ok s -> exists r, script_height s r /\ height_of s = Ret r.
Proof.
  intros s H. destruct s as [|b s]; [eexists; split; [constructor|reflexivity]|].
  unfold height_of. destruct (step_all true b s H) as [(i & e & s' & A & B & C & D)|[(i & e & s' & A & B & C & D & E)|[(A & B & C & D)|(A & B & C)]]].
  - rewrite D. cbn [rbind]. rewrite A in *. pose proof (encodes_bytes i e s' B H) as K. specialize (C eq_refl). destruct i as [d|op].
    + destruct (element_push d K) as (r & R1 & R2 & R3). cbn [script_num]. rewrite R2. cbn [rbind]. rewrite R3.
      exists r. split; [|reflexivity]. apply (sh_push (PushBytes d) e s' d); auto.
    + cbn [script_num rbind]. destruct (pushed (Op op)) as [d|] eqn:P.
      * destruct (element_op op d K P) as (n & N1 & N2). rewrite N1. eexists. split; [|reflexivity]. apply (sh_push (Op op) e s' d); auto.
      * rewrite (op_none _ P). eexists. split; [|reflexivity]. eapply sh_no_push; eauto.
  - rewrite E. cbn [rbind]. rewrite A. eexists. split; [|reflexivity]. eapply sh_long_form; eauto.
  - rewrite D. cbn [rbind]. eexists. split; [|reflexivity]. apply sh_stuck_short; auto.
  - rewrite C. cbn [rbind]. eexists. split; [|reflexivity]. apply sh_stuck; auto. discriminate.
Qed.

(** which scripts have a height *)
Lemma pushed_enc : forall i e d, encodes i e -> shortest i e -> pushed i = Some d -> lenN d <= 4 -> bytes_ok d ->
  (special d = true /\ e = [special_op d]) \/ (special d = false /\ e = lenN d :: d).
Proof.
  intros i e d E Sh P L B. pose proof (proj1 (shortest_iff _ _ _ E P) Sh) as M. unfold min_len in M. destruct (special d) eqn:Sp.
  - left. split; [reflexivity|]. unfold special in Sp. destruct d as [|b [|]]; try discriminate. destruct E as [d0|d0|d0|d0|op R]; try discriminate M.
    + destruct d0; [|discriminate M]. discriminate P.
    + unfold pushed in P. cbn [special_op]. destruct (N.eqb_spec op 79) as [->|].
      * injection P as <-. reflexivity.
      * destruct ((81 <=? op) && (op <=? 96)) eqn:F; [|discriminate]. injection P as <-. apply andb_true_iff in F. destruct F as [F1 F2]. apply N.leb_le in F1, F2.
        destruct (N.eqb_spec (op - 80) 129); [lia|]. f_equal. lia.
  - right. split; [reflexivity|]. destruct (N.leb_spec (lenN d) 75); [|lia].
    destruct E as [d0|d0|d0|d0|op R]; cbn [pushed] in P.
    + injection P as ->. reflexivity.
    + injection P as ->. cbn [length] in M. rewrite app_length, le_bytes_length in M. lia.
    + injection P as ->. cbn [length] in M. rewrite app_length, le_bytes_length in M. lia.
    + injection P as ->. cbn [length] in M. rewrite app_length, le_bytes_length in M. lia.
    + apply pushed_op in P. destruct P. congruence.
Qed.
Lemma pushed_bytes : forall i e s d, encodes i e -> bytes_ok (e ++ s) -> pushed i = Some d -> bytes_ok d.
Proof.
  intros i e s d E B P. pose proof (encodes_bytes i e s E B) as K. destruct i as [d0|op]; [injection P as <-; exact K|].
  unfold pushed in P. destruct (N.eqb_spec op 79); [injection P as <-; repeat constructor; unfold byte_ok; lia|].
  destruct ((81 <=? op) && (op <=? 96)); [|discriminate]. injection P as <-. repeat constructor. unfold byte_ok. lia.
Qed.
Lemma single_val : forall b, b < 128 -> num_val [b] = Z.of_N b.
Proof.
  intros b H. unfold num_val. cbn [le_val]. change (lenN [b]) with 1. change (2 ^ (8 * 1 - 1)) with 128.
  destruct (N.ltb_spec (b + 256 * 0) 128); lia.
Qed.
Lemma single_min : forall b, 1 <= b < 128 -> num_minimal [b].
Proof.
  intros b H. apply num_minimal_intro; [repeat constructor; unfold byte_ok; lia|]. right. left. split; [reflexivity|]. rewrite single_val; lia.
Qed.
Lemma four_val : forall d, bytes_ok d -> lenN d <= 4 -> (Z.abs (num_val d) < 2 ^ 31)%Z.
Proof.
  intros d H L. destruct d as [|b d]; [cbn; lia|]. pose proof (num_val_bound (b :: d) H ltac:(discriminate)) as K.
  eapply Z.lt_le_trans; [exact K|]. apply Z.pow_le_mono_r; [lia|]. unfold lenN in L. lia.
Qed.
Lemma element_fun : forall d r r', element_height d r -> element_height d r' -> r = r'.
Proof. intros d r r' H H'. destruct H; destruct H'; try reflexivity; try lia; try contradiction. f_equal. lia. Qed.
Lemma script_fun : forall s r r', script_height s r -> script_height s r' -> r = r'.
Proof.
  intros s r r' H H'.
  assert (NE : forall i e s0, encodes i e -> e ++ s0 <> []).
  { intros i e s0 E K. apply app_eq_nil in K. destruct K as [K _]. exact (encodes_nonempty _ _ E K). }
  remember s as s2 eqn:Es in H'. destruct H as [|s1 N1 K1 H1|s1 K1 H1|i e s1 E Sh|i e s1 E P|i e s1 d r E Sh P D];
  destruct H' as [|s2 N2 K2 H2|s2 K2 H2|i' e' s2 E' Sh'|i' e' s2 E' P'|i' e' s2 d' r' E' Sh' P' D']; subst; try reflexivity; try contradiction;
  try (exfalso; eapply NE; eauto; fail); try (exfalso; eapply K1; eauto; fail); try (exfalso; eapply K2; eauto; fail);
  try (destruct H1 as [(? & ? & Q & _)|[(? & ? & _ & Q & _)|(? & ? & _ & Q & _)]]; discriminate);
  try (destruct H2 as [(? & ? & Q & _)|[(? & ? & _ & Q & _)|(? & ? & _ & Q & _)]]; discriminate).
  all: destruct (encodes_prefix _ _ _ _ _ _ E E' (eq_sym Es)) as (-> & -> & ->); try contradiction;
  try (exfalso; apply Sh; intros x ? ? Q; congruence); try (exfalso; apply Sh'; intros x ? ? Q; congruence); try congruence.
  rewrite P in P'. injection P' as <-. exact (element_fun _ _ _ D D').
Qed.

(** the heights *)
Lemma height_script_ok : forall h e s, h < 2 ^ 31 -> height_script h e -> bytes_ok (e ++ s) -> script_height (e ++ s) (Ok h).
Proof.
  intros h e s Hh [(-> & ->)|[(R & ->)|(R & d & B & M & V & ->)]] Bs.
  - apply (sh_push (PushBytes []) [0] s []); try reflexivity.
    + apply (enc_direct []). discriminate.
    + apply (proj2 (shortest_direct [] ltac:(discriminate))). reflexivity.
    + apply (eh_ok [] 0); [discriminate| |reflexivity]. apply num_minimal_intro; [constructor|auto].
  - apply (sh_push (Op (80 + h)) [80 + h] s [h]).
    + apply enc_opcode. lia.
    + apply shortest_op.
    + unfold pushed. destruct (N.eqb_spec (80 + h) 79); [lia|]. destruct (N.leb_spec 81 (80 + h)); [|lia]. destruct (N.leb_spec (80 + h) 96); [|lia].
      cbn [andb]. do 2 f_equal. lia.
    + apply eh_ok; [cbn; lia|apply single_min; lia|apply single_val; lia].
  - assert (L : lenN d <= 4).
    { pose proof (num_of_len (Z.of_N h) d B M V 4 ltac:(lia)) as K. unfold lenN. change (8 * Z.of_nat 4 - 1)%Z with 31%Z in K. lia. }
    apply (sh_push (PushBytes d) (lenN d :: d) s d); try reflexivity.
    + apply enc_direct. lia.
    + apply shortest_direct; [lia|]. destruct (special d) eqn:Sp; [|reflexivity]. unfold special in Sp. destruct d as [|b [|]]; try discriminate.
      apply orb_true_iff in Sp. destruct Sp as [Sp|Sp].
      * apply N.eqb_eq in Sp. subst. change (num_val [129]) with (-1)%Z in V. lia.
      * apply andb_true_iff in Sp. destruct Sp as [S1 S2]. apply N.leb_le in S1, S2. rewrite single_val in V by lia. lia.
    + apply eh_ok; auto.
Qed.
Lemma script_height_ok : forall s h, bytes_ok s -> script_height s (Ok h) -> h < 2 ^ 31 /\ exists e rest, s = e ++ rest /\ height_script h e.
Proof.
  intros s h B H. remember (Ok h) as r eqn:Er. destruct H as [| | | | |i e s d r E Sh P D]; try discriminate.
  pose proof (pushed_bytes i e s d E B P) as Bd. destruct D as [| | |h' L M V]; try discriminate. injection Er as ->.
  pose proof (four_val d Bd L) as K. assert (Hh : h < 2 ^ 31) by (clear - K V; lia). split; [exact Hh|].
  exists e, s. split; [reflexivity|]. destruct (pushed_enc i e d E Sh P L Bd) as [[Sp ->]|[Sp ->]].
  - unfold special in Sp. destruct d as [|b [|]]; try discriminate. apply orb_true_iff in Sp. destruct Sp as [Sp|Sp].
    + apply N.eqb_eq in Sp. subst. change (num_val [129]) with (-1)%Z in V. lia.
    + apply andb_true_iff in Sp. destruct Sp as [S1 S2]. apply N.leb_le in S1, S2. rewrite single_val in V by lia. assert (b = h) as -> by lia.
      right. left. split; [lia|]. unfold special_op. destruct (N.eqb_spec h 129); [lia|]. f_equal. lia.
  - destruct (N.eq_dec h 0) as [->|]; [|destruct (N.le_gt_cases h 16)].
    + left. split; [reflexivity|]. pose proof (M [] ltac:(constructor) (eq_sym V)) as Q. destruct d; [reflexivity|cbn [length] in Q; lia].
    + exfalso. assert (d = [h]) as ->.
      { apply num_minimal_inj; auto; [repeat constructor; unfold byte_ok; lia|apply single_min; lia|rewrite V, single_val; lia]. }
      unfold special in Sp. destruct (N.leb_spec 1 h); [|lia]. destruct (N.leb_spec h 16); [|lia]. rewrite orb_true_r in Sp. discriminate.
    + right. right. split; [lia|]. exists d. auto.
Qed.
Lemma height_of_iff : forall s h, bytes_ok s ->
  (height_of s = Ret (Ok h) <-> h < 2 ^ 31 /\ exists e rest, s = e ++ rest /\ height_script h e).
Proof.
  intros s h B. destruct (height_of_ok s B) as (r & R & ->). split.
  - intro E. assert (r = Ok h) as -> by congruence. now apply script_height_ok.
  - intros (Hh & e & rest & -> & HS). f_equal. eapply script_fun; [exact R|]. now apply height_script_ok.
Qed.
Lemma bip34_eq : forall b tx txs i ins, b_txs b = tx :: txs -> tx_inputs tx = i :: ins ->
  bip34_block_height b = if (signed (h_version (b_header b)) <? 2)%Z then Ret (Err B34Unsupported) else height_of (ti_script i).
Proof.
  intros b tx txs i ins E1 E2. unfold bip34_block_height, block_coinbase, first_input, height_of. rewrite version_signed, E1. cbn [rbind]. rewrite E2. reflexivity.
Qed.

(** sizes *)
Lemma header_len : forall h, header_ok h -> lenN (header_encode h) = 80.
Proof.
  intros h (A & (B & _) & (C & _) & D & E & F). unfold header_encode. rewrite !lenN_app, !le_len, B, C. reflexivity.
Qed.
Lemma total_size_eq : forall b, header_ok (b_header b) -> Forall tx_shape (b_txs b) -> lenN (block_encode b) < 2 ^ 64 ->
  block_total_size b = Ret (lenN (block_encode b)).
Proof.
  intros b H F L. unfold block_total_size.
  rewrite (rmap_ok _ _ tx_total_size (fun tx => lenN (tx_encode tx))) by (eapply Forall_impl; [|exact F]; intros; now apply total_size_ok).
  cbn [rbind]. rewrite sum_flat_map. unfold block_encode in *. rewrite lenN_app, header_len, slice_len in * by auto.
  rewrite usz_ok; [f_equal; lia|]. unfold USIZE. lia.
Qed.
Lemma stripped_len : forall b, header_ok (b_header b) ->
  lenN (stripped b) = 80 + cs_encoded_size (lenN (b_txs b)) + lenN (flat_map wire_legacy (b_txs b)).
Proof.
  intros b H. unfold stripped. rewrite <- (wire_list_eq _ wire_legacy wire_legacy) by reflexivity. rewrite lenN_app, slice_len.
  change (wire_header (b_header b)) with (header_encode (b_header b)). rewrite header_len by auto. lia.
Qed.
Lemma legacy_le : forall txs, Forall tx_shape txs -> lenN (flat_map wire_legacy txs) <= lenN (flat_map tx_encode txs).
Proof.
  induction txs as [|t l IH]; intro F; [reflexivity|]. inv F. cbn [flat_map]. rewrite !lenN_app. specialize (IH H2). rewrite (encode_len t H1).
  destruct (uses_segwit t); lia.
Qed.
Lemma base_size_eq : forall b, header_ok (b_header b) -> Forall tx_shape (b_txs b) -> lenN (stripped b) < 2 ^ 64 ->
  block_base_size (b_txs b) = Ret (lenN (stripped b)).
Proof.
  intros b H F L. unfold block_base_size.
  rewrite (rmap_ok _ _ tx_base_size (fun tx => lenN (wire_legacy tx))) by (eapply Forall_impl; [|exact F]; intros; now apply base_size_ok).
  cbn [rbind]. rewrite sum_flat_map. rewrite stripped_len in * by auto.
  rewrite usz_ok; [f_equal; lia|]. unfold USIZE. lia.
Qed.
Lemma stripped_le : forall b, header_ok (b_header b) -> Forall tx_shape (b_txs b) -> lenN (stripped b) <= lenN (block_encode b).
Proof.
  intros b H F. rewrite stripped_len by auto. unfold block_encode. rewrite lenN_app, header_len, slice_len by auto. pose proof (legacy_le _ F). lia.
Qed.
Lemma weight_eq : forall b, header_ok (b_header b) -> Forall tx_shape (b_txs b) -> 4 * lenN (block_encode b) < 2 ^ 64 ->
  block_weight b = Ret (3 * lenN (stripped b) + lenN (block_encode b)).
Proof.
  intros b H F L. pose proof (stripped_le b H F). unfold block_weight. rewrite base_size_eq by (auto; lia). cbn [rbind].
  rewrite usz_ok by (unfold USIZE; lia). cbn [rbind]. rewrite total_size_eq by (auto; lia). cbn [rbind].
  rewrite usz_ok by (unfold USIZE; lia). f_equal. lia.
Qed.

(** version bits *)
Lemma land_bit : forall v b, (0 <? N.land v (N.shiftl 1 b)) = N.testbit v b.
Proof.
  intros v b. destruct (N.ltb_spec 0 (N.land v (N.shiftl 1 b))) as [K|K].
  - destruct (N.testbit v b) eqn:T; [reflexivity|]. exfalso. assert (N.land v (N.shiftl 1 b) = 0); [|lia]. apply N.bits_inj. intro n.
    rewrite N.land_spec, N.bits_0, N.shiftl_1_l, N.pow2_bits_eqb. destruct (N.eqb_spec b n); [subst; now rewrite T|apply andb_false_r].
  - destruct (N.testbit v b) eqn:T; [|reflexivity]. exfalso. assert (Q : N.testbit (N.land v (N.shiftl 1 b)) b = true).
    { now rewrite N.land_spec, N.shiftl_1_l, N.pow2_bits_true, T. }
    apply N.le_0_r in K. rewrite K, N.bits_0 in Q. discriminate.
Qed.
Lemma top_bits : forall v, v < 2 ^ 32 -> (N.land v 0xE0000000 = 0x20000000 <-> v / 2 ^ 29 = 1).
Proof.
  intros v H. assert (Q : N.land v 0xE0000000 = v / 2 ^ 29 * 2 ^ 29).
  { rewrite <- N.shiftr_div_pow2, <- N.shiftl_mul_pow2. apply N.bits_inj. intro n. rewrite N.land_spec.
    destruct (N.le_gt_cases 29 n).
    - rewrite N.shiftl_spec_high' by auto. rewrite N.shiftr_spec'. replace (n - 29 + 29) with n by lia.
      destruct (N.le_gt_cases 32 n).
      + rewrite <- (N.mod_small v (2 ^ 32) H), N.mod_pow2_bits_high by auto. reflexivity.
      + assert (n = 29 \/ n = 30 \/ n = 31) as [-> | [-> | ->]] by lia; rewrite andb_true_r; reflexivity.
    - rewrite N.shiftl_spec_low by auto. change 0xE0000000 with (N.shiftl 7 29). rewrite N.shiftl_spec_low by auto. apply andb_false_r. }
  rewrite Q. change (2 ^ 29) with 536870912. change 0x20000000 with 536870912. generalize (v / 536870912). intro. lia.
Qed.
Lemma signalling_iff : forall v bit, v < 2 ^ 32 ->
  (is_signalling_soft_fork v bit = true <-> bit <= 28 /\ version_bits v /\ N.testbit v bit = true).
Proof.
  intros v bit H. unfold is_signalling_soft_fork, version_bits. change (4294967295 - VERSION_BITS_MASK) with 0xE0000000. unfold USE_VERSION_BITS.
  destruct (N.ltb_spec 28 bit); [split; [discriminate|lia]|].
  destruct (N.eqb_spec (N.land v 0xE0000000) 0x20000000) as [E|E]; cbn [negb].
  - apply top_bits in E; auto. rewrite <- N.land_assoc, (N.land_comm VERSION_BITS_MASK), N.land_assoc.
    assert (Q : N.land (N.land v (N.shiftl 1 bit)) VERSION_BITS_MASK = N.land v (N.shiftl 1 bit)).
    { change VERSION_BITS_MASK with (N.ones 29). rewrite N.land_ones. apply N.mod_small. apply N.le_lt_trans with (2 ^ bit).
      - rewrite N.shiftl_1_l. rewrite N.land_comm. replace (N.land (2 ^ bit) v) with (if N.testbit v bit then 2 ^ bit else 0).
        + destruct (N.testbit v bit); [reflexivity|apply N.le_0_l].
        + apply N.bits_inj. intro n. rewrite N.land_spec, N.pow2_bits_eqb. destruct (N.eqb_spec bit n) as [->|].
          * destruct (N.testbit v n); [now rewrite N.pow2_bits_true|now rewrite N.bits_0].
          * destruct (N.testbit v bit); [rewrite N.pow2_bits_false by auto; reflexivity|now rewrite N.bits_0].
      - apply N.pow_lt_mono_r; lia. }
    rewrite Q, land_bit. tauto.
  - split; [discriminate|]. intros (_ & K & _). apply top_bits in K; auto.
Qed.
