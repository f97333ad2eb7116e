(** C23, C24, C25: targets, work and difficulty. *)
From Verif Require Import Base MWitness MAmount MTx SWire MLock MText MU256 SU256 LU256 LU256T LU256P MPow SPow LPow.
Local Open Scope N_scope.

(** * C23: compact targets *)
(** Decoding is the consensus reading of nBits: always when the size is three or more, and for
    positive numbers when it is less. *)
Theorem C23_decode : forall c, 3 <= nbits_size c \/ nbits_sign c = false ->
  exists t, from_compact c = Ret t /\ is t (nbits_target c).
Proof.
  intros c H. exists (of_val (fval c)). split; [apply from_compact_val|]. rewrite <- fval_consensus by auto. apply is_of. rewrite <- W256_pow. apply fval_lt.
Qed.
(** For smaller sizes the sign bit is taken for a digit, *)
Theorem C23_decode_small : forall c, nbits_size c <= 2 ->
  exists t, from_compact c = Ret t /\ is t ((c mod 2 ^ 24) / 256 ^ (3 - nbits_size c)).
Proof.
  intros c H. exists (of_val (fval c)). split; [apply from_compact_val|].
  assert (F : fval c = (c mod 2 ^ 24) / 256 ^ (3 - nbits_size c)).
  { assert (FM : fmant c = (c mod 2 ^ 24) / 256 ^ (3 - nbits_size c)).
    { unfold fmant. cbv zeta. fold (nbits_size c). destruct (N.leb_spec (nbits_size c) 3); [reflexivity|lia]. }
    rewrite <- FM. assert (FL : fmant c < 2 ^ 16).
    { rewrite FM. apply N.div_lt_upper_bound; [apply pow256_nz|]. apply N.lt_le_trans with (2 ^ 24); [apply N.mod_lt; discriminate|].
      apply N.le_trans with (256 ^ 1 * 2 ^ 16); [discriminate|]. apply N.mul_le_mono_r. apply N.pow_le_mono_r; lia. }
    change (2 ^ 16) with 65536 in FL. unfold fval, foverflow. fold (nbits_size c). destruct (N.ltb_spec 0x7FFFFF (fmant c)); [lia|].
    destruct (N.ltb_spec 34 (nbits_size c)); [lia|]. destruct (N.ltb_spec 33 (nbits_size c)); [lia|]. destruct (N.ltb_spec 32 (nbits_size c)); [lia|].
    rewrite !andb_false_r. cbn [orb]. rewrite (proj2 (N.sub_0_le _ _)) by lia. rewrite N.pow_0_r, N.mul_1_r. reflexivity. }
  rewrite <- F. apply is_of. rewrite <- W256_pow. apply fval_lt.
Qed.
(** so that an nBits consensus reads as negative, hence as zero, gives a target that is not zero. *)
Theorem C23_decode_refuted : exists c t, c < 2 ^ 32 /\ from_compact c = Ret t /\ is t 0x81 /\ nbits_target c = 0.
Proof. exists 0x01810000, (U 0 0x81). repeat split; vm_compute; reflexivity. Qed.
Example C23_decode_ex : nbits_target 0x1b0404cb = 0x0404cb * 256 ^ 24 /\ nbits_target 0x04923456 = 0 /\ nbits_target 0x23000001 = 0 /\ nbits_target 0x22000001 = 256 ^ 31.
Proof. repeat split; vm_compute; reflexivity. Qed.

(** Encoding keeps the three leading bytes of the target, its sign bit counted: the result is
    canonical, its size is the size of the target, and it decodes to the target with all lower bytes
    cleared. *)
Theorem C23_encode : forall t s, u256_ok t -> signed_size (value t) s ->
  exists c r, to_compact_lossy t = Ret c /\ nbits_canonical c /\ nbits_size c = s /\
    from_compact c = Ret r /\ is r (leading3 (value t) s).
Proof.
  intros t s W SS. pose proof (ok_lt t W) as VL. apply ok_wf in W. rewrite value_val in *. destruct (to_compact_val t s W SS) as (E & S33 & W23 & W15).
  destruct (fields _ s W23) as (FS & FW & FG). exists (enc_word (val t) s + s * 2 ^ 24), (of_val (leading3 (val t) s)).
  assert (M : nbits_magnitude (enc_word (val t) s + s * 2 ^ 24) = leading3 (val t) s) by (now apply enc_magnitude).
  assert (LL : leading3 (val t) s < 2 ^ 256) by (apply N.le_lt_trans with (val t); auto; apply leading3_le).
  split; [auto|]. split; [|split; [auto|split]].
  - destruct (N.eq_dec (val t) 0) as [Z|NZ].
    + left. assert (s = 0) as -> by (apply (signed_size_fun (val t)); auto; rewrite Z; apply signed_size_zero). rewrite Z. reflexivity.
    + right. rewrite FS, FW, M. split; [|split; [auto|split; [auto|split; [now apply (signed_size_pos (val t))|split; [|auto]]]]].
      * apply N.lt_le_trans with ((s + 1) * 2 ^ 24); [|apply N.le_trans with (34 * 2 ^ 24); [apply N.mul_le_mono_r; lia|discriminate]].
        rewrite N.mul_add_distr_r, N.add_comm, N.mul_1_l. apply N.add_lt_mono_l. apply N.lt_trans with (2 ^ 23); auto. reflexivity.
      * intro L. unfold enc_word. rewrite (proj2 (N.leb_le _ _) L). apply N.mod_mul, pow256_nz.
  - rewrite from_compact_val. f_equal. f_equal. rewrite fval_consensus by auto. now apply enc_target.
  - now apply is_of.
Qed.
(** Every target has such a size, and what is lost is less than one part in 2^15. *)
Theorem C23_encode_precision : forall t, u256_ok t ->
  exists c r, to_compact_lossy t = Ret c /\ from_compact c = Ret r /\
    value r <= value t /\ (value t <> 0 -> (value t - value r) * 2 ^ 15 < value r).
Proof.
  intros t W. destruct (signed_size_ex (value t) (ok_lt t W)) as [s SS].
  destruct (C23_encode t s W SS) as (c & r & A & _ & _ & B & [_ V]). exists c, r. split; [auto|]. split; [auto|]. rewrite V. split; [apply leading3_le|].
  intro NZ. apply enc_precision; auto. apply ok_wf in W. rewrite value_val in *. now apply (to_compact_val t s W SS).
Qed.
(** Canonical nBits survive decoding and encoding. *)
Theorem C23_canonical : forall c, nbits_canonical c ->
  exists t, from_compact c = Ret t /\ u256_ok t /\ to_compact_lossy t = Ret c.
Proof.
  intros c H. destruct (N.eq_dec c 0) as [-> |NZ]; [exists U_ZERO; repeat split; vm_compute; reflexivity|].
  destruct (canonical_enc c H NZ) as (SS & EW & CE & T & TL).
  assert (SG : nbits_sign c = false) by (destruct H as [H|H]; [congruence|apply H]).
  exists (of_val (nbits_target c)). split; [rewrite from_compact_val, fval_consensus by auto; reflexivity|].
  assert (W : wf (of_val (nbits_target c))) by (apply wf_of; rewrite W256_pow; auto). split; [now apply ok_wf|].
  assert (SS' : signed_size (val (of_val (nbits_target c))) (nbits_size c)) by (rewrite val_of; auto).
  destruct (to_compact_val _ _ W SS') as (E & _). rewrite E, val_of, EW. f_equal. now symmetry.
Qed.
Example C23_canonical_ex : nbits_canonical 0x1b0404cb /\ nbits_canonical 0x1d00ffff /\ nbits_canonical 0x01120000 /\ ~ nbits_canonical 0x01123456.
Proof.
  split; [|split; [|split]]; [right; repeat split; vm_compute; congruence ..|].
  intros [H|(_ & _ & _ & _ & H & _)]; [discriminate|]. specialize (H ltac:(discriminate)). discriminate.
Qed.
Example C23_encode_ex : signed_size 0x92340000 5 /\ leading3 0x9234567890 6 = 0x9234000000 /\ to_compact_lossy (U 0 0x92340000) = Ret 0x05009234.
Proof.
  split; [|split; reflexivity]. split; [reflexivity|]. intros s' H. apply N.nlt_ge. intro L.
  apply (N.lt_irrefl (2 ^ 31)). apply N.le_lt_trans with 0x92340000; [discriminate|]. apply N.lt_le_trans with (2 ^ (8 * s' - 1)); auto. apply N.pow_le_mono_r; lia.
Qed.

(** The limits of the networks: Bitcoin Core's proof-of-work limits, with the bytes below the three
    leading ones cleared, so that nBits can express them. *)
Definition core_pow_limit (n : network) : N :=
  match n with
  | Bitcoin | Testnet3 | Testnet4 => 2 ^ 224 - 1
  | Signet => 0x377ae * 2 ^ 216
  | Regtest => 2 ^ 255 - 1
  end.
Theorem C23_limits : forall n, exists s c, signed_size (core_pow_limit n) s /\
  is (p_max_attainable_target (params_new n)) (leading3 (core_pow_limit n) s) /\
  to_compact_lossy (p_max_attainable_target (params_new n)) = Ret c /\
  from_compact c = Ret (p_max_attainable_target (params_new n)).
Proof.
  assert (SI : forall v s, 1 < s -> v < 2 ^ (8 * s - 1) -> 2 ^ (8 * (s - 1) - 1) <= v -> signed_size v s) by (intros; apply signed_size_intro; auto).
  intros []; [exists 29, 0x1d00ffff|exists 29, 0x1d00ffff|exists 29, 0x1d00ffff|exists 30, 0x1e0377ae|exists 32, 0x207fffff];
    (split; [apply SI; [reflexivity|reflexivity|discriminate]|]; split; [repeat split; vm_compute; reflexivity|]; split; vm_compute; reflexivity).
Qed.

(** * C24: work *)
(** The work of a target is 2^256 over the target plus one, rounded down. *)
Theorem C24_work : forall t, u256_ok t -> value t <> 0 -> value t <> 1 ->
  exists w, to_work t = Ret w /\ is w (work_of (value t)).
Proof.
  intros t W N0 N1. apply ok_wf in W. rewrite value_val in *. exists (of_val (gval (val t))). split; [now apply inverse_g|].
  assert (G : gval (val t) = work_of (val t)) by (unfold gval, work_of; destruct (N.leb_spec (val t) 1); [lia|]; now rewrite W256_pow).
  rewrite <- G. apply is_of. rewrite <- W256_pow. apply gval_lt.
Qed.
(** Of target zero it is the largest number, since 2^256 does not fit. *)
Theorem C24_work_zero : exists w, to_work U_ZERO = Ret w /\ is w (work_of 0 - 1).
Proof. exists U_MAX. repeat split; vm_compute; reflexivity. Qed.
(** Of target one it is the same number, although 2^255 fits. *)
Theorem C24_work_refuted : exists t w, is t 1 /\ to_work t = Ret w /\ work_of (value t) < 2 ^ 256 /\ value w <> work_of (value t).
Proof. exists U_ONE, U_MAX. split; [repeat split; vm_compute; reflexivity|]. split; [reflexivity|]. split; vm_compute; [reflexivity|discriminate]. Qed.
Example C24_work_ex : to_work (U (0xFFFF * 2 ^ 80) 0) = Ret (U 0 0x100010001).
Proof. reflexivity. Qed.
(** A lower target never has less work. *)
Theorem C24_antitone : forall t t', u256_ok t -> u256_ok t' -> value t <= value t' ->
  exists w w', to_work t = Ret w /\ to_work t' = Ret w' /\ u256_ok w /\ u256_ok w' /\ value w' <= value w.
Proof.
  intros t t' W W' L. apply ok_wf in W, W'. rewrite !value_val in L. exists (of_val (gval (val t))), (of_val (gval (val t'))).
  split; [now apply inverse_g|]. split; [now apply inverse_g|]. pose proof (gval_lt (val t)). pose proof (gval_lt (val t')).
  split; [now apply ok_wf, wf_of|]. split; [now apply ok_wf, wf_of|]. rewrite !value_val, !val_of. now apply gval_anti.
Qed.
(** Converting work to a target gives the least target with no more work than that: only rounding is
    lost. *)
Theorem C24_to_target : forall w, u256_ok w -> 2 <= value w -> value w < 2 ^ 255 ->
  exists t, to_target w = Ret t /\ u256_ok t /\
    (forall z wz, u256_ok z -> to_work z = Ret wz -> (value wz <= value w <-> value t <= value z)).
Proof.
  intros w W L H. apply ok_wf in W. rewrite value_val in *. exists (of_val (gval (val w))). split; [now apply inverse_g|].
  pose proof (gval_lt (val w)). split; [now apply ok_wf, wf_of|]. intros z wz Z E. apply ok_wf in Z. unfold to_work in E. rewrite inverse_g in E by auto.
  assert (wz = of_val (gval (val z))) as -> by congruence. rewrite !value_val, !val_of. now apply gval_galois.
Qed.
(** There and back again: the work of any target survives. *)
Theorem C24_round_trip : forall t, u256_ok t ->
  exists w t', to_work t = Ret w /\ to_target w = Ret t' /\ to_work t' = Ret w.
Proof.
  intros t W. pose proof (ok_lt t W) as VL. apply ok_wf in W. rewrite value_val, <- W256_pow in VL.
  exists (of_val (gval (val t))), (of_val (gval (gval (val t)))). unfold to_work, to_target.
  assert (WF : forall x, wf (of_val (gval x))) by (intro; apply wf_of, gval_lt).
  rewrite !inverse_g by auto. rewrite !val_of. rewrite gval_round by auto. auto.
Qed.
(** Summing the work of a chain is exact; it panics exactly when the sum does not fit. *)
Fixpoint total_work (acc : u256) (ws : list u256) : rust u256 :=
  match ws with [] => Ret acc | w :: ws' => rbind (work_add acc w) (fun a => total_work a ws') end.
Theorem C24_total : forall ws acc, u256_ok acc -> Forall u256_ok ws ->
  let sum := fold_left (fun s w => s + value w) ws (value acc) in
  (sum < 2 ^ 256 -> exists r, total_work acc ws = Ret r /\ is r sum) /\ (2 ^ 256 <= sum -> total_work acc ws = Panic).
Proof.
  assert (MON : forall ws s, s <= fold_left (fun s w => s + value w) ws s).
  { induction ws as [|w ws IH]; intro s; cbn [fold_left]; [lia|]. apply N.le_trans with (s + value w); [lia|apply IH]. }
  induction ws as [|w ws IH]; intros acc A F; cbn [fold_left total_work].
  - split; [intros; exists acc; split; [reflexivity|split; auto]|]. intro H. pose proof (ok_lt acc A). exfalso. lia.
  - inversion F as [|? ? W F']; subst. unfold work_add, u_add. pose proof (ok_lt acc A) as LA. pose proof (ok_lt w W) as LW.
    apply ok_wf in A, W. rewrite add_val, W256_pow by auto. cbn [fst snd]. specialize (MON ws (value acc + value w)). rewrite !value_val in *.
    destruct (N.leb_spec (2 ^ 256) (val acc + val w)) as [L|L]; cbn [rbind].
    + split; [|auto]. intro X. exfalso. apply (N.lt_irrefl (2 ^ 256)). apply N.le_lt_trans with (val acc + val w); auto. eapply N.le_lt_trans; [exact MON|]. exact X.
    + rewrite N.mod_small by auto. assert (O : u256_ok (of_val (val acc + val w))) by (apply ok_wf, wf_of; now rewrite W256_pow).
      specialize (IH _ O F'). rewrite (value_val (of_val _)), val_of in IH. exact IH.
Qed.
Theorem C24_sub : forall a b, u256_ok a -> u256_ok b ->
  (value b <= value a -> exists r, work_sub a b = Ret r /\ is r (value a - value b)) /\ (value a < value b -> work_sub a b = Panic).
Proof.
  intros a b A B. pose proof (ok_lt a A) as LA. pose proof (ok_lt b B) as LB. apply ok_wf in A, B. unfold work_sub, u_sub. rewrite (value_val a), (value_val b). rewrite (value_val a) in LA. rewrite (value_val b) in LB. rewrite sub_val by auto.
  split; intro H; destruct (N.ltb_spec (val a) (val b)) as [L|L]; try (exfalso; lia); [|reflexivity].
  assert (E : (val a + (W256 - val b)) mod W256 = val a - val b).
  { rewrite <- W256_pow in *. symmetry. apply N.mod_unique with 1; lia. }
  rewrite E. exists (of_val (val a - val b)). split; [reflexivity|]. apply is_of. lia.
Qed.

(** * C25: proof of work and retargeting *)
(** A hash, read as a little-endian number, meets a target when it is at most the target. *)
Theorem C25_is_met_by : forall t hash, u256_ok t -> bytes_ok hash -> length hash = 32%nat ->
  (is_met_by t hash = true <-> le_val hash <= value t).
Proof.
  intros t hash W OK L. apply ok_wf in W. pose proof (bytes_val_lt hash OK L). unfold is_met_by.
  assert (WH : wf (of_val (le_val hash))) by (now apply wf_of). rewrite to_inner_id, from_le_of, leb_val, val_of by auto. rewrite (value_val t).
  apply N.leb_le.
Qed.
(** A header validates exactly when its nBits decode to the required target and its hash meets it;
    the hash is returned. *)
Theorem C25_validate : forall sha256d h required hash, (forall b, bytes_ok (sha256d b) /\ length (sha256d b) = 32%nat) ->
  header_ok h -> u256_ok required ->
  (validate_pow sha256d h required = Ret (Ok hash) <->
   from_compact (h_bits h) = Ret required /\ le_val (sha256d (header_encode h)) <= value required /\ hash = sha256d (header_encode h)) /\
  (validate_pow sha256d h required = Ret (Err BadTarget) <-> from_compact (h_bits h) <> Ret required) /\
  validate_pow sha256d h required <> Panic.
Proof.
  intros sha h req hash SH _ R. unfold validate_pow, header_target, header_block_hash. rewrite from_compact_val. cbn [rbind].
  assert (W : wf (of_val (fval (h_bits h)))) by (apply wf_of, fval_lt). pose proof (proj1 (ok_wf _) R) as WR. rewrite eqb_val by auto.
  destruct (SH (header_encode h)) as [B L]. destruct (N.eqb_spec (val (of_val (fval (h_bits h)))) (val req)) as [E|E]; cbn [negb].
  - assert (of_val (fval (h_bits h)) = req) as -> by (now apply val_inj). pose proof (C25_is_met_by req _ R B L) as M.
    destruct (is_met_by req (sha (header_encode h))).
    + split; [split; [intro H; assert (hash = sha (header_encode h)) as -> by congruence; split; [reflexivity|split; [now apply M|reflexivity]]|intros (_ & _ & ->); reflexivity]|].
      split; [split; [discriminate|congruence]|discriminate].
    + split; [split; [discriminate|intros (_ & X & _); apply M in X; discriminate]|]. split; [split; [discriminate|congruence]|discriminate].
  - assert (NE : of_val (fval (h_bits h)) <> req) by (intros <-; now apply E).
    split; [split; [discriminate|intros (X & _); exfalso; apply NE; congruence]|]. split; [split; [congruence|reflexivity]|discriminate].
Qed.
Theorem C25_header_work : forall h, exists t, header_target h = Ret t /\ header_work h = to_work t /\
  forall p, header_difficulty h p = difficulty t p.
Proof. intro h. unfold header_work, header_difficulty, header_target. rewrite from_compact_val. eexists. split; [reflexivity|]. split; reflexivity. Qed.
(** Difficulty: the limit over the target, at most the largest u128; panics exactly on target zero. *)
Theorem C25_difficulty : forall t max, u256_ok t -> u256_ok max ->
  (value t = 0 -> difficulty_with_max t max = Panic) /\
  (value t <> 0 -> difficulty_with_max t max = Ret (N.min (value max / value t) (2 ^ 128 - 1))) /\
  (forall n, difficulty t (params_new n) = difficulty_with_max t (p_max_attainable_target (params_new n))).
Proof.
  intros t max W WM. assert (D : forall n, difficulty t (params_new n) = difficulty_with_max t (p_max_attainable_target (params_new n))) by reflexivity.
  apply ok_wf in W, WM. rewrite !value_val. unfold difficulty_with_max at 1 2. rewrite !to_inner_id by auto. rewrite zero_of, eqb_val by (auto; apply wf_of; reflexivity). rewrite val_of.
  split; [intros ->; reflexivity|]. split; [|exact D]. intro NZ. rewrite (proj2 (N.eqb_neq _ _) NZ). rewrite div_val by auto. cbn [rbind].
  assert (L : val max / val t < W256) by (apply N.le_lt_trans with (val max); [now apply div_le_self|now apply val_lt]).
  rewrite sat128_val by (now apply wf_of). rewrite val_of, W128_pow. reflexivity.
Qed.
Example C25_difficulty_ex : rbind (from_compact 0x1b0404cb) (fun t => difficulty t (params_new Bitcoin)) = Ret 16307.
Proof. vm_compute. reflexivity. Qed.

(** Transition thresholds: a quarter; four times, at most the limit. *)
Theorem C25_thresholds : forall t p, u256_ok t -> u256_ok (p_max_attainable_target p) ->
  (exists r, min_transition_threshold t = Ret r /\ is r (value t / 4)) /\
  (value t < 2 ^ 254 -> exists r, max_transition_threshold_unchecked t = Ret r /\ is r (value t * 4)) /\
  (value t < 2 ^ 254 -> exists r, max_transition_threshold t p = Ret r /\ is r (N.min (value t * 4) (value (p_max_attainable_target p)))).
Proof.
  intros t p W WP. pose proof (ok_lt t W) as VL. pose proof (ok_lt _ WP) as PL. apply ok_wf in W, WP. rewrite !value_val in *.
  assert (S4 : val t < 2 ^ 254 -> val t * 4 < 2 ^ 256) by (intro H; change (2 ^ 256) with (2 ^ 254 * 4); now apply N.mul_lt_mono_pos_r).
  split; [exists (of_val (val t / 4)); split; [now apply shr2|apply is_of; apply N.le_lt_trans with (val t); auto; apply div_le_self; discriminate]|].
  split; intro H; specialize (S4 H).
  - exists (of_val (val t * 4)). rewrite shl2, W256_pow, N.mod_small by auto. split; [reflexivity|now apply is_of].
  - rewrite max_thr, W256_pow, N.mod_small by auto. eexists. split; [reflexivity|]. apply is_of. lia.
Qed.
(** For larger targets, which regtest has, four times the target is taken modulo 2^256: the largest
    allowed threshold of a target can be zero. *)
Theorem C25_max_threshold_refuted : exists t, u256_ok t /\ value t <= value (p_max_attainable_target (params_new Regtest)) /\
  max_transition_threshold t (params_new Regtest) = Ret U_ZERO /\ value t <> 0.
Proof. exists (U (2 ^ 126) 0). repeat split; vm_compute; congruence. Qed.

(** Retargeting scales the old target by the time taken over the intended time, the time taken
    clamped to within a factor four, and caps it at the limit; the result is written in compact form.
    On every network but regtest, for all timestamps. *)
Theorem C25_retarget : forall n last timespan old, n <> Regtest ->
  from_compact last = Ret old -> value old <= value (p_max_attainable_target (params_new n)) ->
  exists next, is next (next_target (value old) timespan 1209600 (value (p_max_attainable_target (params_new n)))) /\
    from_next_work_required last timespan (params_new n) = to_compact_lossy next.
Proof.
  intros n last ts old NR E L. rewrite from_compact_val in E. assert (old = of_val (fval last)) as -> by congruence. rewrite !value_val, val_of in *.
  assert (H : p_no_pow_retargeting (params_new n) = false /\ wf (p_max_attainable_target (params_new n)) /\ p_pow_target_timespan (params_new n) = 1209600 /\
    val (p_max_attainable_target (params_new n)) * (p_pow_target_timespan (params_new n) * 4) < W256).
  { destruct n; try congruence; (split; [reflexivity|]; split; [split; vm_compute; reflexivity|]; split; vm_compute; reflexivity). }
  destruct H as (H1 & H2 & H3 & H4).
  destruct (retarget_val last ts (params_new n) H1 H2 ltac:(rewrite H3; discriminate) ltac:(rewrite H3; reflexivity) H4 L) as [R N].
  rewrite H3 in R, N. eexists. split; [|exact R]. apply is_of. rewrite <- W256_pow. exact N.
Qed.
(** The same for any network parameters whose limit is small enough for the product to fit. *)
Theorem C25_retarget_params : forall p last timespan old, p_no_pow_retargeting p = false ->
  u256_ok (p_max_attainable_target p) -> p_pow_target_timespan p <> 0 -> 4 * p_pow_target_timespan p < 2 ^ 32 ->
  value (p_max_attainable_target p) * (p_pow_target_timespan p * 4) < 2 ^ 256 ->
  from_compact last = Ret old -> value old <= value (p_max_attainable_target p) ->
  exists next, is next (next_target (value old) timespan (p_pow_target_timespan p) (value (p_max_attainable_target p))) /\
    from_next_work_required last timespan p = to_compact_lossy next.
Proof.
  intros p last ts old H1 H2 H3 H4 H5 E L. rewrite from_compact_val in E. assert (old = of_val (fval last)) as -> by congruence. rewrite !value_val, val_of in *. apply ok_wf in H2. rewrite <- W256_pow in H5.
  destruct (retarget_val last ts p H1 H2 H3 H4 H5 L) as [R N]. eexists. split; [|exact R]. apply is_of. rewrite <- W256_pow. exact N.
Qed.
(** Regtest never retargets. *)
Theorem C25_retarget_regtest : forall last timespan, from_next_work_required last timespan (params_new Regtest) = Ret last.
Proof. reflexivity. Qed.
(** The thresholds bound every retarget, once the lower one is itself written in compact form. *)
Theorem C25_bounds : forall n last timespan old lower upper, n <> Regtest ->
  from_compact last = Ret old -> value old <= value (p_max_attainable_target (params_new n)) ->
  min_transition_threshold old = Ret lower -> max_transition_threshold old (params_new n) = Ret upper ->
  exists c t lc lt, from_next_work_required last timespan (params_new n) = Ret c /\ from_compact c = Ret t /\
    to_compact_lossy lower = Ret lc /\ from_compact lc = Ret lt /\ value lt <= value t /\ value t <= value upper.
Proof.
  intros n last ts old lower upper NR E L LO UP. destruct (C25_retarget n last ts old NR E L) as (next & NX & R).
  assert (OK : u256_ok old) by (rewrite from_compact_val in E; assert (old = of_val (fval last)) as -> by congruence; apply ok_wf, wf_of, fval_lt).
  assert (OP : u256_ok (p_max_attainable_target (params_new n)) /\ value (p_max_attainable_target (params_new n)) < 2 ^ 254)
    by (destruct n; try congruence; (split; [split; vm_compute; reflexivity|vm_compute; reflexivity])).
  destruct OP as [OP P254]. destruct (C25_thresholds old (params_new n) OK OP) as (T1 & _ & T2). specialize (T2 (N.le_lt_trans _ _ _ L P254)).
  destruct T1 as (lower' & E1 & [O1 V1]). assert (lower' = lower) as -> by congruence. destruct T2 as (upper' & E2 & [O2 V2]). assert (upper' = upper) as -> by congruence.
  destruct NX as [ON VN]. rewrite R.
  destruct (signed_size_ex (value next) (ok_lt _ ON)) as [s SS]. destruct (signed_size_ex (value lower) (ok_lt _ O1)) as [sl SL].
  destruct (C23_encode next s ON SS) as (c & t & A1 & _ & _ & A2 & [_ A3]). destruct (C23_encode lower sl O1 SL) as (lc & lt & B1 & _ & _ & B2 & [_ B3]).
  exists c, t, lc, lt. split; [auto|]. split; [auto|]. split; [auto|]. split; [auto|]. rewrite A3, B3, V2.
  pose proof (clamped_le ts 1209600) as CL. pose proof (clamped_ge ts 1209600) as CG. change (1209600 / 4) with 302400 in CG. change (1209600 * 4) with 4838400 in CL.
  assert (LOW : value lower <= value next).
  { rewrite V1, VN. unfold next_target. apply N.min_glb; [|apply N.le_trans with (value old); auto; apply div_le_self; discriminate].
    apply N.div_le_lower_bound; [discriminate|]. apply N.le_trans with (value old * 302400); [|now apply N.mul_le_mono_l].
    change 1209600 with (302400 * 4). rewrite <- N.mul_assoc, (N.mul_comm (value old)). apply N.mul_le_mono_l. apply N.mul_div_le. discriminate. }
  split; [now apply leading3_mono|]. apply N.le_trans with (value next); [apply leading3_le|]. rewrite VN. unfold next_target.
  assert (HI : value old * clamped ts 1209600 / 1209600 <= value old * 4).
  { apply N.div_le_upper_bound; [discriminate|]. replace (1209600 * (value old * 4)) with (value old * 4838400) by ring. now apply N.mul_le_mono_l. }
  lia.
Qed.
(** Without that, not: the compact form of a retarget by the full factor can be below a quarter of
    the old target. *)
Theorem C25_min_threshold_refuted : exists last old lower c t, from_compact last = Ret old /\
  value old <= value (p_max_attainable_target (params_new Bitcoin)) /\ min_transition_threshold old = Ret lower /\
  from_next_work_required last 302400 (params_new Bitcoin) = Ret c /\ from_compact c = Ret t /\ value t < value lower.
Proof.
  exists 0x1b7fffff. eexists. eexists. exists 0x1b1fffff. eexists. split; [vm_compute; reflexivity|]. split; [vm_compute; congruence|].
  split; [vm_compute; reflexivity|]. split; [vm_compute; reflexivity|]. split; [vm_compute; reflexivity|]. vm_compute. reflexivity.
Qed.
Example C25_retarget_ex :
  from_next_work_required 0x1d00ffff 1217700 (params_new Bitcoin) = Ret 0x1d00ffff /\
  from_next_work_required 0x1b3cc366 (1262152739 - 1261130161) (params_new Bitcoin) = Ret 0x1b335e4d /\
  from_next_work_required 0x1b3cc366 (-5) (params_new Bitcoin) = Ret 0x1b0f30d9.
Proof. split; [|split]; vm_compute; reflexivity. Qed.

(** The adjustment from two headers takes their time difference, and the nBits of the last block, or
    of the first of the period where BIP 94 holds (testnet 4). *)
Theorem C25_from_headers : forall n first last,
  from_header_difficulty_adjustment first last (params_new n) =
  from_next_work_required (match n with Testnet4 => h_bits first | _ => h_bits last end)
    (Z.of_N (h_time last) - Z.of_N (h_time first)) (params_new n).
Proof. intros []; reflexivity. Qed.

(** The target after a block.  Heights whose successor is a multiple of 2016 retarget from the block
    2015 earlier; between them mainnet and signet keep nBits. *)
Theorem C25_next_retarget : forall E (get : N -> result header E) n current height new_time,
  (height + 1) mod 2016 = 0 -> height + 1 < 2 ^ 32 ->
  (forall e, get (height - 2015) = Err e -> next_target_after get current height (params_new n) new_time = Ret (Err e)) /\
  (forall first, get (height - 2015) = Ok first ->
    next_target_after get current height (params_new n) new_time =
    rbind (from_header_difficulty_adjustment first current (params_new n)) (fun c => Ret (Ok c))) /\ 2015 <= height.
Proof.
  intros E get n current height nt M L. assert (H15 : 2015 <= height).
  { apply N.nlt_ge. intro X. rewrite N.mod_small in M by lia. lia. }
  unfold next_target_after. assert (I : difficulty_adjustment_interval (params_new n) = Ret 2016) by (destruct n; reflexivity). rewrite I. cbn [rbind].
  unfold is_retarget_height, sat_add32. change U32M with (2 ^ 32). rewrite (proj2 (N.ltb_lt _ _) L). cbn [N.eqb Pos.eqb rbind]. rewrite M. cbn [N.eqb negb].
  change (2016 - 1) with 2015. unfold sat_sub32. rewrite (proj2 (N.leb_le _ _) H15).
  split; [intros e ->; reflexivity|]. split; [intros first ->; reflexivity|auto].
Qed.
Theorem C25_next_keep : forall E (get : N -> result header E) n current height new_time,
  n = Bitcoin \/ n = Signet -> (height + 1) mod 2016 <> 0 -> height + 1 < 2 ^ 32 ->
  next_target_after get current height (params_new n) new_time = Ret (Ok (h_bits current)).
Proof.
  intros E get n current height nt NN M L. apply N.eqb_neq in M.
  unfold next_target_after. assert (I : difficulty_adjustment_interval (params_new n) = Ret 2016) by (destruct n; reflexivity). rewrite I. cbn [rbind].
  unfold is_retarget_height, sat_add32. change U32M with (2 ^ 32). rewrite (proj2 (N.ltb_lt _ _) L). cbn [N.eqb Pos.eqb rbind]. rewrite M. cbn [negb].
  destruct NN as [-> | ->]; reflexivity.
Qed.
(** On the test networks a block more than twenty minutes late may use the limit; any other uses the
    nBits of the latest block not at the limit, looking back no further than the start of the
    period. *)
Theorem C25_next_min_difficulty : forall E (get : N -> result header E) n current height new_time,
  n = Testnet3 \/ n = Testnet4 \/ n = Regtest -> (height + 1) mod 2016 <> 0 -> height + 1 < 2 ^ 32 ->
  h_time current + 1200 < 2 ^ 32 ->
  exists limit, to_compact_lossy (p_max_attainable_target (params_new n)) = Ret limit /\
    (h_time current + 1200 < new_time -> next_target_after get current height (params_new n) (Some new_time) = Ret (Ok limit)) /\
    (new_time <= h_time current + 1200 ->
     exists r, next_target_after get current height (params_new n) (Some new_time) = Ret r /\
       last_real (fun k => if k =? height then Ok current else get k) 2016 limit height r).
Proof.
  intros E get n current height nt NN M L T. apply N.eqb_neq in M.
  assert (LM : exists limit, to_compact_lossy (p_max_attainable_target (params_new n)) = Ret limit) by (destruct NN as [-> |[-> | ->]]; eexists; vm_compute; reflexivity).
  destruct LM as [limit LM]. exists limit. split; [auto|].
  assert (NT : next_target_after get current height (params_new n) (Some nt) =
    if h_time current + 1200 <? nt then Ret (Ok limit) else walk_back get (S (N.to_nat height)) current height 2016 limit).
  { unfold next_target_after. assert (I : difficulty_adjustment_interval (params_new n) = Ret 2016) by (destruct n; reflexivity). rewrite I. cbn [rbind].
    unfold is_retarget_height at 1. unfold sat_add32. change U32M with (2 ^ 32). rewrite (proj2 (N.ltb_lt _ _) L). cbn [N.eqb Pos.eqb rbind]. rewrite M. cbn [negb].
    assert (A : p_allow_min_difficulty_blocks (params_new n) = true) by (destruct NN as [-> |[-> | ->]]; reflexivity). rewrite A.
    rewrite LM. cbn [rbind]. assert (SP : p_pow_target_spacing (params_new n) * 2 = 1200) by (destruct n; reflexivity). rewrite SP.
    change (2 ^ 32 <=? 1200) with false. cbn iota. rewrite (proj2 (N.leb_gt _ _) T). reflexivity. }
  rewrite NT. split; intro H.
  - now rewrite (proj2 (N.ltb_lt _ _) H).
  - rewrite (proj2 (N.ltb_ge _ _) H). apply walk_back_spec; [discriminate|lia|lia].
Qed.
(** Documented: without a time for the new block the test networks panic. *)
Theorem C25_next_no_time : forall E (get : N -> result header E) n current height,
  n = Testnet3 \/ n = Testnet4 \/ n = Regtest -> (height + 1) mod 2016 <> 0 -> height + 1 < 2 ^ 32 ->
  next_target_after get current height (params_new n) None = Panic.
Proof.
  intros E get n current height NN M L. apply N.eqb_neq in M.
  unfold next_target_after. assert (I : difficulty_adjustment_interval (params_new n) = Ret 2016) by (destruct n; reflexivity). rewrite I. cbn [rbind].
  unfold is_retarget_height, sat_add32. change U32M with (2 ^ 32). rewrite (proj2 (N.ltb_lt _ _) L). cbn [N.eqb Pos.eqb rbind]. rewrite M. cbn [negb].
  destruct NN as [-> |[-> | ->]]; reflexivity.
Qed.
(** Not documented: a header with a time within twenty minutes of the end of the u32 range also makes
    it panic, whatever the time of the new block. *)
Theorem C25_next_time_refuted : exists current, header_ok current /\
  forall E (get : N -> result header E) new_time, next_target_after get current 5 (params_new Testnet3) (Some new_time) = Panic.
Proof.
  exists {| h_version := 1; h_prev := repeat 0 32; h_merkle := repeat 0 32; h_time := 4294967000; h_bits := 0x1d00ffff; h_nonce := 0 |}.
  split; [|reflexivity].
  assert (Z : bytes_ok (repeat 0 32)) by (apply Forall_forall; intros x X; apply repeat_spec in X; now subst).
  repeat split; cbn; auto; reflexivity.
Qed.
Example C25_next_ex : let h k := {| h_version := 1; h_prev := repeat 1 32; h_merkle := repeat 0 32; h_time := 1296690000 + k; h_bits := if k <? 5000 then 0x1c00ffff else 0x1d00ffff; h_nonce := 0 |} in
  next_target_after (fun k => Ok (h k) : result header unit) (h 5020) 5020 (params_new Testnet3) (Some 1296690000) = Ret (Ok 0x1c00ffff).
Proof. vm_compute. reflexivity. Qed.
Print Assumptions C23_decode.
Print Assumptions C23_decode_small.
Print Assumptions C23_decode_refuted.
Print Assumptions C23_encode.
Print Assumptions C23_encode_precision.
Print Assumptions C23_canonical.
Print Assumptions C23_limits.
Print Assumptions C24_work.
Print Assumptions C24_work_zero.
Print Assumptions C24_work_refuted.
Print Assumptions C24_antitone.
Print Assumptions C24_to_target.
Print Assumptions C24_round_trip.
Print Assumptions C24_total.
Print Assumptions C24_sub.
Print Assumptions C25_is_met_by.
Print Assumptions C25_validate.
Print Assumptions C25_header_work.
Print Assumptions C25_difficulty.
Print Assumptions C25_thresholds.
Print Assumptions C25_max_threshold_refuted.
Print Assumptions C25_retarget.
Print Assumptions C25_retarget_params.
Print Assumptions C25_retarget_regtest.
Print Assumptions C25_bounds.
Print Assumptions C25_min_threshold_refuted.
Print Assumptions C25_from_headers.
Print Assumptions C25_next_retarget.
Print Assumptions C25_next_keep.
Print Assumptions C25_next_min_difficulty.
Print Assumptions C25_next_no_time.
Print Assumptions C25_next_time_refuted.
