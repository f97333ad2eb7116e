(** Lemmas for the floating point difficulty. *)
From Verif Require Import Base LDec MU256 SU256 LU256 LU256F LU256P MPow LPow MFloat SFloat LFloat MDiff SDiff.
Local Open Scope N_scope.

Definition fval (p : N * N) : N := fst p * 2 ^ snd p.
Lemma offs_away : forall num den m s, away num den m s = offs (num * UNITS) den m s.
Proof. reflexivity. Qed.

(** ** The rounding depends on the ratio only, and keeps the order *)
Lemma pair_dec : forall a b : N * N, a = b \/ a <> b.
Proof. intros [a b] [c d]. destruct (N.eq_dec a c), (N.eq_dec b d); subst; auto; right; congruence. Qed.
Lemma rfin_mono : forall n d n' d', 0 < d -> 0 < d' -> n * d' <= n' * d -> fval (rfin n d) <= fval (rfin n' d').
Proof.
  intros n d n' d' P P' L. destruct (rfin n d) as [m s] eqn:R. destruct (rfin n' d') as [m' s'] eqn:R'. unfold fval. cbn [fst snd].
  destruct (N.le_gt_cases (m * 2 ^ s) (m' * 2 ^ s')) as [G|G]; [exact G|]. exfalso.
  pose proof (rfin_norm n d P) as N1. rewrite R in N1. pose proof (rfin_norm n' d' P') as N2. rewrite R' in N2.
  assert (NE : (m, s) <> (m', s')) by (intro E; injection E as -> ->; lia).
  pose proof (strong n d m s m' s' P R N2 (not_eq_sym NE)) as S1. pose proof (strong n' d' m' s' m s P' R' N1 NE) as S2. unfold offs in *.
  set (a := m * 2 ^ s) in *. set (b := m' * 2 ^ s') in *. clearbody a b. clear R R' N1 N2.
  assert (Q1 : (2 * Z.of_N n >= Z.of_N ((a + b) * d))%Z).
  { assert (b * d < a * d) by (apply N.mul_lt_mono_pos_r; auto). rewrite N.mul_add_distr_r. destruct S1 as [S1|[S1 _]]; lia. }
  assert (Q2 : (2 * Z.of_N n' <= Z.of_N ((a + b) * d'))%Z).
  { assert (b * d' < a * d') by (apply N.mul_lt_mono_pos_r; auto). rewrite N.mul_add_distr_r. destruct S2 as [S2|[S2 _]]; lia. }
  assert (E1 : 2 * (n * d') >= (a + b) * d * d') by nia. assert (E2 : 2 * (n' * d) <= (a + b) * d * d') by nia.
  assert (T1 : 2 * n = (a + b) * d) by nia. assert (T2 : 2 * n' = (a + b) * d') by nia.
  rewrite N.mul_add_distr_r in T1, T2. destruct S1 as [S1|(_ & S1 & S1')], S2 as [S2|(_ & S2 & S2')]; try congruence; lia.
Qed.
Lemma fval_inj : forall n d n' d', 0 < d -> 0 < d' -> fval (rfin n d) = fval (rfin n' d') -> rfin n d = rfin n' d'.
Proof.
  intros n d n' d' P P' E. pose proof (rfin_norm n d P) as N1. pose proof (rfin_norm n' d' P') as N2.
  destruct (rfin n d) as [m s], (rfin n' d') as [m' s']. unfold fval in E. cbn [fst snd] in E. destruct (norm_inj _ _ _ _ N1 N2 E). congruence.
Qed.
Lemma rfin_ratio : forall n d n' d', 0 < d -> 0 < d' -> n * d' = n' * d -> rfin n d = rfin n' d'.
Proof.
  intros n d n' d' P P' E. apply fval_inj; auto. apply N.le_antisymm; apply rfin_mono; auto; lia.
Qed.
(** what is an f64 already is not changed *)
Lemma rfin_self : forall m s den, 0 < den -> norm m s -> rfin (m * 2 ^ s * den) den = (m, s).
Proof.
  intros m s den P NM. destruct (rfin (m * 2 ^ s * den) den) as [m' s'] eqn:R. destruct (pair_dec (m', s') (m, s)) as [E|E]; [exact E|]. exfalso.
  destruct (strong _ _ _ _ m s P R NM (not_eq_sym E)) as [X|(X & X2 & X3)]; unfold offs in X; [lia|].
  pose proof (rfin_norm (m * 2 ^ s * den) den P) as NR. rewrite R in NR. apply E. assert (V : m' * 2 ^ s' * den = m * 2 ^ s * den) by lia.
  apply N.mul_cancel_r in V; [|lia]. destruct (norm_inj _ _ _ _ NR NM V). congruence.
Qed.
(** the relative error of one rounding, away from the subnormal numbers *)
Lemma rfin_close : forall n den, 0 < den -> HALF_MANT * den <= n ->
  (Z.of_N MANT * Z.abs (Z.of_N n - Z.of_N (fval (rfin n den) * den)) <= Z.of_N n)%Z.
Proof.
  intros n den P L. pose proof (rfin_val n den) as V. unfold fval. destruct (rfin n den) as [m s]. cbn [fst snd]. rewrite V.
  destruct (r_split n den P) as [SP RL]. pose proof (rm_spec n den) as M. cbv zeta in M.
  replace (rm n den * 2 ^ rs n den * den) with (rm n den * (den * 2 ^ rs n den)) by lia.
  assert (Q : HALF_MANT <= rq n den).
  { destruct (rq_range n den P) as [_ [Z0|Q]]; [|exact Q]. unfold rq. rewrite Z0, N.pow_0_r, N.mul_1_r. apply N.div_le_lower_bound; lia. }
  set (D := den * 2 ^ rs n den) in *. set (q := rq n den) in *. set (r := rr n den) in *. clearbody D q r.
  assert (X : HALF_MANT * D <= n) by nia. assert (QD : (q + 1) * D = q * D + D) by lia. unfold MANT, HALF_MANT in *. destruct M as [(-> & T & _)|(-> & T & _)]; lia.
Qed.
(** numbers of at most 53 significant bits are f64 *)
Lemma rfin_short : forall v, short v -> fval (rfin (v * UNITS) 1) = v * UNITS.
Proof.
  intros v (w & z & -> & W). destruct (N.eq_dec w 0) as [->|NZ]; [reflexivity|].
  pose proof (rfin_val (w * 2 ^ z * UNITS) 1) as V. unfold fval. destruct (rfin _ 1) as [m s]. cbn [fst snd]. rewrite V. clear V m s.
  set (n := w * 2 ^ z * UNITS) in *. assert (EN : n = w * 2 ^ (z + 1074)) by (unfold n, UNITS; rewrite N.pow_add_r; lia).
  assert (P : 0 < 1) by lia. destruct (r_split n 1 P) as [SP RL]. pose proof (rm_spec n 1) as M. cbv zeta in M. rewrite N.mul_1_l in *.
  assert (RS : rs n 1 <= z + 1074).
  { unfold rs. rewrite N.div_1_r, EN, N.log2_mul_pow2 by lia. assert (N.log2 w < 53) by (apply N.log2_lt_pow2; lia). lia. }
  assert (R0 : rr n 1 = 0).
  { unfold rr. rewrite N.mul_1_l. clear -EN RS. revert RS. generalize (rs n 1). intros e RS. rewrite EN, (pow2_split _ _ RS), N.mul_assoc. apply N.mod_mul. pose proof (pow2_pos e). lia. }
  rewrite R0 in *. pose proof (pow2_pos (rs n 1)). rewrite SP at 3. destruct M as [(-> & _)|(_ & X & _)]; lia.
Qed.

(** ** The f64 of a number below 2^256 *)
Lemma of_bits_units : forall b, f64_finite b -> exists m s, f64_of_bits b = Fin false m s /\ norm m s /\ f64_units b = m * 2 ^ s /\ N.even m = N.even b.
Proof.
  intros b F. unfold f64_finite in F. unfold f64_of_bits, f64_units. cbv zeta.
  assert (TB : N.testbit b 63 = false). { destruct (N.eq_dec b 0) as [->|NZ]; [apply N.bits_0|]. apply N.bits_above_log2. apply N.log2_lt_pow2; [lia|]. change (2 ^ 63) with (2048 * 2 ^ 52). lia. }
  rewrite TB. assert (E : b / 2 ^ 52 < 2047) by (apply N.div_lt_upper_bound; lia). change (2 ^ 11) with 2048. rewrite (N.mod_small (b / 2 ^ 52)) by lia.
  assert (EV : N.even (b mod 2 ^ 52) = N.even b).
  { rewrite (N.div_mod' b (2 ^ 52)) at 2. rewrite N.even_add, N.even_mul. change (N.even (2 ^ 52)) with true. cbn [orb]. now destruct (N.even (b mod 2 ^ 52)). }
  pose proof (N.mod_lt b (2 ^ 52)) as ML. specialize (ML ltac:(discriminate)). destruct (N.eqb_spec (b / 2 ^ 52) 2047); [lia|].
  set (f := b mod 2 ^ 52) in *. set (e := b / 2 ^ 52) in *. clearbody e f. change (2 ^ 52) with 4503599627370496 in *.
  destruct (N.eqb_spec e 0) as [->|NZ]; eexists; eexists; (split; [reflexivity|]); unfold norm, MANT, HALF_MANT.
  - split; [lia|]. split; [rewrite N.pow_0_r; lia|exact EV].
  - split; [lia|]. split; [reflexivity|]. rewrite N.even_add, EV. now destruct (N.even b).
Qed.
Lemma norm_bits : forall m s, double m s -> exists b, f64_finite b /\ f64_units b = m * 2 ^ s.
Proof.
  intros m s (M & S & H). unfold f64_finite, f64_units. cbv zeta. change (2 ^ 53) with 9007199254740992 in *. change (2 ^ 52) with 4503599627370496 in *.
  destruct (N.lt_ge_cases m 4503599627370496) as [L|L].
  - destruct H as [->|H]; [|lia]. exists m. split; [lia|]. rewrite N.div_small, N.mod_small by auto. cbn [N.eqb]. now rewrite N.pow_0_r, N.mul_1_r.
  - exists ((s + 1) * 4503599627370496 + (m - 4503599627370496)). split; [lia|].
    rewrite N.add_comm, N.div_add, N.mod_add, N.div_small, N.mod_small by lia. rewrite N.add_0_l. destruct (N.eqb_spec (s + 1) 0); [lia|]. rewrite N.add_sub. f_equal. lia.
Qed.
Lemma to_f64_rfin : forall a, wf a -> exists m s, u256_to_f64 a = Ret (Fin false m s) /\ rfin (val a * UNITS) 1 = (m, s).
Proof.
  intros a W. destruct (to_f64_nearest a W) as (b & E & F & H). unfold u256_to_f64. rewrite E. cbn [rbind].
  destruct (of_bits_units b F) as (m & s & -> & NM & U & EV). exists m, s. split; [reflexivity|].
  destruct (rfin (val a * UNITS) 1) as [m' s'] eqn:R. destruct (pair_dec (m', s') (m, s)) as [X|X]; [exact X|]. exfalso.
  assert (P : 0 < 1) by lia. pose proof (rfin_norm (val a * UNITS) 1 P) as NR. rewrite R in NR.
  assert (FN : s' <= 2045).
  { apply (rfin_finite _ _ _ _ (2 ^ 2044 * 1) P eq_refl) in R; [exact R|]. assert (val a * UNITS < W256 * UNITS) by (apply N.mul_lt_mono_pos_r; [apply pow2_pos|now apply val_lt]).
    apply (N.lt_le_trans _ _ _ H0). apply N.leb_le. vm_compute. reflexivity. }
  assert (D' : double m' s') by now apply double_norm.
  destruct (norm_bits m' s' D') as (b' & F' & U'). destruct (H b') as [H1 H2]. unfold distance in *. rewrite U, U' in *.
  destruct (strong _ _ _ _ m s P R NM (not_eq_sym X)) as [Y|(Y & Y2 & Y3)]; unfold offs in Y; rewrite !N.mul_1_r in Y; fold UNITS in *.
  - lia.
  - assert (NB : b' <> b). { intros ->. rewrite U in U'. destruct (norm_inj _ _ _ _ NM NR U'). apply X. congruence. }
    rewrite H2 in EV; [congruence|lia|exact NB].
Qed.

(** ** The quotient *)
Definition fl (v : N) : N := fval (rfin (v * UNITS) 1).
Lemma fl_mono : forall v w, v <= w -> fl v <= fl w.
Proof. intros v w L. apply rfin_mono; try lia. rewrite !N.mul_1_r. now apply N.mul_le_mono_r. Qed.
Lemma fl_short : forall v, short v -> fl v = v * UNITS.
Proof. exact rfin_short. Qed.
Lemma fl_bounds : forall v, 0 < v -> v < W256 -> UNITS <= fl v /\ fl v <= 2 ^ 256 * UNITS.
Proof.
  intros v P L. split.
  - rewrite <- (N.mul_1_l UNITS). rewrite <- fl_short; [apply fl_mono; lia|]. exists 1, 0. split; reflexivity.
  - rewrite <- fl_short; [apply fl_mono; rewrite W256_pow in L; lia|]. exists 1, 256. split; reflexivity.
Qed.
Lemma UNITS_pos : 0 < UNITS. Proof. apply pow2_pos. Qed.
Lemma fl_close : forall v, 0 < v -> (Z.of_N MANT * Z.abs (Z.of_N (v * UNITS) - Z.of_N (fl v)) <= Z.of_N (v * UNITS))%Z.
Proof.
  intros v P. pose proof (rfin_close (v * UNITS) 1) as H. rewrite !N.mul_1_r in H. apply H; [lia|].
  apply (N.le_trans _ (1 * UNITS)); [apply N.leb_le; vm_compute; reflexivity|]. apply N.mul_le_mono_r. lia.
Qed.
Definition quotient (v w : N) : N * N := rfin (fl v * UNITS) (fl w).
Lemma difficulty_eq : forall t max, wf t -> wf max -> val t <> 0 -> exists m s,
  difficulty_float_with_max t max = Ret (Fin false m s) /\ double m s /\ quotient (val max) (val t) = (m, s).
Proof.
  intros t max W WM NZ. unfold difficulty_float_with_max. cbv zeta. rewrite !to_inner_id by auto.
  rewrite zero_of, eqb_val by (auto; apply wf_of; reflexivity). rewrite val_of. destruct (N.eqb_spec (val t) 0); [contradiction|].
  destruct (to_f64_rfin max WM) as (m & s & -> & R). destruct (to_f64_rfin t W) as (m' & s' & -> & R'). cbn [rbind f64_div].
  assert (EA : fl (val max) = m * 2 ^ s) by (unfold fl; rewrite R; reflexivity). assert (EB : fl (val t) = m' * 2 ^ s') by (unfold fl; rewrite R'; reflexivity).
  assert (B : UNITS <= fl (val t)) by (apply fl_bounds; [lia|now apply val_lt]). pose proof UNITS_pos as UP.
  destruct (N.eqb_spec m' 0) as [->|NM]; [rewrite EB in B; lia|]. rewrite round_eq, <- EA, <- EB. fold (quotient (val max) (val t)).
  assert (F : snd (quotient (val max) (val t)) <= 2045).
  { unfold quotient. destruct (rfin (fl (val max) * UNITS) (fl (val t))) as [a b] eqn:Q. cbn [snd].
    apply (rfin_finite _ _ _ _ (2 ^ 2044 * fl (val t))) in Q; auto; [lia|].
    assert (A : fl (val max) <= 2 ^ 256 * UNITS).
    { destruct (N.eq_dec (val max) 0) as [->|]; [apply N.leb_le; vm_compute; reflexivity|]. apply fl_bounds; [lia|now apply val_lt]. }
    apply (N.le_lt_trans _ (2 ^ 256 * UNITS * UNITS)); [now apply N.mul_le_mono_r|].
    apply (N.lt_le_trans _ (18014398509481983 * (2 ^ 2044 * UNITS))); [apply N.ltb_lt; vm_compute; reflexivity|].
    apply N.mul_le_mono_l, N.mul_le_mono_l. exact B. }
  assert (NR : let '(a, b) := quotient (val max) (val t) in norm a b) by (apply rfin_norm; lia).
  destruct (quotient (val max) (val t)) as [a b]. cbn [snd] in F. destruct (N.ltb_spec 2045 b); [lia|].
  exists a, b. split; [reflexivity|]. split; [now apply double_norm|reflexivity].
Qed.
Lemma quotient_close : forall v w, 0 < w -> v < W256 -> w < W256 ->
  (Z.of_N (2 ^ 51) * Z.abs (Z.of_N (fval (quotient v w) * w) - Z.of_N (v * UNITS)) <= Z.of_N (v * UNITS))%Z.
Proof.
  intros v w PW LV LW. destruct (N.eq_dec v 0) as [->|NZ].
  { unfold quotient. change (fl 0) with 0. rewrite !N.mul_0_l. rewrite (rfin_ratio 0 (fl w) 0 1); [reflexivity| |lia|reflexivity].
    pose proof UNITS_pos. destruct (fl_bounds w PW LW). lia. }
  assert (PV : 0 < v) by lia. pose proof (fl_close v PV) as CV. pose proof (fl_close w PW) as CW.
  destruct (fl_bounds v PV LV) as [V1 V2]. destruct (fl_bounds w PW LW) as [W1 W2]. pose proof UNITS_pos as UP.
  assert (CQ : (Z.of_N MANT * Z.abs (Z.of_N (fl v * UNITS) - Z.of_N (fval (quotient v w) * fl w)) <= Z.of_N (fl v * UNITS))%Z).
  { apply rfin_close; [lia|]. apply (N.le_trans _ (HALF_MANT * (2 ^ 256 * UNITS))); [now apply N.mul_le_mono_l|].
    apply (N.le_trans _ (UNITS * UNITS)); [apply N.leb_le; vm_compute; reflexivity|now apply N.mul_le_mono_r]. }
  set (d := fval (quotient v w)) in *. set (A := fl v) in *. set (B := fl w) in *. clearbody d A B. clear LV LW V2 W2 NZ.
  change (2 ^ 51) with 2251799813685248. unfold MANT in *. set (U := UNITS) in *. clearbody U.
  rewrite !N2Z.inj_mul in *. assert (0 < Z.of_N U)%Z by lia. assert (0 < Z.of_N w)%Z by lia. assert (0 < Z.of_N v)%Z by lia. assert (0 <= Z.of_N d)%Z by lia.
  assert (0 < Z.of_N A)%Z by lia. assert (0 < Z.of_N B)%Z by lia. clear UP V1 W1 PW PV.
  generalize dependent (Z.of_N U). generalize dependent (Z.of_N d). generalize dependent (Z.of_N A). generalize dependent (Z.of_N B).
  generalize dependent (Z.of_N v). generalize dependent (Z.of_N w). clear. intros w W v V B HB A HA d HD U HU CV CW CQ.
  assert (AL : (9007199254740991 * (v * U) <= 9007199254740992 * A)%Z) by lia. assert (AH : (9007199254740992 * A <= 9007199254740993 * (v * U))%Z) by lia.
  assert (BL : (9007199254740991 * (w * U) <= 9007199254740992 * B)%Z) by lia. assert (BH : (9007199254740992 * B <= 9007199254740993 * (w * U))%Z) by lia.
  assert (QL : (9007199254740991 * (A * U) <= 9007199254740992 * (d * B))%Z) by lia. assert (QH : (9007199254740992 * (d * B) <= 9007199254740993 * (A * U))%Z) by lia.
  clear CV CW CQ.
  assert (H1 : (9007199254740991 * 9007199254740992 * (d * w) <= 9007199254740993 * 9007199254740993 * (v * U))%Z).
  { apply (Z.mul_le_mono_pos_r _ _ U); [lia|].
    assert (X1 : (9007199254740991 * (d * (w * U)) <= 9007199254740992 * (d * B))%Z) by nia.
    assert (X2 : (9007199254740992 * (A * U) <= 9007199254740993 * (v * U) * U)%Z) by nia. nia. }
  assert (H2 : (9007199254740991 * 9007199254740991 * (v * U) <= 9007199254740992 * 9007199254740993 * (d * w))%Z).
  { apply (Z.mul_le_mono_pos_r _ _ U); [lia|].
    assert (X1 : (9007199254740992 * (d * B) <= 9007199254740993 * (d * (w * U)))%Z) by nia.
    assert (X2 : (9007199254740991 * (v * U) * U <= 9007199254740992 * (A * U))%Z) by nia. nia. }
  generalize dependent (d * w)%Z. generalize dependent (v * U)%Z. clear. intros. lia.
Qed.
Lemma quotient_mono : forall v w v' w', 0 < w -> 0 < w' -> w < W256 -> w' < W256 -> v <= v' -> w' <= w ->
  fval (quotient v w) <= fval (quotient v' w').
Proof.
  intros v w v' w' P P' L L' A B. pose proof UNITS_pos. destruct (fl_bounds w P L). destruct (fl_bounds w' P' L').
  apply rfin_mono; [lia|lia|]. replace (fl v * UNITS * fl w') with (fl v * fl w' * UNITS) by lia. replace (fl v' * UNITS * fl w) with (fl v' * fl w * UNITS) by lia.
  apply N.mul_le_mono_r, N.mul_le_mono; apply fl_mono; auto.
Qed.
