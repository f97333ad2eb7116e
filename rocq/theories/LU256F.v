(** U256 to double: round to nearest, ties to even. *)
From Verif Require Import Base MText SText MU256 SU256 LU256.
Local Open Scope N_scope.

Definition P52 : N := 2 ^ 52.
Lemma units_parts : forall e f, f < P52 -> f64_units ((e + 1) * P52 + f) = (P52 + f) * 2 ^ e.
Proof.
  intros e f F. unfold f64_units. fold P52. destruct (divmod_unique P52 (e + 1) f F) as [-> ->]. cbv zeta.
  destruct (N.eqb_spec (e + 1) 0); [lia|]. now rewrite N.add_sub.
Qed.
Lemma units_top : forall e, f64_units ((e + 1) * P52 + P52) = (P52 + P52) * 2 ^ e.
Proof.
  intro e. replace ((e + 1) * P52 + P52) with ((e + 1 + 1) * P52 + 0) by ring. rewrite units_parts by reflexivity.
  rewrite N.add_1_r, N.pow_succ_r', N.add_0_r. ring.
Qed.
Lemma units_le : forall e f, f <= P52 -> f64_units ((e + 1) * P52 + f) = (P52 + f) * 2 ^ e.
Proof.
  intros e f F. apply N.lt_eq_cases in F as [F| ->]; [now apply units_parts|apply units_top].
Qed.
Lemma units_sub : forall f, f <= P52 -> f64_units f = f.
Proof.
  intros f F. apply N.lt_eq_cases in F as [F| ->].
  - unfold f64_units. fold P52. rewrite (N.div_small f) by auto. cbv zeta. change (0 =? 0) with true. cbv iota. now apply N.mod_small.
  - replace P52 with ((0 + 1) * P52 + 0) at 1 by ring. rewrite units_parts by reflexivity. rewrite N.pow_0_r. ring.
Qed.
Lemma units_succ : forall b, f64_units b < f64_units (b + 1).
Proof.
  intro b. assert (NZ : P52 <> 0) by discriminate. destruct (euclid b P52 NZ) as (e & f & E & F & _ & _). subst b.
  destruct (N.eq_dec e 0) as [-> | NE].
  - rewrite N.mul_0_r, N.add_0_l. rewrite !units_sub by lia. lia.
  - replace (P52 * e + f) with ((e - 1 + 1) * P52 + f) by (rewrite N.sub_add by lia; ring).
    rewrite <- N.add_assoc. rewrite !units_le by lia. apply N.mul_lt_mono_pos_r; [|lia]. pose proof (pow2_nz (e - 1)). lia.
Qed.
Lemma units_mono : forall a b, a <= b -> f64_units a <= f64_units b.
Proof.
  intros a b H. replace b with (a + (b - a)) by lia. generalize (b - a). intro k. induction k using N.peano_ind.
  - rewrite N.add_0_r. lia.
  - pose proof (units_succ (a + k)). replace (a + N.succ k) with (a + k + 1) by lia. lia.
Qed.
Lemma nearest : forall b0 x r (m0 : N), f64_units b0 <= x -> x < f64_units (b0 + 1) ->
  (r = 0 -> x - f64_units b0 < f64_units (b0 + 1) - x \/ (x - f64_units b0 = f64_units (b0 + 1) - x /\ N.even b0 = true)) ->
  (r = 1 -> f64_units (b0 + 1) - x < x - f64_units b0 \/ (x - f64_units b0 = f64_units (b0 + 1) - x /\ N.even b0 = false)) ->
  r <= 1 ->
  forall b', (distance (f64_units (b0 + r)) x <= distance (f64_units b') x)%Z /\
    (distance (f64_units (b0 + r)) x = distance (f64_units b') x -> b' <> b0 + r -> N.even (b0 + r) = true).
Proof.
  intros b0 x r m0 LO HI R0 R1 RB b'. unfold distance.
  assert (r = 0 \/ r = 1) as [-> | ->] by lia.
  - rewrite N.add_0_r. specialize (R0 eq_refl). destruct (N.le_gt_cases b' b0) as [L|L].
    + pose proof (units_mono _ _ L). split; [lia|]. intros E NE. exfalso.
      assert (L2 : b' + 1 <= b0) by lia. pose proof (units_mono _ _ L2). pose proof (units_succ b'). lia.
    + assert (L2 : b0 + 1 <= b') by lia. pose proof (units_mono _ _ L2). split; [lia|]. intros E _. destruct R0 as [R0|[_ R0]]; auto. exfalso. lia.
  - specialize (R1 eq_refl). destruct (N.le_gt_cases b' b0) as [L|L].
    + pose proof (units_mono _ _ L). split; [lia|]. intros E _. rewrite N.add_1_r, N.even_succ, <- N.negb_even. destruct R1 as [R1|[_ ->]]; auto. exfalso. lia.
    + assert (L2 : b0 + 1 <= b') by lia. pose proof (units_mono _ _ L2). split; [lia|]. intros E NE. exfalso.
      assert (L3 : b0 + 1 + 1 <= b') by lia. pose proof (units_mono _ _ L3). pose proof (units_succ (b0 + 1)). lia.
Qed.

(** the rounding step *)
Definition P75 : N := 2 ^ 75.
Definition P127 : N := 2 ^ 127.
Definition P202 : N := 2 ^ 202.
Definition P203 : N := 2 ^ 203.
Lemma P203_128 : P203 = P75 * W128. Proof. reflexivity. Qed.
Lemma lor_disjoint_high : forall a b, a < W128 -> b < P75 ->
  (N.lor a b / P127 = a / P127) /\ N.lor a b < W128 /\ (P127 <= N.lor a b <-> P127 <= a) /\ (N.lor a b = P127 <-> a = P127 /\ b = 0).
Proof.
  intros a b A B. assert (B2 : b < P127) by (apply N.lt_trans with P75; auto; reflexivity).
  assert (D : N.lor a b / P127 = a / P127).
  { unfold P127 in *. rewrite <- !N.shiftr_div_pow2, N.shiftr_lor, (N.shiftr_div_pow2 b), (N.div_small b), N.lor_0_r by auto. reflexivity. }
  assert (PZ : P127 <> 0) by discriminate.
  assert (LW : N.lor a b < W128).
  { rewrite W128_pow. destruct (N.eq_dec (N.lor a b) 0) as [-> |NZ]; [reflexivity|]. apply N.log2_lt_pow2; [lia|]. rewrite N.log2_lor.
    apply N.max_lub_lt.
    - destruct (N.eq_dec a 0) as [-> |]; [reflexivity|]. apply N.log2_lt_pow2; [lia|]. rewrite <- W128_pow. auto.
    - destruct (N.eq_dec b 0) as [-> |]; [reflexivity|]. apply N.log2_lt_pow2; [lia|]. apply N.lt_trans with P75; auto. reflexivity. }
  assert (GE : forall x, P127 <= x <-> 0 < x / P127).
  { intro x. pose proof (div_pos_iff x P127 PZ) as Q. destruct (N.ltb_spec 0 (x / P127)), (N.leb_spec P127 x); try discriminate; split; intros; lia. }
  split; auto. split; auto. split; [rewrite !GE, D; reflexivity|]. split.
  - intro E. assert (GA : 0 < a / P127) by (rewrite <- D, E; reflexivity). apply GE in GA.
    assert (b = 0).
    { apply N.bits_inj_0. intro n. assert (N.testbit (N.lor a b) n = N.testbit P127 n) as T by now rewrite E. rewrite N.lor_spec in T.
      destruct (N.testbit b n) eqn:TB; auto. rewrite orb_true_r in T. unfold P127 in T. symmetry in T.
      destruct (N.eq_dec n 127) as [-> | NE]; [|rewrite N.pow2_bits_false in T by auto; discriminate].
      destruct (N.eq_dec b 0) as [-> | NB]; [rewrite N.bits_0 in TB; discriminate|].
      rewrite N.bits_above_log2 in TB; [discriminate|]. apply N.log2_lt_pow2; [lia|]. exact B2. }
    subst b. rewrite N.lor_0_r in E. auto.
  - intros [-> ->]. apply N.lor_0_r.
Qed.
Lemma not_bit0 : forall m, m < W128 -> N.land 1 (not128 m) = if N.even m then 1 else 0.
Proof.
  intros m M. rewrite N.land_comm. change 1 with (N.ones 1) at 1. rewrite N.land_ones. change (2 ^ 1) with 2. unfold not128.
  assert (W128 = 2 * 2 ^ 127) as E by reflexivity. rewrite E in *. generalize dependent (2 ^ 127). intros w M _.
  destruct (N.even m) eqn:EV.
  - apply N.even_spec in EV as [k ->]. symmetry. apply N.mod_unique with (w - 1 - k); lia.
  - assert (OD : N.odd m = true) by (rewrite <- N.negb_even, EV; reflexivity). apply N.odd_spec in OD as [k ->].
    symmetry. apply N.mod_unique with (w - 1 - k); lia.
Qed.
Definition rnd (m0 rem : N) : N := if (P202 <? rem) || ((rem =? P202) && negb (N.even m0)) then 1 else 0.
Lemma of_val_hi : forall v, hi (of_val v) = v / W128. Proof. reflexivity. Qed.
Lemma of_val_lo : forall v, lo (of_val v) = v mod W128. Proof. reflexivity. Qed.
Lemma dropped_round : forall m0 rem, m0 < W128 -> rem < P203 ->
  let d := N.lor (rem / P75) (rem mod P75) in
  let s := N.land (shr128 d 127) (not128 m0) in
  d <? s = false /\ shr128 (d - s) 127 = rnd m0 rem.
Proof.
  intros m0 rem M R. cbv zeta. assert (Z75 : P75 <> 0) by discriminate. destruct (euclid rem P75 Z75) as (q & t & E & T & EQ & ER).
  rewrite EQ, ER. assert (QL : q < W128) by (apply (digit_bound P75 q t W128 P203); [rewrite P203_128; ring|subst; auto|auto]).
  destruct (lor_disjoint_high q t QL T) as (DD & DL & DG & DE). set (d := N.lor q t) in *.
  unfold shr128. fold P127. assert (P202E : P202 = P75 * P127) by reflexivity.
  assert (WE : W128 = P127 + P127) by reflexivity. assert (PZ : P127 <> 0) by discriminate.
  unfold rnd. destruct (N.le_gt_cases P127 q) as [G|G].
  - assert (GD : P127 <= d) by (apply DG; auto). assert (D1 : d / P127 = 1) by (symmetry; apply N.div_unique with (d - P127); lia).
    rewrite D1. rewrite not_bit0 by auto. split.
    { apply N.ltb_ge. apply N.le_trans with 1; [destruct (N.even m0); lia|apply N.le_trans with P127; auto; discriminate]. }
    destruct (N.even m0) eqn:EV; cbn [negb]; rewrite ?andb_false_r, ?andb_true_r, ?orb_false_r.
    + destruct (N.eq_dec d P127) as [X|X].
      * apply DE in X as X'. destruct X' as [QE TE]. rewrite X. rewrite N.div_small by (unfold P127; reflexivity).
        rewrite E, QE, TE, P202E. rewrite N.add_0_r, N.ltb_irrefl. reflexivity.
      * assert (P127 <= d - 1) by lia. replace ((d - 1) / P127) with 1 by (apply N.div_unique with (d - 1 - P127); lia).
        assert (P202 < rem); [|now rewrite (proj2 (N.ltb_lt _ _) H0)].
        rewrite P202E, E. destruct (N.eq_dec q P127) as [-> | NQ].
        -- assert (t <> 0) by (intros ->; apply X; apply DE; auto). lia.
        -- assert (P127 < q) as LT by lia. pose proof (mul_succ_le P75 _ _ LT). lia.
    + rewrite N.sub_0_r, D1. destruct (N.ltb_spec P202 rem); cbn [orb]; auto. destruct (N.eqb_spec rem P202); auto. exfalso.
      rewrite P202E in *. rewrite E in *. assert (P75 * P127 <= P75 * q) by (apply N.mul_le_mono_l; auto). lia.
  - assert (d < P127) as DS by (apply N.nle_gt; intro X; apply DG in X; lia). rewrite (N.div_small d) by auto.
    rewrite N.land_0_l, N.sub_0_r, (N.div_small d) by auto. split; [apply N.ltb_ge, N.le_0_l|].
    assert (rem < P202). { rewrite P202E, E. pose proof (mul_succ_le P75 _ _ G). lia. }
    destruct (N.ltb_spec P202 rem); [lia|]. destruct (N.eqb_spec rem P202); [lia|]. reflexivity.
Qed.
Lemma to_f64_zero : forall a, wf a -> val a = 0 -> to_f64_bits a = Ret 0.
Proof.
  intros a W Z. assert (a = U_ZERO) as ->; [|vm_compute; reflexivity].
  rewrite <- (of_val_val a W), Z. symmetry. apply zero_of.
Qed.
Lemma to_f64_round : forall a, wf a -> val a <> 0 ->
  let k := N.size (val a) in
  let l := val a * 2 ^ (256 - k) in
  1 <= k <= 256 /\ P52 <= l / P203 < P52 + P52 /\
  to_f64_bits a = Ret ((k + 1021) * P52 + l / P203 + rnd (l / P203) (l mod P203)).
Proof.
  intros a W NZ. cbv zeta. set (k := N.size (val a)). pose proof (val_lt a W) as VL.
  assert (K : k <= 256) by (apply size_lt; rewrite <- W256_pow; auto).
  pose proof (size_bound (val a)) as SB. pose proof (size_le (val a) NZ) as SL. fold k in SB, SL.
  assert (K1 : 1 <= k). { destruct (N.eq_dec k 0) as [E|]; [|lia]. rewrite E in SB. change (2 ^ 0) with 1 in SB. lia. }
  set (l := val a * 2 ^ (256 - k)).
  assert (LH : l < W256).
  { unfold l. apply N.lt_le_trans with (2 ^ k * 2 ^ (256 - k)); [apply N.mul_lt_mono_pos_r; auto; pose proof (pow2_nz (256 - k)); lia|].
    rewrite <- N.pow_add_r, W256_pow. apply N.pow_le_mono_r; lia. }
  assert (LL : 2 ^ 255 <= l).
  { unfold l. apply N.le_trans with (2 ^ (k - 1) * 2 ^ (256 - k)); [rewrite <- N.pow_add_r; apply N.pow_le_mono_r; lia|now apply N.mul_le_mono_r]. }
  assert (Z203 : P203 <> 0) by discriminate.
  assert (ML : P52 <= l / P203) by (apply N.div_le_lower_bound; auto).
  assert (MH : l / P203 < P52 + P52) by (apply N.div_lt_upper_bound; auto).
  split; [lia|]. split; [lia|].
  unfold to_f64_bits. rewrite bits_val by auto. fold k.
  assert (SHL : wrapping_shl a (256 - k) = Ret (of_val l)).
  { rewrite shl_val by (auto; lia). fold l. rewrite N.mod_small by auto. reflexivity. }
  rewrite SHL. cbn [rbind]. rewrite shr_val by (try apply wf_of; auto; reflexivity). cbn [rbind]. rewrite val_of.
  rewrite of_val_hi, !of_val_lo. fold P75. assert (Z75 : P75 <> 0) by discriminate.
  rewrite N.div_div by (auto; apply W128_nz). rewrite <- P203_128.
  set (m0 := l / P203) in *.
  assert (E1 : (l / P75) mod W128 = (l mod P203) / P75).
  { rewrite P203_128, N.mod_mul_r by (auto; apply W128_nz). rewrite (N.mul_comm P75 (_ mod _)), N.div_add by auto.
    rewrite (N.div_small (l mod P75)) by (apply N.mod_lt; auto). symmetry. apply N.add_0_l. }
  assert (E2 : N.land (l mod W128) 0x7FFFFFFFFFFFFFFFFFF = (l mod P203) mod P75).
  { change 0x7FFFFFFFFFFFFFFFFFF with (N.ones 75). rewrite N.land_ones. fold P75.
    rewrite P203_128. rewrite (N.mod_mul_r l P75 W128) by (auto; apply W128_nz).
    rewrite (N.mul_comm P75), N.mod_add, N.mod_mod by auto.
    assert (W128 = P75 * 2 ^ 53) as -> by reflexivity. rewrite N.mod_mul_r by (auto; discriminate).
    rewrite (N.mul_comm P75), N.mod_add, N.mod_mod by auto. reflexivity. }
  rewrite E1, E2.
  assert (M0L : m0 < W128) by (apply N.lt_trans with (P52 + P52); auto; reflexivity).
  destruct (dropped_round m0 (l mod P203) M0L) as [D1 D2]; [apply N.mod_lt; auto|]. cbv zeta in D1, D2.
  rewrite D1, D2. assert (RB : rnd m0 (l mod P203) <= 1) by (unfold rnd; destruct (_ || _); lia).
  set (r := rnd m0 (l mod P203)) in *. clearbody r.
  assert (S1 : m0 + r < W64) by (assert (P52 + P52 + 1 < W64) by reflexivity; lia).
  assert (W64L : W64 < W128) by reflexivity.
  unfold add128. assert (S2 : m0 + r < W128) by (apply N.lt_trans with W64; auto).
  rewrite (proj2 (N.ltb_lt _ _) S2). cbn [rbind]. rewrite (N.mod_small (m0 + r)) by auto.
  assert (NE : u_eqb a U_ZERO = false).
  { rewrite eqb_val by (auto; rewrite zero_of; apply wf_of; reflexivity). rewrite zero_of, val_of. now apply N.eqb_neq. }
  rewrite NE. replace (1277 - (256 - k)) with (k + 1021) by lia. fold P52.
  assert (S3 : (k + 1021) * P52 <= 1277 * P52) by (apply N.mul_le_mono_r; lia).
  assert (S4 : 1277 * P52 + P52 + P52 + 1 < W64) by reflexivity.
  rewrite (N.mod_small ((k + 1021) * P52)) by lia.
  rewrite (proj2 (N.ltb_lt ((k + 1021) * P52 + (m0 + r)) W64)) by lia. f_equal. apply N.add_assoc.
Qed.
Lemma to_f64_nearest : forall a, wf a -> exists b, to_f64_bits a = Ret b /\ f64_finite b /\
  forall b', (distance (f64_units b) (val a * 2 ^ 1074) <= distance (f64_units b') (val a * 2 ^ 1074))%Z /\
    (distance (f64_units b) (val a * 2 ^ 1074) = distance (f64_units b') (val a * 2 ^ 1074) -> b' <> b -> N.even b = true).
Proof.
  intros a W. destruct (N.eq_dec (val a) 0) as [Z|NZ].
  - exists 0. split; [now apply to_f64_zero|]. split; [reflexivity|]. intros b'. rewrite Z, N.mul_0_l. change (f64_units 0) with 0.
    unfold distance. split; [lia|auto].
  - destruct (to_f64_round a W NZ) as (K & M & E). cbv zeta in E. set (k := N.size (val a)) in *. set (l := val a * 2 ^ (256 - k)) in *.
    set (m0 := l / P203) in *. set (rem := l mod P203) in *. assert (Z203 : P203 <> 0) by discriminate.
    assert (RL : rem < P203) by (apply N.mod_lt; auto). assert (LE : l = P203 * m0 + rem) by (apply N.div_mod; auto).
    assert (RB : rnd m0 rem <= 1) by (unfold rnd; destruct (_ || _); lia).
    eexists. split; [exact E|]. split.
    { unfold f64_finite. fold P52. assert ((k + 1021) * P52 <= 1277 * P52) by (apply N.mul_le_mono_r; lia).
      assert (1277 * P52 + P52 + P52 + 1 < 2047 * P52) by reflexivity. lia. }
    set (b0 := (k + 1021) * P52 + m0). set (g := 2 ^ (k + 818)).
    assert (X : val a * 2 ^ 1074 = l * g).
    { unfold l, g. rewrite <- N.mul_assoc, <- N.pow_add_r. do 2 f_equal. lia. }
    assert (BE : b0 = (k + 1021 + 1) * P52 + (m0 - P52)) by (unfold b0; rewrite (N.mul_add_distr_r (k + 1021) 1); lia).
    assert (PE : 2 ^ (k + 1021) = P203 * g) by (unfold g, P203; rewrite <- N.pow_add_r; f_equal; lia).
    assert (U0 : f64_units b0 = m0 * (P203 * g)).
    { rewrite BE, units_le by lia. rewrite PE. f_equal. lia. }
    assert (U1 : f64_units (b0 + 1) = m0 * (P203 * g) + P203 * g).
    { rewrite BE, <- N.add_assoc, units_le by lia. rewrite PE. replace (P52 + (m0 - P52 + 1)) with (m0 + 1) by lia. ring. }
    assert (GP : 0 < g) by (unfold g; pose proof (pow2_nz (k + 818)); lia).
    assert (XE : val a * 2 ^ 1074 = m0 * (P203 * g) + rem * g) by (rewrite X, LE; ring).
    assert (RG : rem * g < P203 * g) by (apply N.mul_lt_mono_pos_r; auto).
    assert (H2 : P203 * g = P202 * g + P202 * g) by (assert (P203 = P202 + P202) as -> by reflexivity; ring).
    assert (EVB : N.even b0 = N.even m0).
    { unfold b0. rewrite N.even_add, N.even_mul. assert (N.even P52 = true) as -> by reflexivity. rewrite orb_true_r. destruct (N.even m0); reflexivity. }
    assert (CMP : (rem < P202 /\ rem * g < P202 * g) \/ rem = P202 \/ (P202 < rem /\ P202 * g < rem * g)).
    { destruct (N.lt_trichotomy rem P202) as [C|[C|C]]; [left|right; left; auto|right; right]; split; auto; apply N.mul_lt_mono_pos_r; auto. }
    apply (nearest b0 _ (rnd m0 rem) m0); auto; try lia.
    + intro R. rewrite U0, U1, XE, EVB. unfold rnd in R. destruct CMP as [[C1 C2]|[C|[C1 C2]]].
      * left. lia.
      * right. rewrite C in R. rewrite N.ltb_irrefl, N.eqb_refl in R. cbn [orb andb] in R. rewrite C. destruct (N.even m0); [|discriminate]. split; [lia|auto].
      * rewrite (proj2 (N.ltb_lt _ _) C1) in R. discriminate.
    + intro R. rewrite U0, U1, XE, EVB. unfold rnd in R. destruct CMP as [[C1 C2]|[C|[C1 C2]]].
      * destruct (N.ltb_spec P202 rem); [lia|]. destruct (N.eqb_spec rem P202); [lia|]. discriminate.
      * right. rewrite C in R. rewrite N.ltb_irrefl, N.eqb_refl in R. cbn [orb andb] in R. rewrite C. destruct (N.even m0); [discriminate|]. split; [lia|auto].
      * left. lia.
Qed.
