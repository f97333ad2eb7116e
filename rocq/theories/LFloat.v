(** Lemmas for amounts in floating point. *)
From Coq Require Import String.
From Verif Require Import Base LDec MText SText LText MAmount MAmountText SAmountText LAmountText MFloat SFloat.
Local Open Scope list_scope.
Local Open Scope N_scope.

Definition norm (m s : N) : Prop := m < MANT /\ (s = 0 \/ HALF_MANT <= m).
Lemma double_norm : forall m s, double m s <-> norm m s /\ s <= 2045.
Proof. intros m s. unfold double, norm, MANT, HALF_MANT. change (2 ^ 53) with 9007199254740992. change (2 ^ 52) with 4503599627370496. tauto. Qed.
Lemma pow2_pos : forall k, 0 < 2 ^ k.
Proof. intro. apply N.neq_0_lt_0, N.pow_nonzero. lia. Qed.
Lemma pow2_split : forall a b, a <= b -> 2 ^ b = 2 ^ (b - a) * 2 ^ a.
Proof. intros a b H. rewrite <- N.pow_add_r. f_equal. lia. Qed.
Lemma pow2_ge2 : forall k, 0 < k -> exists p, 2 ^ k = 2 * p /\ 0 < p.
Proof. intros k H. exists (2 ^ (k - 1)). split; [|apply pow2_pos]. rewrite <- N.pow_succ_r'. f_equal. lia. Qed.
Lemma norm_inj1 : forall m s m' s', norm m s -> norm m' s' -> m * 2 ^ s = m' * 2 ^ s' -> s <= s' -> m = m' /\ s = s'.
Proof.
  intros m s m' s' A B E L. rewrite (pow2_split s s' L), N.mul_assoc in E.
  apply N.mul_cancel_r in E; [|pose proof (pow2_pos s); lia].
  destruct (N.eq_dec s s') as [->|NE]; [rewrite N.sub_diag, N.pow_0_r in E; lia|].
  destruct (pow2_ge2 (s' - s)) as (p & Ep & Pp); [lia|]. rewrite Ep in E. clear Ep. unfold norm, MANT, HALF_MANT in *.
  assert (HALF_MANT <= m') by (unfold HALF_MANT; lia). unfold HALF_MANT in *. nia.
Qed.
Lemma norm_inj : forall m s m' s', norm m s -> norm m' s' -> m * 2 ^ s = m' * 2 ^ s' -> m = m' /\ s = s'.
Proof.
  intros m s m' s' A B E. destruct (N.le_gt_cases s s').
  - now apply norm_inj1.
  - destruct (norm_inj1 m' s' m s) as [-> ->]; auto; lia.
Qed.

(** the rounding: exponent, mantissa before and after the carry *)
Definition rs (n den : N) : N := N.log2 (n / den) - 52.
Definition rq (n den : N) : N := n / (den * 2 ^ rs n den).
Definition rr (n den : N) : N := n mod (den * 2 ^ rs n den).
Definition rm (n den : N) : N :=
  let d := den * 2 ^ rs n den in let q := rq n den in let r := rr n den in
  if 2 * r <? d then q else if d <? 2 * r then q + 1 else if N.even q then q else q + 1.
Definition rfin (n den : N) : N * N := if rm n den =? MANT then (HALF_MANT, rs n den + 1) else (rm n den, rs n den).
Lemma round_eq : forall neg num den, round_f64 neg num den =
  let '(m, s) := rfin (num * UNITS) den in if 2045 <? s then Inf neg else Fin neg m s.
Proof. reflexivity. Qed.

Lemma rq_range : forall n den, 0 < den -> norm (rq n den) (rs n den) /\ (rs n den = 0 \/ HALF_MANT <= rq n den).
Proof.
  intros n den P. unfold rq. rewrite <- N.div_div by (pose proof (pow2_pos (rs n den)); lia). set (v := n / den).
  unfold rs. fold v. assert (H : v / 2 ^ (N.log2 v - 52) < MANT /\ (N.log2 v - 52 = 0 \/ HALF_MANT <= v / 2 ^ (N.log2 v - 52))).
  { destruct (N.eq_dec v 0) as [->|NZ]; [split; [reflexivity|left; reflexivity]|].
    pose proof (N.log2_spec v) as L. destruct L as [L1 L2]; [lia|].
    destruct (N.le_gt_cases (N.log2 v) 52) as [G|G].
    - replace (N.log2 v - 52) with 0 by lia. rewrite N.pow_0_r, N.div_1_r. split; [|left; reflexivity].
      apply (N.lt_le_trans _ _ _ L2). unfold MANT. change 9007199254740992 with (2 ^ 53). apply N.pow_le_mono_r; lia.
    - split.
      + apply N.div_lt_upper_bound; [pose proof (pow2_pos (N.log2 v - 52)); lia|]. apply (N.lt_le_trans _ _ _ L2).
        unfold MANT. change 9007199254740992 with (2 ^ 53). rewrite <- N.pow_add_r. apply N.pow_le_mono_r; lia.
      + right. apply N.div_le_lower_bound; [pose proof (pow2_pos (N.log2 v - 52)); lia|].
        unfold HALF_MANT. change 4503599627370496 with (2 ^ 52). rewrite <- N.pow_add_r.
        replace (N.log2 v - 52 + 52) with (N.log2 v) by lia. exact L1. }
  destruct H. split; [split; auto|auto].
Qed.
Lemma r_split : forall n den, 0 < den -> n = rq n den * (den * 2 ^ rs n den) + rr n den /\ rr n den < den * 2 ^ rs n den.
Proof.
  intros n den P. unfold rq, rr. pose proof (pow2_pos (rs n den)).
  assert (den * 2 ^ rs n den <> 0) by nia. split; [|now apply N.mod_lt].
  rewrite (N.mul_comm (_ / _)). now apply N.div_mod'.
Qed.
Lemma rm_spec : forall n den, let d := den * 2 ^ rs n den in let q := rq n den in let r := rr n den in
  (rm n den = q /\ 2 * r <= d /\ (2 * r = d -> N.even q = true)) \/
  (rm n den = q + 1 /\ d <= 2 * r /\ (2 * r = d -> N.even q = false)).
Proof.
  intros n den d q r. unfold rm. fold d q r. destruct (N.ltb_spec (2 * r) d); [left; split; auto; lia|].
  destruct (N.ltb_spec d (2 * r)); [right; split; auto; lia|]. destruct (N.even q) eqn:E; [left|right]; (split; [auto|split; [lia|auto]]).
Qed.
Lemma rfin_val : forall n den, let '(m, s) := rfin n den in m * 2 ^ s = rm n den * 2 ^ rs n den.
Proof.
  intros n den. unfold rfin. destruct (N.eqb_spec (rm n den) MANT) as [->|]; [|reflexivity].
  rewrite N.pow_add_r. change MANT with (HALF_MANT * 2). change (2 ^ 1) with 2. set (x := 2 ^ rs n den). clearbody x. unfold HALF_MANT. lia.
Qed.
Lemma rfin_norm : forall n den, 0 < den -> let '(m, s) := rfin n den in norm m s.
Proof.
  intros n den P. destruct (rq_range n den P) as [[A B] C]. pose proof (rm_spec n den) as M. cbv zeta in M. unfold rfin.
  destruct (N.eqb_spec (rm n den) MANT) as [E|E]; unfold norm, MANT, HALF_MANT in *; [lia|].
  destruct M as [(-> & _)|(E2 & _)]; [lia|]. rewrite E2 in *. lia.
Qed.
Lemma rfin_even : forall n den, N.even (rm n den) = true -> N.even (fst (rfin n den)) = true.
Proof. intros n den H. unfold rfin. destruct (_ =? _); [reflexivity|exact H]. Qed.

Definition offs (n den m s : N) : Z := Z.abs (Z.of_N n - Z.of_N (m * 2 ^ s * den)).
Lemma even_pow : forall m k, 0 < k -> N.even (m * 2 ^ k) = true.
Proof. intros m k H. destruct (pow2_ge2 k H) as (p & -> & _). rewrite N.even_mul, N.even_mul. cbn [N.even]. now rewrite orb_true_r. Qed.
Lemma strong : forall n den m s m' s', 0 < den -> rfin n den = (m, s) -> norm m' s' -> (m', s') <> (m, s) ->
  (offs n den m s < offs n den m' s')%Z \/ (offs n den m s = offs n den m' s' /\ N.even m = true /\ N.even m' = false).
Proof.
  intros n den m s m' s' P R NM NE. pose proof (rfin_val n den) as V. pose proof (rfin_norm n den P) as NR. rewrite R in V, NR.
  pose proof (rfin_even n den) as EV. rewrite R in EV. cbn [fst] in EV.
  destruct (rq_range n den P) as [_ RQ]. destruct (r_split n den P) as [SP RL]. pose proof (rm_spec n den) as M. cbv zeta in M.
  unfold offs. rewrite V.
  assert (NV : m' * 2 ^ s' <> rm n den * 2 ^ rs n den).
  { intro E. rewrite <- V in E. apply norm_inj in E as [-> ->]; auto. }
  replace (rm n den * 2 ^ rs n den * den) with (rm n den * (den * 2 ^ rs n den)) by lia.
  remember (rs n den) as e eqn:Ee. remember (rq n den) as q eqn:Eq. remember (rr n den) as r eqn:Er. remember (rm n den) as M0 eqn:EM.
  clear Ee Eq Er EM R V.
  destruct (N.le_gt_cases e s') as [L|L].
  - assert (CE : m' * 2 ^ s' = m' * 2 ^ (s' - e) * 2 ^ e) by (rewrite (pow2_split e s' L); lia). rewrite CE in *. clear CE. set (c := m' * 2 ^ (s' - e)) in *.
    replace (c * 2 ^ e * den) with (c * (den * 2 ^ e)) by lia.
    assert (NC : c <> M0) by (intros ->; auto). set (D := den * 2 ^ e) in *.
    assert (C2 : c <= q \/ q + 1 <= c) by lia.
    assert (QD : (q + 1) * D = q * D + D) by lia.
    assert (OD : N.even c = false -> N.even m' = false).
    { intro O. destruct (N.eq_dec (s' - e) 0) as [Z0|Z0].
      - unfold c in O. rewrite Z0, N.pow_0_r, N.mul_1_r in O. exact O.
      - unfold c in O. rewrite even_pow in O by lia. discriminate. }
    assert (EQ1 : N.even (q + 1) = negb (N.even q)) by (rewrite N.add_1_r, N.even_succ; symmetry; apply N.negb_even).
    assert (DP : 0 < D) by (unfold D; apply N.mul_pos_pos; [exact P|apply pow2_pos]).
    clearbody D c. clear NV NM NR RQ. destruct M as [(-> & T & TE)|(-> & T & TE)].
    + destruct C2 as [C2|C2].
      * left. pose proof (N.mul_le_mono_r (c + 1) q D) as X. specialize (X ltac:(lia)). replace ((c + 1) * D) with (c * D + D) in X by lia. lia.
      * destruct (N.eq_dec c (q + 1)) as [->|NC2].
        -- rewrite QD. destruct (N.eq_dec (2 * r) D) as [TT|TT]; [|left; lia]. right.
           specialize (TE TT). rewrite TE in EQ1. split; [lia|]. split; auto.
        -- left. pose proof (N.mul_le_mono_r (q + 1 + 1) c D) as X. specialize (X ltac:(lia)). replace ((q + 1 + 1) * D) with (q * D + D + D) in X by lia. lia.
    + rewrite QD. destruct C2 as [C2|C2].
      * destruct (N.eq_dec c q) as [->|NC2].
        -- destruct (N.eq_dec (2 * r) D) as [TT|TT]; [|left; lia]. right.
           specialize (TE TT). rewrite TE in EQ1. split; [lia|]. split; auto.
        -- left. pose proof (N.mul_le_mono_r (c + 1) q D) as X. specialize (X ltac:(lia)). replace ((c + 1) * D) with (c * D + D) in X by lia. lia.
      * left. pose proof (N.mul_le_mono_r (q + 1 + 1) c D) as X. specialize (X ltac:(lia)). replace ((q + 1 + 1) * D) with (q * D + D + D) in X by lia. lia.
  - left. destruct RQ as [->|RQ]; [lia|].
    assert (X : m' * 2 ^ s' * den < HALF_MANT * (den * 2 ^ e)).
    { destruct NM as [NM _]. rewrite (pow2_split s' e) by lia. destruct (pow2_ge2 (e - s')) as (p & -> & PP); [lia|].
      replace (HALF_MANT * (den * (2 * p * 2 ^ s'))) with ((MANT * p) * (2 ^ s' * den)) by (unfold MANT, HALF_MANT; lia).
      rewrite <- N.mul_assoc. apply N.mul_lt_mono_pos_r; [pose proof (pow2_pos s'); nia|]. unfold MANT in *. nia. }
    pose proof (N.mul_le_mono_r HALF_MANT q (den * 2 ^ e) RQ) as Y.
    assert (QD : (q + 1) * (den * 2 ^ e) = q * (den * 2 ^ e) + den * 2 ^ e) by lia.
    set (D := den * 2 ^ e) in *. clearbody D. set (w := m' * 2 ^ s' * den) in *. clearbody w. clear -SP RL M X Y QD.
    destruct M as [(-> & T & _)|(-> & T & _)]; lia.
Qed.
(** half a unit in the last place *)
Lemma half_ulp : forall n den m s, 0 < den -> rfin n den = (m, s) -> (2 * offs n den m s <= Z.of_N (den * 2 ^ s))%Z.
Proof.
  intros n den m s P R. pose proof (rfin_val n den) as V. rewrite R in V. destruct (r_split n den P) as [SP RL].
  pose proof (rm_spec n den) as M. cbv zeta in M. unfold offs. rewrite V.
  replace (rm n den * 2 ^ rs n den * den) with (rm n den * (den * 2 ^ rs n den)) by lia.
  assert (S2 : den * 2 ^ rs n den <= den * 2 ^ s).
  { apply N.mul_le_mono_l, N.pow_le_mono_r; [lia|]. unfold rfin in R. destruct (_ =? _); inv R; lia. }
  clear R V. set (D := den * 2 ^ rs n den) in *. clearbody D. set (q := rq n den) in *. set (r := rr n den) in *. clearbody q r.
  assert (QD : (q + 1) * D = q * D + D) by lia.
  destruct M as [(-> & T & _)|(-> & T & _)]; lia.
Qed.

(** ** The rounding is the nearest f64 *)
Lemma pow10_gt0 : forall k, 0 < 10 ^ k.
Proof. intro k. pose proof (pow10_pos k). lia. Qed.
Lemma off_offs : forall v k m s, off v k m s = offs (v * UNITS) (10 ^ k) m s.
Proof. reflexivity. Qed.
Lemma rfin_finite : forall n den m s T, 0 < den -> T = 2 ^ 2044 * den -> n < 18014398509481983 * T -> rfin n den = (m, s) -> s <= 2045.
Proof.
  intros n den m s T P ET B R. destruct (rq_range n den P) as [[A0 _] RQ]. destruct (r_split n den P) as [SP RL].
  pose proof (rm_spec n den) as M. cbv zeta in M. unfold rfin in R.
  destruct (N.le_gt_cases (rs n den) 2044) as [L|L]; [destruct (_ =? _); inv R; lia|].
  destruct RQ as [RQ|RQ]; [lia|].
  assert (D2 : 2 * T <= den * 2 ^ rs n den).
  { subst T. replace (2 * (2 ^ 2044 * den)) with (den * (2 * 2 ^ 2044)) by lia. apply N.mul_le_mono_l. rewrite <- N.pow_succ_r'.
    apply N.pow_le_mono_r; lia. }
  destruct (N.eqb_spec (rm n den) MANT) as [E|E].
  - exfalso. destruct M as [(M1 & _)|(M1 & M2 & _)]; [lia|]. assert (Q : rq n den = 9007199254740991) by (unfold MANT in *; lia).
    rewrite Q in SP. clear -SP M2 B D2. set (D := den * 2 ^ rs n den) in *. clearbody D. lia.
  - injection R as <- <-. destruct (N.le_gt_cases (rs n den) 2045) as [|L2]; [auto|]. exfalso.
    assert (D4 : 4 * T <= den * 2 ^ rs n den).
    { subst T. replace (4 * (2 ^ 2044 * den)) with (den * (2 * (2 * 2 ^ 2044))) by lia. apply N.mul_le_mono_l. rewrite <- !N.pow_succ_r'.
      apply N.pow_le_mono_r; lia. }
    pose proof (N.mul_le_mono _ _ _ _ RQ D4) as X. unfold HALF_MANT in X. clear -X SP B. lia.
Qed.
Lemma nearest_round : forall v k m s, nearest v k m s -> forall neg, round_f64 neg v (10 ^ k) = Fin neg m s.
Proof.
  intros v k m s (D & B & H) neg. rewrite round_eq. destruct (rfin (v * UNITS) (10 ^ k)) as [m0 s0] eqn:R.
  assert (F : s0 <= 2045).
  { apply (rfin_finite _ _ _ _ (2 ^ 2044 * 10 ^ k) (pow10_gt0 k) eq_refl) in R; [exact R|].
    change (2 ^ 54 - 1) with 18014398509481983 in B. rewrite <- N.mul_assoc in B. exact B. }
  destruct (N.ltb_spec 2045 s0); [lia|].
  assert (E : (m0, s0) = (m, s) \/ (m0, s0) <> (m, s)).
  { destruct (N.eq_dec m0 m), (N.eq_dec s0 s); subst; auto; right; intro X; injection X; auto. }
  destruct E as [E|E]; [injection E as -> ->; reflexivity|]. exfalso.
  pose proof (rfin_norm (v * UNITS) (10 ^ k) (pow10_gt0 k)) as NR. rewrite R in NR. pose proof D as D'. apply double_norm in D' as [NM _].
  assert (ES : (m, s) <> (m0, s0)) by congruence.
  destruct (strong _ _ _ _ m s (pow10_gt0 k) R NM ES) as [X|(X & _ & X2)];
    (destruct (H m0 s0) as [Y|(Y & Y2)]; [apply double_norm; auto|auto|rewrite !off_offs in Y; lia|rewrite !off_offs in Y; first [lia|congruence]]).
Qed.
Lemma round_nearest : forall v k neg, v < 2 ^ 53 -> exists m s, round_f64 neg v (10 ^ k) = Fin neg m s /\ nearest v k m s.
Proof.
  intros v k neg V. rewrite round_eq. destruct (rfin (v * UNITS) (10 ^ k)) as [m s] eqn:R.
  assert (B : v * UNITS < 18014398509481983 * (2 ^ 2044 * 10 ^ k)).
  { apply (N.lt_le_trans _ (18014398509481983 * UNITS)).
    - apply N.mul_lt_mono_pos_r; [apply pow2_pos|]. change (2 ^ 53) with 9007199254740992 in V. lia.
    - apply N.mul_le_mono_l. rewrite <- (N.mul_1_r UNITS). apply N.mul_le_mono; [|apply pow10_pos].
      apply N.pow_le_mono_r; lia. }
  pose proof (rfin_finite _ _ _ _ _ (pow10_gt0 k) eq_refl B R) as F.
  destruct (N.ltb_spec 2045 s); [lia|]. exists m, s. split; auto.
  pose proof (rfin_norm (v * UNITS) (10 ^ k) (pow10_gt0 k)) as NR. rewrite R in NR.
  split; [apply double_norm; auto|]. split.
  - change (2 ^ 54 - 1) with 18014398509481983. rewrite <- N.mul_assoc. exact B.
  - intros m' s' D' NE. apply double_norm in D' as [NM _].
    destruct (strong _ _ _ _ m' s' (pow10_gt0 k) R NM NE) as [X|(X & X2 & _)]; rewrite !off_offs; [left|right]; auto.
Qed.
Lemma nearest_half : forall v k m s, nearest v k m s -> (2 * offs (v * UNITS) (10 ^ k) m s <= Z.of_N (10 ^ k * 2 ^ s))%Z.
Proof.
  intros v k m s H. apply nearest_round with (neg := false) in H. rewrite round_eq in H.
  destruct (rfin (v * UNITS) (10 ^ k)) as [m0 s0] eqn:R. destruct (2045 <? s0); [discriminate|]. injection H as -> ->.
  now apply half_ulp; [apply pow10_gt0|].
Qed.
(** only the number matters, not how it is written *)
Lemma round_scale : forall neg v k j, round_f64 neg (v * 10 ^ j) (10 ^ (k + j)) = round_f64 neg v (10 ^ k).
Proof.
  intros neg v k j. rewrite !round_eq. replace (v * 10 ^ j * UNITS) with (v * UNITS * 10 ^ j) by lia. rewrite N.pow_add_r.
  generalize (v * UNITS) as n. intro n. pose proof (pow10_gt0 j) as J. pose proof (pow10_gt0 k) as K. set (c := 10 ^ j) in *. set (d := 10 ^ k) in *.
  clearbody c d.
  assert (E : rs (n * c) (d * c) = rs n d) by (unfold rs; now rewrite N.div_mul_cancel_r by lia).
  pose proof (pow2_pos (rs n d)) as P.
  assert (Eq : rq (n * c) (d * c) = rq n d).
  { unfold rq. rewrite E. replace (d * c * 2 ^ rs n d) with (d * 2 ^ rs n d * c) by lia. apply N.div_mul_cancel_r; nia. }
  assert (Er : rr (n * c) (d * c) = rr n d * c).
  { unfold rr. rewrite E. replace (d * c * 2 ^ rs n d) with (d * 2 ^ rs n d * c) by lia. apply N.mul_mod_distr_r; nia. }
  assert (Em : rm (n * c) (d * c) = rm n d).
  { unfold rm. rewrite E, Eq, Er. replace (d * c * 2 ^ rs n d) with (d * 2 ^ rs n d * c) by lia. rewrite N.mul_assoc.
    set (x := 2 * rr n d). set (y := d * 2 ^ rs n d). clearbody x y.
    replace (x * c <? y * c) with (x <? y) by (destruct (N.ltb_spec x y), (N.ltb_spec (x * c) (y * c)); auto; nia).
    replace (y * c <? x * c) with (y <? x) by (destruct (N.ltb_spec y x), (N.ltb_spec (y * c) (x * c)); auto; nia). reflexivity. }
  unfold rfin. now rewrite E, Em.
Qed.
Lemma nearest_scale : forall v k m s j, nearest (v * 10 ^ j) (k + j) m s <-> nearest v k m s.
Proof.
  intros v k m s j. unfold nearest.
  assert (E : forall a b, off (v * 10 ^ j) (k + j) a b = (off v k a b * Z.of_N (10 ^ j))%Z).
  { intros a b. unfold off. rewrite N.pow_add_r. pose proof (pow10_gt0 j). generalize dependent (10 ^ j). generalize (10 ^ k) (2 ^ 1074).
    intros x y c C. replace (v * c * y) with (v * y * c) by lia. replace (a * 2 ^ b * (x * c)) with (a * 2 ^ b * x * c) by lia.
    rewrite !N2Z.inj_mul. rewrite <- Z.mul_sub_distr_r, Z.abs_mul. f_equal. lia. }
  assert (B : v * 10 ^ j * 2 ^ 1074 < (2 ^ 54 - 1) * 2 ^ 2044 * 10 ^ (k + j) <-> v * 2 ^ 1074 < (2 ^ 54 - 1) * 2 ^ 2044 * 10 ^ k).
  { clear E. rewrite N.pow_add_r. pose proof (pow10_gt0 j) as C. generalize dependent (10 ^ j). generalize (10 ^ k) (2 ^ 1074) ((2 ^ 54 - 1) * 2 ^ 2044).
    intros x y z c C. replace (v * c * y) with (v * y * c) by lia. replace (z * (x * c)) with (z * x * c) by lia.
    now rewrite <- N.mul_lt_mono_pos_r by exact C. }
  rewrite B. split; intros (H1 & H2 & H3); (split; [exact H1|split; [exact H2|]]); intros m' s' D NE; specialize (H3 m' s' D NE);
    rewrite ?E in *; clear B H2 E; pose proof (pow10_gt0 j) as C; generalize dependent (10 ^ j); intros; generalize dependent (off v k m s);
    generalize dependent (off v k m' s'); intros; clear -H3 C; (destruct H3 as [H3|[H3 H4]]; [left; nia|right; split; [nia|exact H4]]).
Qed.
Lemma nearest_same : forall v k v' k' m s, v * 10 ^ k' = v' * 10 ^ k -> nearest v k m s -> nearest v' k' m s.
Proof.
  intros v k v' k' m s E H. apply (proj2 (nearest_scale v k m s k')) in H. rewrite E, N.add_comm in H. exact (proj1 (nearest_scale v' k' m s k) H).
Qed.

(** ** Two short decimals next to the same f64 are equal *)
Lemma close : forall a p b k m s, 0 < a -> p <= 8 -> nearest a p m s -> nearest b k m s ->
  (2251799813685248 * Z.abs (Z.of_N (a * 10 ^ k) - Z.of_N (b * 10 ^ p)) <= Z.of_N (a * 10 ^ k))%Z.
Proof.
  intros a p b k m s A P HA HB. pose proof (nearest_half _ _ _ _ HA) as X. pose proof (nearest_half _ _ _ _ HB) as Y.
  assert (M : HALF_MANT <= m).
  { destruct HA as (D & _). apply double_norm in D as [[D1 [->|D2]] _]; [|exact D2]. exfalso. unfold offs in X.
    rewrite N.pow_0_r, !N.mul_1_r in X.
    assert (A8 : 10 ^ p <= 100000000) by (change 100000000 with (10 ^ 8); apply N.pow_le_mono_r; lia).
    assert (U : 2 ^ 100 <= UNITS) by (apply N.pow_le_mono_r; lia). change (2 ^ 100) with 1267650600228229401496703205376 in U.
    assert (AU : UNITS <= a * UNITS) by (generalize dependent UNITS; intros; nia).
    assert (MB : m * 10 ^ p <= MANT * 100000000) by (apply N.mul_le_mono; lia). unfold MANT in MB.
    generalize dependent (a * UNITS). generalize dependent UNITS. generalize dependent (m * 10 ^ p). generalize dependent (10 ^ p).
    intros; lia. }
  assert (UP : 0 < UNITS) by apply pow2_pos. pose proof (pow2_pos s) as SP. pose proof (pow10_gt0 p) as PP. pose proof (pow10_gt0 k) as KP.
  clear HA HB P. unfold offs, HALF_MANT in *. generalize dependent UNITS. generalize dependent (2 ^ s). generalize dependent (10 ^ p).
  generalize dependent (10 ^ k). intros B0 BP A0 AP S0 SP U X Y UP.
  assert (X1 : (2 * Z.abs (Z.of_N (a * B0 * U) - Z.of_N (m * (S0 * A0 * B0))) <= Z.of_N (S0 * A0 * B0))%Z).
  { replace (Z.of_N (a * B0 * U) - Z.of_N (m * (S0 * A0 * B0)))%Z with ((Z.of_N (a * U) - Z.of_N (m * S0 * A0)) * Z.of_N B0)%Z by lia.
    rewrite Z.abs_mul. replace (Z.of_N (S0 * A0 * B0)) with (Z.of_N (A0 * S0) * Z.of_N B0)%Z by lia.
    rewrite (Z.abs_eq (Z.of_N B0)) by lia. rewrite Z.mul_assoc. apply Z.mul_le_mono_nonneg_r; [lia|exact X]. }
  assert (Y1 : (2 * Z.abs (Z.of_N (b * A0 * U) - Z.of_N (m * (S0 * A0 * B0))) <= Z.of_N (S0 * A0 * B0))%Z).
  { replace (Z.of_N (b * A0 * U) - Z.of_N (m * (S0 * A0 * B0)))%Z with ((Z.of_N (b * U) - Z.of_N (m * S0 * B0)) * Z.of_N A0)%Z by lia.
    rewrite Z.abs_mul. replace (Z.of_N (S0 * A0 * B0)) with (Z.of_N (B0 * S0) * Z.of_N A0)%Z by lia.
    rewrite (Z.abs_eq (Z.of_N A0)) by lia. rewrite Z.mul_assoc. apply Z.mul_le_mono_nonneg_r; [lia|exact Y]. }
  clear X Y. pose proof (N.mul_le_mono_r _ _ (S0 * A0 * B0) M) as MW.
  apply (Zmult_le_reg_r _ _ (Z.of_N U)); [lia|].
  replace (Z.of_N (a * B0) * Z.of_N U)%Z with (Z.of_N (a * B0 * U)) by lia.
  replace (2251799813685248 * Z.abs (Z.of_N (a * B0) - Z.of_N (b * A0)) * Z.of_N U)%Z
    with (2251799813685248 * Z.abs (Z.of_N (a * B0 * U) - Z.of_N (b * A0 * U)))%Z.
  2:{ replace (Z.of_N (a * B0 * U) - Z.of_N (b * A0 * U))%Z with ((Z.of_N (a * B0) - Z.of_N (b * A0)) * Z.of_N U)%Z by lia.
      rewrite Z.abs_mul, (Z.abs_eq (Z.of_N U)) by lia. lia. }
  generalize dependent (m * (S0 * A0 * B0)). generalize dependent (S0 * A0 * B0). generalize (a * B0 * U). generalize (b * A0 * U).
  intros; lia.
Qed.
Lemma strip_zeros : forall s, 0 < s -> exists w z n, s = w * 10 ^ z /\ w mod 10 <> 0 /\ w <= s /\ 10 ^ n <= w < 10 ^ (n + 1).
Proof.
  assert (H : forall f s, s < 2 ^ N.of_nat f -> 0 < s -> exists w z, s = w * 10 ^ z /\ w mod 10 <> 0 /\ w <= s).
  { induction f; intros s B P; [cbn in B; lia|]. destruct (N.eq_dec (s mod 10) 0) as [E|E].
    - destruct (IHf (s / 10)) as (w & z & E1 & E2 & E3).
      + rewrite Nat2N.inj_succ, N.pow_succ_r' in B. apply N.div_lt_upper_bound; lia.
      + pose proof (N.div_mod' s 10). lia.
      + exists w, (z + 1). rewrite pow10_succ. pose proof (N.div_mod' s 10) as DM. rewrite E, E1 in DM. repeat split; auto; [lia|].
        pose proof (N.div_mod' s 10). lia.
    - exists s, 0. rewrite N.pow_0_r. repeat split; auto; lia. }
  intros s P. destruct (H (N.to_nat (N.size s)) s) as (w & z & E1 & E2 & E3); auto.
  { rewrite N2Nat.id. apply N.size_gt. }
  assert (W : forall f w, w < 10 ^ N.of_nat f -> 0 < w -> exists n, 10 ^ n <= w < 10 ^ (n + 1)).
  { clear. induction f; intros w B P; [cbn in B; lia|]. destruct (N.le_gt_cases (10 ^ N.of_nat f) w) as [L|L].
    - exists (N.of_nat f). rewrite Nat2N.inj_succ, <- N.add_1_r in B. auto.
    - apply IHf; auto. }
  destruct (W (N.to_nat w) w) as (n & Wn).
  { rewrite N2Nat.id. apply N.pow_gt_lin_r. lia. }
  { destruct (N.eq_dec w 0) as [->|]; [cbn in E2; lia|lia]. }
  exists w, z, n. auto.
Qed.
Lemma short_unique : forall w u n d t, w < 2251799813685248 -> w mod 10 <> 0 -> 10 ^ n <= w < 10 ^ (n + 1) -> d < 10 ^ (n + 1) ->
  (2251799813685248 * Z.abs (Z.of_N (w * 10 ^ u) - Z.of_N (d * 10 ^ t)) <= Z.of_N (w * 10 ^ u))%Z -> w * 10 ^ u = d * 10 ^ t.
Proof.
  intros w u n d t W M R D C. pose proof (pow10_gt0 u) as PU. pose proof (pow10_gt0 t) as PT.
  destruct (N.le_gt_cases u t) as [L|L].
  - assert (E : d * 10 ^ t = d * 10 ^ (t - u) * 10 ^ u) by (rewrite <- N.mul_assoc, <- N.pow_add_r; do 2 f_equal; lia).
    rewrite E in *. clear E. generalize dependent (d * 10 ^ (t - u)). intros c C. f_equal.
    generalize dependent (10 ^ u). intros x PX C. clear -C W PX. destruct (N.eq_dec w c) as [|NE]; [auto|]. exfalso. nia.
  - exfalso. assert (E : 10 ^ u = 10 ^ (u - 1 - t) * 10 ^ t * 10).
    { rewrite <- N.pow_add_r. rewrite (N.mul_comm _ 10), <- N.pow_succ_r'. f_equal. lia. }
    pose proof (pow10_gt0 (u - 1 - t)) as PJ. generalize dependent (10 ^ (u - 1 - t)). intros j E J.
    rewrite pow10_succ in *. destruct (N.eq_dec n 0) as [->|NZ].
    + rewrite N.pow_0_r in *. rewrite E in C. generalize dependent (10 ^ t). intros x PX E C.
      assert (w * (j * x * 10) >= d * x + x * j) by nia. assert (w * (j * x * 10) <= 90 * (j * x)) by nia. clear -C H H0 PX J. nia.
    + assert (T10 : 10 ^ n = 10 * 10 ^ (n - 1)) by (rewrite <- N.pow_succ_r'; f_equal; lia).
      assert (NW : 10 ^ n + 1 <= w).
      { destruct (N.eq_dec w (10 ^ n)) as [EW|]; [|lia]. exfalso. apply M. rewrite EW, T10, N.mul_comm. apply N.mod_mul. lia. }
      clear T10 M. rewrite E in C. generalize dependent (10 ^ t). generalize dependent (10 ^ n). intros y [Y1 Y2] DY NW x PX E C.
      assert (X1 : d * x <= y * (j * x * 10)) by nia.
      assert (X2 : (y + 1) * (j * x * 10) <= w * (j * x * 10)) by (apply N.mul_le_mono_r; exact NW).
      assert (X3 : 0 < j * x * 10) by nia. clear E. generalize dependent (j * x * 10). intros v C E2 X1 X2 X3.
      assert (X4 : w * v < 2251799813685248 * v) by (exact (proj1 (N.mul_lt_mono_pos_r v w _ X3) W)). clear -C X1 X2 X3 X4. lia.
Qed.

(** ** Texts *)
Lemma digits_fun : forall s n n', digits_or_empty s n -> digits_or_empty s n' -> n = n'.
Proof.
  induction s as [|c s IH]; intros n n' A B.
  - destruct A as [[_ ->]|A]; [|now apply numeral_nonempty in A]. destruct B as [[_ ->]|B]; [auto|now apply numeral_nonempty in B].
  - apply digits_cons in A as (_ & m & A & ->). apply digits_cons in B as (_ & m' & B & ->). now rewrite (IH _ _ A B).
Qed.
Lemma read_digits : forall s n r dot any v k, digits_or_empty s n ->
  read_dec (s ++ r) dot any v k = read_dec r dot (any || negb (lenN s =? 0)) (v * 10 ^ lenN s + n) (if dot then k + lenN s else k).
Proof.
  induction s as [|c s IH]; intros n r dot any v k H.
  - destruct H as [[_ ->]|H]; [|now apply numeral_nonempty in H]. cbn [app]. rewrite lenN_nil, N.pow_0_r, N.mul_1_r, N.add_0_r, N.add_0_r.
    change (0 =? 0) with true. cbn [negb]. rewrite orb_false_r. now destruct dot.
  - apply digits_cons in H as (D & m & H & ->). cbn [app read_dec]. unfold isdig in D.
    destruct (N.eqb_spec c 46) as [->|_]; [discriminate|]. rewrite D. rewrite (IH _ _ _ _ _ _ H), lenN_cons.
    replace (1 + lenN s =? 0) with false by lia. cbn [negb orb]. rewrite orb_true_r.
    replace ((10 * v + (c - 48)) * 10 ^ lenN s + m) with (v * 10 ^ (1 + lenN s) + ((c - 48) * 10 ^ lenN s + m)).
    + destruct dot; [|reflexivity]. now rewrite <- (N.add_assoc k 1).
    + rewrite (N.add_comm 1), pow10_succ. lia.
Qed.
Lemma read_plain : forall u v k, plain u v k -> read_dec u false false 0 0 = Some (v, k) /\ hd 0 u <> 45 /\ u <> [].
Proof.
  intros u v k (ip & n & fp & m & (NU & _) & D & _ & -> & -> & ->).
  assert (NE : ip <> []) by now apply numeral_nonempty in NU. assert (DI : digits_or_empty ip n) by now right.
  split; [|destruct ip as [|c ip]; [congruence|]; split; [|discriminate]; cbn [app hd]; apply digits_cons in DI as (C & _); unfold isdig in C; lia].
  rewrite (read_digits _ _ _ _ _ _ _ DI). replace (lenN ip =? 0) with false by (destruct ip; [congruence|rewrite lenN_cons; lia]).
  cbn [negb orb]. rewrite N.mul_0_l, N.add_0_l. destruct fp as [|c fp].
  - cbn [read_dec]. rewrite lenN_nil, N.pow_0_r, N.mul_1_r. destruct D as [[_ ->]|D]; [now rewrite N.add_0_r|now apply numeral_nonempty in D].
  - change (read_dec (46 :: c :: fp) false true n 0) with (read_dec (c :: fp) true true n 0). rewrite <- (app_nil_r (c :: fp)) at 1. rewrite (read_digits _ _ _ _ _ _ _ D).
    cbn [read_dec orb]. now rewrite N.add_0_l.
Qed.
Lemma parse_plain : forall (u : str) (v k : N) (neg : bool), plain u v k -> parse_f64 ((if neg then [45] else []) ++ u) = Some (round_f64 neg v (10 ^ k)).
Proof.
  intros u v k neg H. destruct (read_plain u v k H) as (R & HD & NE). unfold parse_f64. destruct neg; cbn [app].
  - change (45 =? 45) with true. cbv iota. now rewrite R.
  - destruct u as [|c u]; [congruence|]. cbn [hd] in HD. destruct (N.eqb_spec c 45); [congruence|]. now rewrite R.
Qed.
Lemma shown_plain : forall p a t, shown p a None t <-> exists v k, plain t v k /\ a * 10 ^ k = v * 10 ^ p.
Proof.
  intros p a t. split.
  - intros (r & ip & n & fp & m & RO & C & D & -> & E & L). cbn [rounded] in RO. subst r.
    exists (n * 10 ^ lenN fp + m), (lenN fp). split; [|exact E]. exists ip, n, fp, m. repeat (split; auto).
  - intros (v & k & (ip & n & fp & m & C & D & L & -> & -> & ->) & E). exists a, ip, n, fp, m. repeat (split; auto).
Qed.
Lemma fmt_shown : forall a neg d, a < 2 ^ 63 -> exists t,
  fmt_satoshi_in a neg d false default_options = Ret ((if neg then [45] else []) ++ t) /\ shown (places d) a None t.
Proof.
  intros a neg d A. destruct (fmt_ok a neg d false default_options A) as (t & out & E & SH & PD).
  { cbn [default_options o_precision unwrap_or]. reflexivity. }
  cbn [default_options o_precision o_sign_plus] in *. exists t. split; auto.
  rewrite E. f_equal. unfold padded, default_options, unwrap_or, o_zero_pad, o_width, o_align, o_fill, sign_of in PD.
  rewrite N.sub_0_l, N.sub_diag in PD. unfold times in PD. cbn [N.to_nat repeat app unit_of] in PD. rewrite !app_nil_r in PD.
  rewrite PD. destruct neg; reflexivity.
Qed.
Lemma signed_string : forall a d, (Z.abs a <= 2100000000000000)%Z -> exists t, shown (places d) (Z.to_N (Z.abs a)) None t /\
  signed_to_string_in a d = Ret ((if (a <? 0)%Z then [45] else []) ++ t) /\ ((0 <= a)%Z -> amount_to_string_in a d = Ret t).
Proof.
  intros a d R. destruct (fmt_shown (Z.to_N (Z.abs a)) (a <? 0)%Z d) as (t & E & S0).
  { change (2 ^ 63) with 9223372036854775808. lia. }
  exists t. split; auto. split.
  - unfold signed_to_string_in, signed_display_in. rewrite abs_range by auto. exact E.
  - intro P. destruct (Z.ltb_spec a 0); [lia|]. rewrite Z.abs_eq in E by lia. exact E.
Qed.
(** an amount text that is plain *)
Lemma plain_dot : forall u v k, plain u v k -> exists ip n fp m, canonical ip n /\ digits_or_empty ip n /\ digits_or_empty fp m /\ (fp = [] \/ last fp 48 <> 48) /\
  k = lenN fp /\ v = n * 10 ^ k + m /\ ~ In 46 ip /\ ~ In 95 u /\ ((fp = [] /\ u = ip) \/ (fp <> [] /\ u = ip ++ 46 :: fp)).
Proof.
  intros u v k (ip & n & fp & m & C & D & L & -> & -> & ->). exists ip, n, fp, m.
  assert (DI : digits_or_empty ip n) by (right; apply C).
  split; [exact C|]. split; [exact DI|]. split; [exact D|]. split; [exact L|]. split; [reflexivity|]. split; [reflexivity|].
  split; [intro I; apply (digits_nodot _ _ _ DI) in I; discriminate|]. split.
  - intro I. apply in_app_iff in I as [I|I]; [apply (digits_nodot _ _ _ DI) in I; discriminate|].
    destruct fp; [destruct I|]. destruct I as [I|I]; [discriminate|]. apply (digits_nodot _ _ _ D) in I. discriminate.
  - destruct fp; [left; split; auto; now rewrite app_nil_r|right; split; [discriminate|auto]].
Qed.
Lemma decimal_plain : forall p u v k a, plain u v k -> decimal_text p u a -> a * 10 ^ k = v * 10 ^ p.
Proof.
  intros p u v k a PL (NE & U & ip' & fp' & n' & m' & W & D1 & D2 & L & ->).
  apply plain_dot in PL as (ip & n & fp & m & _ & DI & D & _ & EK & EV & N46 & N95 & F). destruct (no_underscore u N95) as [_ WU]. rewrite WU in W.
  assert (N46' : ~ In 46 ip') by (intro I; apply (digits_nodot _ _ _ D1) in I; discriminate).
  assert (E : ip' = ip /\ fp' = fp).
  { destruct F as [[-> ->]|[NF EU]], W as [W|[W ->]].
    - exfalso. apply N46. rewrite W. apply in_app_iff. right. now left.
    - auto.
    - rewrite EU in W. pose proof (split_first_app 46 ip fp N46) as X. rewrite W, split_first_app in X by auto. injection X as <- <-. auto.
    - exfalso. apply N46'. rewrite <- W, EU. apply in_app_iff. right. now left. }
  destruct E as [-> ->]. rewrite (digits_fun _ _ _ D1 DI), (digits_fun _ _ _ D2 D). rewrite <- EK in *. rewrite EV.
  rewrite !N.mul_add_distr_r. f_equal; [lia|]. rewrite <- N.mul_assoc, <- N.pow_add_r. do 2 f_equal. lia.
Qed.
Lemma amount_plain : forall d u v k a, plain u v k -> amount_text d u a -> a * 10 ^ k = v * 10 ^ places d.
Proof.
  intros d u v k a PL H. destruct d; try exact (decimal_plain _ _ _ _ _ PL H).
  destruct H as (ip & z & F & N46 & Z0 & H). destruct F as [->|EU]; [exact (decimal_plain _ _ _ _ _ PL H)|].
  exfalso. apply plain_dot in PL as (ip' & n & fp & m & _ & DI & D & L & _ & _ & N46' & _ & [[-> ->]|[NF EU']]).
  - apply N46'. rewrite EU. apply in_app_iff. right. now left.
  - rewrite EU in EU'. pose proof (split_first_app 46 ip z N46) as X. rewrite EU', split_first_app in X by auto. injection X as _ <-.
    destruct L as [->|L]; [congruence|]. apply L. destruct (exists_last NF) as (l & x & ->). rewrite last_last.
    apply Forall_app in Z0 as [_ Z0]. now inv Z0.
Qed.

(** ** Amounts and their f64 *)
Lemma nearest_zero : forall k m s, nearest 0 k m s -> m = 0 /\ s = 0.
Proof.
  intros k m s H. apply nearest_round with (neg := false) in H. unfold round_f64 in H. rewrite N.mul_0_l, N.div_0_l in H by (pose proof (pow10_gt0 k); lia).
  change (N.log2 0 - 52) with 0 in H. rewrite N.pow_0_r, N.mul_1_r in H. pose proof (pow10_gt0 k) as P. rewrite N.div_0_l, N.mod_0_l in H by lia.
  rewrite N.mul_0_r in H. destruct (N.ltb_spec 0 (10 ^ k)); [|lia]. change (0 =? MANT) with false in H. change (2045 <? 0) with false in H.
  injection H as <- <-. auto.
Qed.
Lemma zero_nearest : forall v k, nearest v k 0 0 -> forall n, significant n 0.
Proof. intros v k _ n. exists 0, 0. split; [reflexivity|]. apply pow10_gt0. Qed.
Lemma print_amount : forall a p m s u v k, a < 2251799813685248 -> p <= 8 -> nearest a p m s -> plain u v k -> nearest v k m s ->
  (forall n v' k', nearest v' k' m s -> significant n v' -> significant n v) -> shown p a None u.
Proof.
  intros a p m s u v k A P NA PL NV SH. apply shown_plain. exists v, k. split; auto.
  destruct (N.eq_dec a 0) as [->|NZ].
  - destruct (SH 0 0 p NA) as (w & z & -> & W); [exists 0, 0; split; reflexivity|]. rewrite N.pow_0_r in W. replace w with 0 by lia. lia.
  - destruct (strip_zeros a) as (w & z & n & EA & M & LE & R); [lia|].
    destruct (SH (n + 1) a p NA) as (d & t & EV & DN); [exists w, z; split; [exact EA|lia]|].
    pose proof (close a p v k m s ltac:(lia) P NA NV) as C. rewrite EA, EV in C. rewrite EA, EV.
    rewrite <- !N.mul_assoc, <- !N.pow_add_r in *. apply (short_unique w (z + k) n d (t + p)); auto. lia.
Qed.
Lemma places8 : forall d, places d <= 8.
Proof. destruct d; cbn [places]; lia. Qed.
Lemma to_float_signed : forall a d, (Z.abs a <= 2100000000000000)%Z -> exists m s,
  signed_to_float_in a d = Ret (Fin (a <? 0)%Z m s) /\ nearest (Z.to_N (Z.abs a)) (places d) m s /\
  ((0 <= a)%Z -> amount_to_float_in a d = Ret (Fin (a <? 0)%Z m s)).
Proof.
  intros a d R. destruct (signed_string a d R) as (t & SH & ES & EA). apply shown_plain in SH as (v & k & PL & EV).
  destruct (round_nearest (Z.to_N (Z.abs a)) (places d) (a <? 0)%Z) as (m & s & ER & NR).
  { change (2 ^ 53) with 9007199254740992. lia. }
  pose proof (nearest_same _ _ _ _ m s EV NR) as NV.
  exists m, s. unfold signed_to_float_in, amount_to_float_in. rewrite ES. cbn [rbind]. unfold parsed.
  rewrite (parse_plain t v k (a <? 0)%Z PL). rewrite (nearest_round _ _ _ _ NV). split; [reflexivity|]. split; [exact NR|].
  intro P. rewrite (EA P). cbn [rbind]. pose proof (parse_plain t v k false PL) as X. cbn [app] in X. rewrite X, (nearest_round _ _ _ _ NV).
  destruct (Z.ltb_spec a 0); [lia|reflexivity].
Qed.

(** ** The shortest text *)
Lemma strip_unique : forall w x w' y, w mod 10 <> 0 -> w' mod 10 <> 0 -> w * 10 ^ x = w' * 10 ^ y -> w = w'.
Proof.
  assert (H : forall w x w' y, w' mod 10 <> 0 -> x <= y -> w mod 10 <> 0 -> w * 10 ^ x = w' * 10 ^ y -> w = w').
  { intros w x w' y B L A E. assert (E2 : 10 ^ y = 10 ^ (y - x) * 10 ^ x) by (rewrite <- N.pow_add_r; f_equal; lia).
    rewrite E2, N.mul_assoc in E. apply N.mul_cancel_r in E; [|pose proof (pow10_gt0 x); lia]. subst w.
    destruct (N.eq_dec (y - x) 0) as [->|NZ]; [now rewrite N.pow_0_r, N.mul_1_r|]. exfalso. apply A.
    replace (y - x) with (N.succ (y - x - 1)) by lia. rewrite N.pow_succ_r', (N.mul_comm 10), N.mul_assoc. apply N.mod_mul. lia. }
  intros w x w' y A B E. destruct (N.le_gt_cases x y); [eauto|]. symmetry. apply (H w' y w x); auto; lia.
Qed.
Lemma amount_short : forall a p m s v k, a < 2251799813685248 -> p <= 8 -> nearest a p m s -> a * 10 ^ k = v * 10 ^ p ->
  forall n v' k', nearest v' k' m s -> significant n v' -> significant n v.
Proof.
  intros a p m s v k A P NA EV n v' k' NV (w & z & EW & WN).
  destruct (N.eq_dec a 0) as [->|NZ].
  { replace v with 0; [exists 0, 0; split; [reflexivity|apply pow10_gt0]|]. rewrite N.mul_0_l in EV. pose proof (pow10_gt0 p). nia. }
  destruct (strip_zeros a) as (w0 & z0 & n0 & EA & M & LE & R); [lia|].
  assert (VP : 0 < v). { destruct (N.eq_dec v 0) as [->|]; [|lia]. rewrite N.mul_0_l in EV. pose proof (pow10_gt0 k). nia. }
  destruct (strip_zeros v VP) as (w1 & z1 & n1 & E1 & M1 & _ & R1).
  assert (W1 : w1 = w0).
  { apply (strip_unique w1 (z1 + p) w0 (z0 + k)); auto. rewrite !N.pow_add_r, !N.mul_assoc, <- E1, <- EA. auto. }
  subst w1. exists w0, z1. split; [exact E1|].
  destruct (N.le_gt_cases (n0 + 1) n) as [L|L].
  - apply (N.lt_le_trans _ (10 ^ (n0 + 1))); [lia|]. apply N.pow_le_mono_r; lia.
  - exfalso. assert (WN2 : w < 10 ^ (n0 + 1)) by (apply (N.lt_le_trans _ _ _ WN); apply N.pow_le_mono_r; lia).
    pose proof (close a p v' k' m s ltac:(lia) P NA NV) as C. rewrite EA, EW in C.
    rewrite <- !N.mul_assoc, <- !N.pow_add_r in C.
    assert (E : w0 * 10 ^ (z0 + k') = w * 10 ^ (z + p)) by (apply (short_unique w0 (z0 + k') n0 w (z + p)); auto; lia).
    assert (WP : 0 < w). { destruct (N.eq_dec w 0) as [->|]; [|lia]. rewrite N.mul_0_l in E. pose proof (pow10_gt0 (z0 + k')). pose proof (pow10_gt0 n0). nia. }
    destruct (strip_zeros w WP) as (w2 & z2 & n2 & E2 & M2 & L2 & _).
    assert (w2 = w0).
    { apply (strip_unique w2 (z2 + (z + p)) w0 (z0 + k')); auto. rewrite E, E2, <- N.mul_assoc, <- N.pow_add_r. reflexivity. }
    subst w2. assert (10 ^ n <= 10 ^ n0) by (apply N.pow_le_mono_r; lia). lia.
Qed.
Lemma digits_lt : forall s n, digits_or_empty s n -> n < 10 ^ lenN s.
Proof.
  induction s as [|c s IH]; intros n H.
  - destruct H as [[_ ->]|H]; [reflexivity|now apply numeral_nonempty in H].
  - apply digits_cons in H as (D & m & H & ->). apply IH in H. rewrite lenN_cons, (N.add_comm 1), pow10_succ. unfold isdig in D.
    assert (c - 48 <= 9) by lia. nia.
Qed.
Lemma digits_inj : forall s t n, lenN s = lenN t -> digits_or_empty s n -> digits_or_empty t n -> s = t.
Proof.
  induction s as [|c s IH]; intros [|d t] n L A B; rewrite ?lenN_nil, ?lenN_cons in L; auto; try lia.
  apply digits_cons in A as (DA & m & A & ->). apply digits_cons in B as (DB & m' & B & E).
  assert (LE : lenN s = lenN t) by lia. pose proof (digits_lt _ _ A) as X. pose proof (digits_lt _ _ B) as Y. rewrite LE in *.
  assert (H : c - 48 = d - 48 /\ m = m') by (apply (N.div_mod_unique (10 ^ lenN t)); auto; lia).
  destruct H as [H1 ->]. f_equal; [unfold isdig in *; lia|]. exact (IH t m' eq_refl A B).
Qed.
Lemma plain_last : forall u v k, plain u v k -> k = 0 \/ v mod 10 <> 0.
Proof.
  intros u v k (ip & n & fp & m & _ & D & L & _ & -> & ->). destruct fp as [|c0 fp0]; [left; reflexivity|right]. remember (c0 :: fp0) as fp eqn:EF.
  destruct L as [->|L]; [discriminate|]. assert (NF : fp <> []) by (subst; discriminate). clear EF.
  destruct (exists_last NF) as (l & c & ->). rewrite last_last in L.
  assert (exists m0, digits_or_empty l m0 /\ isdig c = true /\ m = m0 * 10 + (c - 48)).
  { clear L NF. revert m D. induction l as [|x l IH]; intros m D.
    - apply digits_cons in D as (D & m' & D' & ->). destruct D' as [[_ ->]|D']; [|now apply numeral_nonempty in D'].
      exists 0. split; [apply digits_nil|]. split; [exact D|]. rewrite lenN_nil, N.pow_0_r. lia.
    - cbn [app] in D. apply digits_cons in D as (DX & m' & D & ->). destruct (IH m' D) as (m0 & H1 & H2 & ->).
      exists ((x - 48) * 10 ^ lenN l + m0). split; [apply digits_cons; eauto|]. split; [exact H2|].
      rewrite lenN_app, lenN_cons, lenN_nil, N.add_0_r, pow10_succ. lia. }
  destruct H as (m0 & _ & DC & ->). unfold isdig in DC. rewrite lenN_app, lenN_cons, lenN_nil, N.add_0_r, pow10_succ.
  replace (n * (10 * 10 ^ lenN l) + (m0 * 10 + (c - 48))) with (c - 48 + (n * 10 ^ lenN l + m0) * 10) by lia.
  rewrite N.mod_add by lia. rewrite N.mod_small by lia. lia.
Qed.
Lemma plain_unique : forall u v k u' v' k', plain u v k -> plain u' v' k' -> v * 10 ^ k' = v' * 10 ^ k -> u = u'.
Proof.
  intros u v k u' v' k' A B E. pose proof (plain_last _ _ _ A) as LA. pose proof (plain_last _ _ _ B) as LB.
  assert (EK : k = k').
  { assert (H : forall v k v' k', v * 10 ^ k' = v' * 10 ^ k -> (k' = 0 \/ v' mod 10 <> 0) -> k < k' -> False).
    { clear. intros v k v' k' E L G. destruct L as [->|L]; [lia|]. apply L.
      assert (E2 : 10 ^ k' = 10 ^ (k' - k - 1) * 10 * 10 ^ k).
      { rewrite <- (N.mul_comm 10), <- N.pow_succ_r', <- N.pow_add_r. f_equal. lia. }
      rewrite E2, !N.mul_assoc in E. apply N.mul_cancel_r in E; [|pose proof (pow10_gt0 k); lia]. rewrite <- E. apply N.mod_mul. lia. }
    destruct (N.lt_trichotomy k k') as [G|[G|G]]; auto; exfalso; eauto. }
  subst k'. apply N.mul_cancel_r in E; [|pose proof (pow10_gt0 k); lia]. subst v'.
  destruct A as (ip & n & fp & m & CA & DA & _ & -> & KA & VA). destruct B as (ip' & n' & fp' & m' & CB & DB & _ & -> & KB & VB).
  pose proof (digits_lt _ _ DA) as MA. pose proof (digits_lt _ _ DB) as MB. rewrite <- KA in *. rewrite <- KB in *.
  assert (H : n = n' /\ m = m') by (apply (N.div_mod_unique (10 ^ k)); auto; lia). destruct H as [<- <-].
  assert (fp = fp') by (apply (digits_inj _ _ m); auto; congruence). subst fp'.
  rewrite (fmt_u_unique _ _ CA), (fmt_u_unique _ _ CB). reflexivity.
Qed.
