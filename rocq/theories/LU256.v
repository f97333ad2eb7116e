(** Lemmas about 256-bit integers: every operation in terms of the value. *)
From Verif Require Import Base MText MU256.
Local Open Scope N_scope.

Definition val (u : u256) : N := hi u * W128 + lo u.
Definition wf (u : u256) : Prop := hi u < W128 /\ lo u < W128.
Definition of_val (v : N) : u256 := U (v / W128) (v mod W128).
Definition W256 : N := W128 * W128.

Lemma W128_pow : W128 = 2 ^ 128. Proof. reflexivity. Qed.
Lemma W256_pow : W256 = 2 ^ 256. Proof. reflexivity. Qed.
Lemma W64_pow : W64 = 2 ^ 64. Proof. reflexivity. Qed.
Lemma W128_64 : W128 = W64 * W64. Proof. reflexivity. Qed.
Lemma pow2_nz : forall n, 2 ^ n <> 0.
Proof. intro. apply N.pow_nonzero. lia. Qed.
Lemma pow2_ge1 : forall n, 1 <= 2 ^ n.
Proof. intro n. pose proof (pow2_nz n). lia. Qed.
Lemma W128_nz : W128 <> 0. Proof. discriminate. Qed.
Lemma W256_nz : W256 <> 0. Proof. discriminate. Qed.
Global Opaque W128 W64.

Lemma divmod_unique : forall b q r, r < b -> (q * b + r) / b = q /\ (q * b + r) mod b = r.
Proof.
  intros b q r H. split.
  - symmetry. apply N.div_unique with r; lia.
  - symmetry. apply N.mod_unique with q; lia.
Qed.
Lemma of_val_val : forall u, wf u -> of_val (val u) = u.
Proof.
  intros [h l] [H L]. unfold of_val, val. cbn [hi lo] in *. destruct (divmod_unique W128 h l L) as [-> ->]. reflexivity.
Qed.
Lemma val_of : forall v, val (of_val v) = v.
Proof. intro v. unfold val, of_val. cbn [hi lo]. pose proof (N.div_mod v W128 W128_nz). lia. Qed.
Lemma wf_of : forall v, v < W256 -> wf (of_val v).
Proof.
  intros v H. split; cbn [of_val hi lo].
  - apply N.div_lt_upper_bound; [apply W128_nz|exact H].
  - apply N.mod_lt, W128_nz.
Qed.
Lemma val_lt : forall u, wf u -> val u < W256.
Proof. intros [h l] [H L]. unfold val, W256. cbn [hi lo] in *. nia. Qed.
Lemma val_inj : forall u v, wf u -> wf v -> val u = val v -> u = v.
Proof. intros. rewrite <- (of_val_val u), <- (of_val_val v) by auto. congruence. Qed.
Lemma of_hl : forall h l, h < W128 -> l < W128 -> U h l = of_val (h * W128 + l).
Proof. intros h l H L. symmetry. apply (of_val_val (U h l)). split; auto. Qed.
Lemma U_eq_of : forall h l v, h < W128 -> l < W128 -> h * W128 + l = v -> U h l = of_val v.
Proof. intros; subst; now apply of_hl. Qed.
Lemma zero_of : U_ZERO = of_val 0. Proof. reflexivity. Qed.
Lemma one_of : U_ONE = of_val 1. Proof. reflexivity. Qed.
Lemma max_of : U_MAX = of_val (W256 - 1). Proof. reflexivity. Qed.
Lemma from_of : forall x, x < W128 -> u_from x = of_val x.
Proof. intros x H. unfold u_from. apply U_eq_of; [reflexivity|auto|lia]. Qed.

(** comparison *)
Lemma ltb_val : forall a b, wf a -> wf b -> u_ltb a b = (val a <? val b).
Proof.
  intros [h l] [h' l'] [H L] [H' L']. unfold u_ltb, val. cbn [hi lo] in *.
  assert (K : forall x y, x < y -> x * W128 + W128 <= y * W128) by (intros; nia).
  destruct (N.lt_trichotomy h h') as [X|[X|X]].
  - rewrite (proj2 (N.ltb_lt h h') X). cbn [orb]. specialize (K _ _ X). symmetry. apply N.ltb_lt. lia.
  - subst h'. rewrite N.ltb_irrefl, N.eqb_refl. cbn [orb andb].
    destruct (N.ltb_spec l l'), (N.ltb_spec (h * W128 + l) (h * W128 + l')); auto; lia.
  - destruct (N.ltb_spec h h'); [lia|]. destruct (N.eqb_spec h h'); [lia|]. cbn [orb andb]. specialize (K _ _ X).
    symmetry. apply N.ltb_ge. lia.
Qed.
Lemma eqb_val : forall a b, wf a -> wf b -> u_eqb a b = (val a =? val b).
Proof.
  intros [h l] [h' l'] [H L] [H' L']. unfold u_eqb, val. cbn [hi lo] in *.
  destruct (N.eqb_spec h h'), (N.eqb_spec l l'), (N.eqb_spec (h * W128 + l) (h' * W128 + l')); cbn [andb]; auto; exfalso; nia.
Qed.
Lemma leb_val : forall a b, wf a -> wf b -> u_leb a b = (val a <=? val b).
Proof. intros. unfold u_leb. rewrite ltb_val by auto. destruct (N.ltb_spec (val b) (val a)), (N.leb_spec (val a) (val b)); auto; lia. Qed.
Lemma is_zero_val : forall a, is_zero a = (val a =? 0).
Proof. intros [h l]. unfold is_zero, val. cbn [hi lo]. pose proof W128_nz. destruct (N.eqb_spec h 0), (N.eqb_spec l 0), (N.eqb_spec (h * W128 + l) 0); cbn [andb]; auto; exfalso; nia. Qed.
Lemma is_one_val : forall a, wf a -> is_one a = (val a =? 1).
Proof.
  intros a H. pose proof (eqb_val a U_ONE H (wf_of 1 eq_refl)) as E. unfold u_eqb, U_ONE in E. cbn [hi lo] in E.
  unfold is_one. rewrite E. reflexivity.
Qed.
Lemma is_max_val : forall a, wf a -> is_max a = (val a =? W256 - 1).
Proof.
  intros a H. pose proof (eqb_val a U_MAX H (wf_of (W256 - 1) eq_refl)) as E. unfold u_eqb, U_MAX in E. cbn [hi lo] in E.
  unfold is_max. rewrite E. reflexivity.
Qed.

(** addition *)
Lemma mod_add_cases : forall W a b, a < W -> b < W -> (a + b) mod W = if W <=? a + b then a + b - W else a + b.
Proof.
  intros W a b A B. destruct (N.leb_spec W (a + b)).
  - symmetry. apply N.mod_unique with 1; lia.
  - apply N.mod_small. lia.
Qed.
Lemma add_val : forall a b, wf a -> wf b ->
  overflowing_add a b = (of_val ((val a + val b) mod W256), W256 <=? val a + val b).
Proof.
  intros a b WA WB. pose proof (val_lt a WA) as LA. pose proof (val_lt b WB) as LB.
  rewrite (mod_add_cases W256) by auto. destruct a as [h l], b as [h' l']. destruct WA as [H L], WB as [H' L'].
  unfold overflowing_add, overflowing_add128, W256, val in *. cbn [hi lo] in *.
  rewrite (mod_add_cases W128 l l'), (mod_add_cases W128 h h') by auto.
  pose proof W128_nz. 
  assert (1 < W128) by reflexivity.
  destruct (N.leb_spec W128 (l + l')) as [O2|O2].
  - destruct (N.leb_spec W128 (h + h')) as [O1|O1].
    + rewrite (mod_add_cases W128) by lia.
      destruct (N.leb_spec W128 (h + h' - W128 + 1)); [lia|].
      destruct (N.leb_spec (W128 * W128) (h * W128 + l + (h' * W128 + l'))); [|exfalso; nia].
      cbn [orb]. f_equal. apply U_eq_of; try lia. nia.
    + rewrite (mod_add_cases W128) by lia.
      destruct (N.leb_spec W128 (h + h' + 1)).
      * destruct (N.leb_spec (W128 * W128) (h * W128 + l + (h' * W128 + l'))); [|exfalso; nia].
        cbn [orb]. f_equal. apply U_eq_of; try lia. nia.
      * destruct (N.leb_spec (W128 * W128) (h * W128 + l + (h' * W128 + l'))); [exfalso; nia|].
        cbn [orb]. f_equal. apply U_eq_of; try lia.
  - destruct (N.leb_spec W128 (h + h')) as [O1|O1].
    + destruct (N.leb_spec (W128 * W128) (h * W128 + l + (h' * W128 + l'))); [|exfalso; nia].
      f_equal. apply U_eq_of; try lia. nia.
    + destruct (N.leb_spec (W128 * W128) (h * W128 + l + (h' * W128 + l'))); [exfalso; nia|].
      f_equal. apply U_eq_of; try lia.
Qed.
Lemma not_val : forall a, wf a -> u_not a = of_val (W256 - 1 - val a).
Proof.
  intros [h l] [H L]. unfold u_not, not128, val, W256. cbn [hi lo] in *. apply U_eq_of; try lia. nia.
Qed.
Lemma wadd_val : forall a b, wf a -> wf b -> wrapping_add a b = of_val ((val a + val b) mod W256).
Proof. intros. unfold wrapping_add. now rewrite add_val. Qed.
Lemma mod_lt256 : forall x, x mod W256 < W256.
Proof. intro. apply N.mod_lt, W256_nz. Qed.
Lemma sub_val : forall a b, wf a -> wf b ->
  overflowing_sub a b = (of_val ((val a + (W256 - val b)) mod W256), val a <? val b).
Proof.
  intros a b WA WB. unfold overflowing_sub. rewrite ltb_val by auto. f_equal.
  pose proof (val_lt a WA). pose proof (val_lt b WB).
  assert (WN : wf (of_val (W256 - 1 - val b))) by (apply wf_of; lia).
  rewrite not_val by auto. rewrite (wadd_val a) by auto.
  rewrite one_of. rewrite wadd_val by (apply wf_of; first [apply mod_lt256 | reflexivity]). rewrite !val_of.
  f_equal. rewrite N.add_mod_idemp_l by apply W256_nz. f_equal. lia.
Qed.
Lemma wsub_val : forall a b, wf a -> wf b -> val b <= val a -> wrapping_sub a b = of_val (val a - val b).
Proof.
  intros a b WA WB L. unfold wrapping_sub. rewrite sub_val by auto. cbn [fst]. f_equal.
  pose proof (val_lt a WA). symmetry. apply N.mod_unique with 1; [lia|]. pose proof (val_lt b WB). lia.
Qed.
Lemma inc_val : forall a, wf a -> wrapping_inc a = of_val ((val a + 1) mod W256).
Proof.
  intros [h l] [H L]. unfold wrapping_inc, val, W256. cbn [hi lo] in *. assert (1 < W128) by reflexivity.
  rewrite (mod_add_cases W128 l 1) by lia. destruct (N.leb_spec W128 (l + 1)).
  - replace (l + 1 - W128) with 0 by lia. change (0 =? 0) with true. cbv iota.
    rewrite (mod_add_cases W128 h 1) by lia. destruct (N.leb_spec W128 (h + 1)).
    + apply U_eq_of; try lia. assert (h = W128 - 1) by lia. assert (l = W128 - 1) by lia. subst h l.
      replace ((W128 - 1) * W128 + (W128 - 1) + 1) with (W128 * W128) by nia. rewrite N.mod_same by nia. lia.
    + apply U_eq_of; try lia. rewrite N.mod_small by nia. nia.
  - destruct (N.eqb_spec (l + 1) 0); [lia|]. apply U_eq_of; try lia. rewrite N.mod_small by nia. lia.
Qed.

Lemma mul_succ_le : forall p a b, a < b -> p * a + p <= p * b.
Proof. intros p a b H. replace (p * a + p) with (p * (a + 1)) by ring. apply N.mul_le_mono_l. lia. Qed.
Lemma two_digits : forall b x y, x < b -> y < b -> x * b + y < b * b.
Proof. intros b x y H L. pose proof (mul_succ_le b x b H). rewrite (N.mul_comm x b). lia. Qed.
(** shifts *)
Lemma pow_split : forall s, s <= 128 -> W128 = 2 ^ s * 2 ^ (128 - s).
Proof. intros s H. rewrite W128_pow, <- N.pow_add_r. f_equal. lia. Qed.
Lemma euclid : forall a b, b <> 0 -> exists q r, a = b * q + r /\ r < b /\ a / b = q /\ a mod b = r.
Proof.
  intros a b H. exists (a / b), (a mod b). split; [apply N.div_mod; auto|]. split; [apply N.mod_lt; auto|]. auto.
Qed.
Lemma div_le_self : forall a b, b <> 0 -> a / b <= a.
Proof. intros a b H. apply N.div_le_upper_bound; auto. rewrite <- (N.mul_1_l a) at 1. apply N.mul_le_mono_r. lia. Qed.
Lemma lt_of_mul : forall p x q b, p <> 0 -> x < q -> b = p * q -> p * x < b.
Proof. intros p x q b NZ H ->. apply N.mul_lt_mono_pos_l; lia. Qed.
Lemma digit_bound : forall q d r p b, b = p * q -> q * d + r < b -> q <> 0 -> d < p.
Proof.
  intros q d r p b -> H NZ. rewrite (N.mul_comm p q) in H. apply (N.mul_lt_mono_pos_l q); [lia|].
  apply N.le_lt_trans with (q * d + r); [|exact H]. apply N.le_add_r.
Qed.
Lemma shl_val : forall a s, wf a -> s < 256 -> wrapping_shl a s = Ret (of_val ((val a * 2 ^ s) mod W256)).
Proof.
  intros [h l] s [H L] S256. unfold wrapping_shl, val, W256. cbn [hi lo] in *. rewrite (N.mod_small s 256) by auto.
  pose proof W128_nz as WZ.
  destruct (N.leb_spec 128 s) as [G|G].
  - f_equal. assert (s mod 128 = s - 128) as -> by (symmetry; apply N.mod_unique with 1; lia).
    unfold shl128. set (t := s - 128). replace (2 ^ s) with (W128 * 2 ^ t) by (rewrite W128_pow, <- N.pow_add_r; f_equal; lia).
    apply U_eq_of; [apply N.mod_lt; auto|lia|].
    replace ((h * W128 + l) * (W128 * 2 ^ t)) with (l * 2 ^ t * W128 + h * 2 ^ t * (W128 * W128)) by ring.
    rewrite N.mod_add by nia. rewrite N.mul_mod_distr_r by auto. apply N.add_0_r.
  - rewrite (N.mod_small s 128) by auto. unfold shl128.
    destruct (N.ltb_spec 0 s) as [P|P].
    + unfold wrapping_shr128, shr128. rewrite (N.mod_small (128 - s) 128) by lia.
      pose proof (pow_split s ltac:(lia)) as PQ. pose proof (pow2_nz s) as PZ. pose proof (pow2_nz (128 - s)) as QZ.
      set (p := 2 ^ s) in *. set (q := 2 ^ (128 - s)) in *. clearbody p q. clear S256 G P s.
      assert (HM : (h * p) mod W128 = p * (h mod q)).
      { rewrite PQ, (N.mul_comm h p). apply N.mul_mod_distr_l; auto. }
      assert (LM : (l * p) mod W128 = p * (l mod q)).
      { rewrite PQ, (N.mul_comm l p). apply N.mul_mod_distr_l; auto. }
      rewrite HM, LM. destruct (euclid h q QZ) as (hq & hr & DH & RH & _ & ->). destruct (euclid l q QZ) as (lq & lr & DL & RL & -> & ->).
      clear HM LM. assert (LD : lq < p) by (apply (digit_bound q lq lr p W128); subst; auto).
      pose proof (mul_succ_le p hr q RH) as MS. rewrite <- PQ in MS.
      assert (B : p * hr + lq < W128) by lia.
      unfold add128. rewrite (proj2 (N.ltb_lt _ _) B). cbn [rbind]. f_equal.
      assert (B2 : p * lr < W128) by (apply (lt_of_mul p lr q); auto).
      apply U_eq_of; [auto|auto|]. apply N.mod_unique with hq; [apply two_digits; auto|].
      rewrite DH, DL, PQ. ring.
    + assert (s = 0) as -> by lia. rewrite N.pow_0_r, !N.mul_1_r. cbn [rbind]. f_equal.
      rewrite (N.mod_small h), (N.mod_small l) by auto. rewrite N.mod_small by (apply two_digits; auto). apply U_eq_of; auto.
Qed.
Lemma shr_val : forall a s, wf a -> s < 256 -> wrapping_shr a s = Ret (of_val (val a / 2 ^ s)).
Proof.
  intros [h l] s [H L] S256. unfold wrapping_shr, val. cbn [hi lo] in *. rewrite (N.mod_small s 256) by auto.
  pose proof W128_nz as WZ.
  destruct (N.leb_spec 128 s) as [G|G].
  - f_equal. assert (s mod 128 = s - 128) as -> by (symmetry; apply N.mod_unique with 1; lia).
    unfold shr128. set (t := s - 128). replace (2 ^ s) with (W128 * 2 ^ t) by (rewrite W128_pow, <- N.pow_add_r; f_equal; lia).
    pose proof (pow2_nz t).
    rewrite <- N.div_div by auto. destruct (divmod_unique W128 h l L) as [-> _].
    apply U_eq_of; [lia|apply N.le_lt_trans with h; auto; apply div_le_self; auto|apply N.add_0_l].
  - rewrite (N.mod_small s 128) by auto. unfold shr128.
    destruct (N.ltb_spec 0 s) as [P|P].
    + unfold wrapping_shl128, shl128. rewrite (N.mod_small (128 - s) 128) by lia.
      pose proof (pow_split s ltac:(lia)) as PQ. pose proof (pow2_nz s) as PZ. pose proof (pow2_nz (128 - s)) as QZ.
      set (p := 2 ^ s) in *. set (q := 2 ^ (128 - s)) in *. clearbody p q. clear S256 G P s.
      assert (HM : (h * q) mod W128 = q * (h mod p)).
      { rewrite PQ, (N.mul_comm h q), (N.mul_comm p q). apply N.mul_mod_distr_l; auto. }
      rewrite HM. clear HM. assert (HP : h / p < W128) by (apply N.le_lt_trans with h; auto; apply div_le_self; auto).
      destruct (euclid h p PZ) as (hq & hr & DH & RH & EQ & ->). rewrite EQ in *. clear EQ.
      destruct (euclid l p PZ) as (lq & lr & DL & RL & -> & _).
      assert (LD : lq < q) by (apply (digit_bound p lq lr q W128); [now rewrite N.mul_comm|subst; auto|auto]).
      pose proof (mul_succ_le q hr p RH) as MS. rewrite (N.mul_comm q p), <- PQ in MS.
      assert (B : lq + q * hr < W128) by lia.
      unfold add128. rewrite (proj2 (N.ltb_lt _ _) B). cbn [rbind]. f_equal.
      apply U_eq_of; auto. apply N.div_unique with lr; [auto|]. rewrite DH, DL, PQ. ring.
    + assert (s = 0) as -> by lia. rewrite N.pow_0_r, !N.div_1_r. cbn [rbind]. f_equal. apply U_eq_of; auto.
Qed.
Lemma div_lt256 : forall v s, v < W256 -> v / 2 ^ s < W256.
Proof. intros v s H. apply N.le_lt_trans with v; auto. apply div_le_self, pow2_nz. Qed.

(** bit length *)
Lemma size_lt : forall n k, n < 2 ^ k -> N.size n <= k.
Proof.
  intros n k H. destruct (N.eq_dec n 0) as [->|NZ]; [cbn; lia|]. rewrite N.size_log2 by auto.
  apply N.le_succ_l. apply N.log2_lt_pow2; lia.
Qed.
Lemma bits_val : forall a, wf a -> bits a = N.size (val a).
Proof.
  intros [h l] [H L]. unfold bits, leading_zeros128, val. cbn [hi lo] in *.
  pose proof (size_lt h 128). pose proof (size_lt l 128). rewrite <- W128_pow in *. specialize (H0 H). specialize (H1 L).
  destruct (N.ltb_spec 0 h) as [P|P].
  - assert (NZ : h * W128 + l <> 0) by (pose proof W128_nz; nia).
    rewrite !N.size_log2 in * by lia.
    assert (N.log2 (h * W128 + l) = N.log2 h + 128); [|lia].
    pose proof (N.log2_spec h P) as [A B]. rewrite N.pow_succ_r' in B.
    apply N.log2_unique' with (c := (h - 2 ^ N.log2 h) * W128 + l); [lia| |]; rewrite N.pow_add_r, <- W128_pow;
      set (k := 2 ^ N.log2 h) in *; clearbody k; clear - A B L; pose proof W128_nz; generalize dependent W128; intros W **.
    + split; [apply N.le_0_l|]. assert (h - k + 1 <= k) as LE by lia. apply N.lt_le_trans with ((h - k + 1) * W).
      * rewrite N.mul_add_distr_r. generalize ((h - k) * W). intro. lia.
      * now apply N.mul_le_mono_r.
    + assert (h = k + (h - k)) as E by lia. rewrite E at 1. generalize (h - k). intro. ring.
  - assert (h = 0) as -> by lia. rewrite N.mul_0_l, N.add_0_l. lia.
Qed.
Lemma size_bound : forall v, v < 2 ^ N.size v.
Proof. apply N.size_gt. Qed.
Lemma size_le : forall v, v <> 0 -> 2 ^ (N.size v - 1) <= v.
Proof.
  intros v NZ. rewrite N.size_log2 by auto. replace (N.succ (N.log2 v) - 1) with (N.log2 v) by lia. apply N.log2_spec. lia.
Qed.

(** multiplication by 64 bits *)
Lemma lor_low : forall k a b, a < 2 ^ k -> N.lor a (b * 2 ^ k) = a + b * 2 ^ k.
Proof.
  intros k a b H. assert (N.land a (b * 2 ^ k) = 0) as Z.
  { apply N.bits_inj_0. intro n. rewrite N.land_spec. destruct (N.lt_ge_cases n k).
    - rewrite <- (N.shiftl_mul_pow2 b k), N.shiftl_spec_low by auto. apply andb_false_r.
    - destruct (N.eq_dec a 0) as [->|NZ]; [rewrite N.bits_0; reflexivity|].
      rewrite (N.bits_above_log2 a n); [reflexivity|]. apply N.lt_le_trans with k; auto. apply N.log2_lt_pow2; lia. }
  rewrite N.add_nocarry_lxor by auto. symmetry. now apply N.lxor_lor.
Qed.
Lemma lor_high : forall k a, N.lor (a * 2 ^ (k + 1)) (2 ^ k) = a * 2 ^ (k + 1) + 2 ^ k.
Proof.
  intros k a. rewrite N.lor_comm. replace (a * 2 ^ (k + 1) + 2 ^ k) with (2 ^ k + a * 2 ^ (k + 1)) by lia.
  apply lor_low. apply N.pow_lt_mono_r; lia.
Qed.
Fixpoint wval (ws : list N) : N := match ws with [] => 0 | w :: ws' => w + W64 * wval ws' end.
Lemma mul_words_ok : forall rhs ws carry, rhs < W64 -> carry < W64 -> Forall (fun w => w < W64) ws ->
  exists r c, mul_words rhs ws carry = Ret (r, c) /\ length r = length ws /\ Forall (fun w => w < W64) r /\ c < W64 /\
    wval r + W64 ^ lenN ws * c = carry + rhs * wval ws.
Proof.
  intros rhs ws. induction ws as [|w ws IH]; intros carry R C F; cbn [mul_words].
  - exists [], carry. rewrite lenN_nil, N.pow_0_r. repeat split; auto. cbn [wval]. lia.
  - inv F. assert (M : rhs * w < W128) by (rewrite W128_64; nia).
    assert (A : carry + rhs * w < W128) by (rewrite W128_64; nia).
    unfold mul128, add128. rewrite (proj2 (N.ltb_lt _ _) M). cbn [rbind]. rewrite (proj2 (N.ltb_lt _ _) A). cbn [rbind].
    set (n := carry + rhs * w) in *.
    assert (W64 <> 0) by discriminate.
    assert (ND : n / W64 < W64) by (apply N.div_lt_upper_bound; auto; rewrite <- W128_64; auto).
    destruct (IH (n / W64) R ND H2) as (r & c & E & LE & FR & CL & V). rewrite E. cbn [rbind].
    exists (n mod W64 :: r), c. pose proof (N.mod_lt n W64 H). pose proof (N.div_mod n W64 H) as DM.
    split; [reflexivity|]. split; [cbn; congruence|]. split; [constructor; auto|]. split; auto.
    cbn [wval]. rewrite lenN_cons, N.add_1_l, N.pow_succ_r'.
    transitivity (n mod W64 + W64 * (wval r + W64 ^ lenN ws * c)); [ring|]. rewrite V.
    transitivity (W64 * (n / W64) + n mod W64 + rhs * (W64 * wval ws)); [ring|]. rewrite <- DM. unfold n. ring.
Qed.
Lemma mul_u64_val : forall a r, wf a -> r < W64 ->
  mul_u64 a r = Ret (of_val ((val a * r) mod W256), W256 <=? val a * r).
Proof.
  intros [h l] r [H L] R. unfold mul_u64, val. cbn [hi lo] in *. assert (W64 <> 0) as Z by discriminate.
  assert (D : forall x, x < W128 -> x / W64 < W64) by (intros; apply N.div_lt_upper_bound; auto; rewrite <- W128_64; auto).
  assert (M : forall x, x mod W64 < W64) by (intro; apply N.mod_lt; auto).
  rewrite (N.mod_small (l / W64)), (N.mod_small (h / W64)) by auto.
  destruct (mul_words_ok r [l mod W64; l / W64; h mod W64; h / W64] 0 R ltac:(reflexivity)) as (ws & c & E & LE & F & CL & V).
  { repeat constructor; auto. }
  rewrite E. cbn [rbind]. destruct ws as [|w0 [|w1 [|w2 [|w3 [|]]]]]; try discriminate.
  inv F. inv H3. inv H5. inv H6. cbn [wval] in V.
  change (lenN [l mod W64; l / W64; h mod W64; h / W64]) with 4 in V.
  pose proof (N.div_mod l W64 Z) as DL. pose proof (N.div_mod h W64 Z) as DH.
  assert (SH : forall w, w < W64 -> shl128 w 64 = w * 2 ^ 64).
  { intros w B. unfold shl128. apply N.mod_small. rewrite W128_64, W64_pow in *. nia. }
  rewrite !SH by auto. rewrite !lor_low by (rewrite <- W64_pow; auto). rewrite <- W64_pow.
  assert (V2 : (w2 + w3 * W64) * W128 + (w0 + w1 * W64) + W256 * c = (h * W128 + l) * r).
  { rewrite <- (N.mul_comm r). replace (W64 ^ 4) with W256 in V by reflexivity.
    transitivity (w0 + W64 * (w1 + W64 * (w2 + W64 * (w3 + W64 * 0))) + W256 * c); [rewrite W128_64; ring|]. rewrite V.
    transitivity (r * ((W64 * (h / W64) + h mod W64) * W128 + (W64 * (l / W64) + l mod W64))); [rewrite W128_64; ring|].
    now rewrite <- DL, <- DH. }
  clear - V2 H2 H3 H4 H5 CL.
  assert (X1 : w2 + w3 * W64 < W128) by (rewrite W128_64, N.add_comm; apply two_digits; auto).
  assert (X0 : w0 + w1 * W64 < W128) by (rewrite W128_64, N.add_comm; apply two_digits; auto).
  assert (B : (w2 + w3 * W64) * W128 + (w0 + w1 * W64) < W256) by (unfold W256; apply two_digits; auto).
  f_equal. f_equal.
  - apply U_eq_of; auto. apply N.mod_unique with c; [auto|]. rewrite <- V2. ring.
  - rewrite <- V2. destruct (N.eqb_spec c 0) as [-> | NZ]; cbn [negb]; symmetry.
    + apply N.leb_gt. now rewrite N.mul_0_r, N.add_0_r.
    + apply N.leb_le. apply N.le_trans with (W256 * c); [|rewrite N.add_comm; apply N.le_add_r].
      rewrite <- (N.mul_1_r W256) at 1. apply N.mul_le_mono_l. lia.
Qed.

(** full multiplication *)
Lemma low_u64_of : forall v, low_u64 (of_val v) = v mod W64.
Proof.
  intro v. unfold low_u64, of_val. cbn [lo]. assert (W64 <> 0) by discriminate.
  rewrite W128_64, N.mod_mul_r by auto. rewrite (N.mul_comm W64), N.mod_add by auto. now apply N.mod_mod.
Qed.
Lemma div_pos_iff : forall x d, d <> 0 -> (0 <? x / d) = (d <=? x).
Proof.
  intros x d NZ. destruct (N.leb_spec d x) as [L|L].
  - apply N.ltb_lt. apply N.div_str_pos. lia.
  - rewrite N.div_small by auto. reflexivity.
Qed.
Lemma gtb0_val : forall a, wf a -> u_ltb U_ZERO a = (0 <? val a).
Proof. intros a W. rewrite ltb_val; auto. rewrite zero_of. apply wf_of. reflexivity. Qed.
Lemma flag_ok : forall X Y P R, P * R = W256 -> P <> 0 ->
  (W256 <=? X) || (W256 <=? Y) || (R <=? Y mod W256) || (W256 <=? X mod W256 + ((Y mod W256) * P) mod W256) = (W256 <=? X + P * Y).
Proof.
  intros X Y P R PR NZ. assert (WZ := W256_nz). generalize dependent W256. intros W PR WZ.
  assert (PY : Y <= P * Y) by (rewrite <- (N.mul_1_l Y) at 1; apply N.mul_le_mono_r; lia).
  destruct (N.leb_spec W X); cbn [orb].
  { symmetry. apply N.leb_le. apply N.le_trans with X; auto. apply N.le_add_r. }
  destruct (N.leb_spec W Y); cbn [orb].
  { symmetry. apply N.leb_le. lia. }
  rewrite (N.mod_small X), (N.mod_small Y) by auto. rewrite (N.mul_comm Y P).
  destruct (N.leb_spec R Y) as [L|L]; cbn [orb].
  - symmetry. apply N.leb_le. apply N.le_trans with (P * Y); [|rewrite N.add_comm; apply N.le_add_r].
    rewrite <- PR. now apply N.mul_le_mono_l.
  - rewrite (N.mod_small (P * Y)); [reflexivity|]. rewrite <- PR. apply N.mul_lt_mono_pos_l; lia.
Qed.
Lemma mul_step : forall a b i is X, wf a -> wf b -> i < 4 ->
  mul_loop a b (i :: is) (of_val (X mod W256)) (W256 <=? X)
  = let T := X + 2 ^ (64 * i) * (val a * ((val b / 2 ^ (64 * i)) mod W64)) in
    mul_loop a b is (of_val (T mod W256)) (W256 <=? T).
Proof.
  intros a b i is X WA WB I. cbn [mul_loop]. assert (64 * i < 256) as I2 by lia.
  rewrite (shr_val b) by auto. cbn [rbind]. rewrite low_u64_of.
  assert (W64 <> 0) by discriminate. pose proof (N.mod_lt (val b / 2 ^ (64 * i)) W64 H) as ML.
  set (m := (val b / 2 ^ (64 * i)) mod W64) in *. rewrite mul_u64_val by auto. cbn [rbind].
  set (Y := val a * m). assert (WY : wf (of_val (Y mod W256))) by apply wf_of, mod_lt256.
  set (P := 2 ^ (64 * i)). assert (NZ : P <> 0) by apply pow2_nz.
  assert (PR : P * 2 ^ (256 - 64 * i) = W256).
  { unfold P. rewrite <- N.pow_add_r, W256_pow. f_equal. lia. }
  assert (OB : exists ob, (if 0 <? i then wrapping_shr (of_val (Y mod W256)) (256 - 64 * i) else Ret U_ZERO) = Ret ob /\
    u_ltb U_ZERO ob = (2 ^ (256 - 64 * i) <=? Y mod W256)).
  { destruct (N.ltb_spec 0 i).
    - rewrite shr_val by (auto; lia). eexists. split; [reflexivity|]. rewrite gtb0_val by (rewrite val_of; apply wf_of, div_lt256, mod_lt256).
      rewrite !val_of. apply div_pos_iff, pow2_nz.
    - assert (i = 0) as -> by lia. eexists. split; [reflexivity|]. change (64 * 0) with 0. rewrite N.sub_0_r, <- W256_pow.
      rewrite gtb0_val by (rewrite zero_of; apply wf_of; reflexivity). rewrite zero_of, val_of. symmetry. apply N.leb_gt, mod_lt256. }
  destruct OB as (ob & -> & OB). cbn [rbind]. rewrite OB. rewrite shl_val by auto. cbn [rbind]. rewrite val_of.
  rewrite add_val by (apply wf_of, mod_lt256). rewrite !val_of. cbv zeta. fold P.
  rewrite (flag_ok X Y P (2 ^ (256 - 64 * i)) PR NZ). f_equal. f_equal.
  rewrite <- N.add_mod by apply W256_nz. rewrite <- (N.add_mod_idemp_r X (Y mod W256 * P)) by apply W256_nz.
  rewrite N.mul_mod_idemp_l by apply W256_nz. rewrite N.add_mod_idemp_r by apply W256_nz. f_equal. ring.
Qed.
Lemma words_sum : forall b, b < W256 ->
  2 ^ (64 * 0) * ((b / 2 ^ (64 * 0)) mod W64) + 2 ^ (64 * 1) * ((b / 2 ^ (64 * 1)) mod W64)
  + 2 ^ (64 * 2) * ((b / 2 ^ (64 * 2)) mod W64) + 2 ^ (64 * 3) * ((b / 2 ^ (64 * 3)) mod W64) = b.
Proof.
  intros b H. assert (W64 <> 0) as Z by discriminate.
  replace (2 ^ (64 * 0)) with 1 by reflexivity. replace (2 ^ (64 * 1)) with W64 by reflexivity.
  replace (2 ^ (64 * 2)) with (W64 * W64) by reflexivity. replace (2 ^ (64 * 3)) with (W64 * (W64 * W64)) by reflexivity.
  rewrite N.div_1_r. rewrite <- !N.div_div by lia.
  unfold W256 in H. rewrite W128_64 in H.
  destruct (euclid b W64 Z) as (q0 & r0 & E0 & R0 & -> & ->).
  destruct (euclid q0 W64 Z) as (q1 & r1 & E1 & R1 & -> & ->).
  destruct (euclid q1 W64 Z) as (q2 & r2 & E2 & R2 & -> & ->).
  assert (Q1 : q0 < W64 * (W64 * W64)) by (apply (digit_bound W64 q0 r0 _ (W64 * W64 * (W64 * W64))); subst; auto; ring).
  assert (Q2 : q1 < W64 * W64) by (apply (digit_bound W64 q1 r1 _ (W64 * (W64 * W64))); subst; auto; ring).
  assert (Q3 : q2 < W64) by (apply (digit_bound W64 q2 r2 _ (W64 * W64)); subst; auto; ring).
  rewrite (N.mod_small q2) by auto. rewrite E0, E1, E2. ring.
Qed.
Lemma mul_val : forall a b, wf a -> wf b ->
  overflowing_mul a b = Ret (of_val ((val a * val b) mod W256), W256 <=? val a * val b).
Proof.
  intros a b WA WB. unfold overflowing_mul.
  change U_ZERO with (of_val (0 mod W256)). change false with (W256 <=? 0).
  rewrite mul_step by (auto; reflexivity). cbv zeta. rewrite mul_step by (auto; reflexivity). cbv zeta.
  rewrite mul_step by (auto; reflexivity). cbv zeta. rewrite mul_step by (auto; reflexivity). cbv zeta. cbn [mul_loop].
  match goal with |- Ret (of_val (?t mod _), _) = _ => assert (E : t = val a * val b) end.
  { rewrite <- (words_sum (val b)) at 5 by now apply val_lt. ring. }
  now rewrite E.
Qed.

(** division *)
Definition qval (r0 r1 : N) : N := r0 * W128 + r1.
Lemma set_bit_ok : forall s r0 r1 Q, s < 256 -> r0 < W128 -> r1 < W128 -> qval r0 r1 = Q * 2 ^ (s + 1) ->
  let r0' := if s / 128 =? 1 then N.lor r0 (shl128 1 (s mod 128)) else r0 in
  let r1' := if s / 128 =? 1 then r1 else N.lor r1 (shl128 1 (s mod 128)) in
  r0' < W128 /\ r1' < W128 /\ qval r0' r1' = (2 * Q + 1) * 2 ^ s.
Proof.
  intros s r0 r1 Q S R0 R1 E. unfold qval in *. destruct (N.lt_ge_cases s 128) as [L|L].
  - rewrite N.div_small by auto. change (0 =? 1) with false. cbv iota. cbv zeta. rewrite N.mod_small by auto. unfold shl128. rewrite N.mul_1_l.
    assert (PL : 2 ^ s < W128) by (rewrite W128_pow; apply N.pow_lt_mono_r; lia). rewrite N.mod_small by auto.
    pose proof (pow_split (s + 1) ltac:(lia)) as PQ. set (p := 2 ^ (s + 1)) in *. set (q := 2 ^ (128 - (s + 1))) in *.
    assert (NZ : p <> 0) by apply pow2_nz.
    assert (r1 mod p = 0) as M.
    { assert ((Q * p) mod p = 0) as M by (apply N.mod_mul; auto). rewrite <- E, PQ in M.
      replace (r0 * (p * q) + r1) with (r1 + r0 * q * p) in M by ring. rewrite N.mod_add in M; auto. }
    destruct (euclid r1 p NZ) as (d & r & D & _ & _ & RM). rewrite M in RM. subst r. rewrite N.add_0_r in D.
    rewrite D, (N.mul_comm p d). unfold p. rewrite lor_high. fold p.
    assert (d < q) as DQ by (apply (digit_bound p d 0 q W128); [rewrite PQ; ring|rewrite N.add_0_r, <- D; auto|auto]).
    pose proof (mul_succ_le p d q DQ) as MS. rewrite <- PQ in MS.
    assert (P2 : p = 2 * 2 ^ s) by (unfold p; rewrite N.add_1_r; apply N.pow_succ_r').
    split; [auto|]. split; [rewrite (N.mul_comm d p); pose proof (pow2_nz s); lia|].
    transitivity (r0 * W128 + r1 + 2 ^ s); [rewrite D; ring|]. rewrite E, P2. ring.
  - assert (D1 : s / 128 = 1) by (symmetry; apply N.div_unique with (s - 128); lia).
    assert (M1 : s mod 128 = s - 128) by (symmetry; apply N.mod_unique with 1; lia).
    rewrite D1, M1. change (1 =? 1) with true. cbv iota. cbv zeta. set (t := s - 128).
    assert (T : t < 128) by (unfold t; lia). assert (ST : s = 128 + t) by (unfold t; lia). clearbody t. subst s. clear D1 M1 L S.
    unfold shl128. rewrite N.mul_1_l. assert (PL : 2 ^ t < W128) by (rewrite W128_pow; apply N.pow_lt_mono_r; lia). rewrite N.mod_small by auto.
    replace (128 + t + 1) with (128 + (t + 1)) in E by lia. rewrite N.pow_add_r, <- W128_pow in E. rewrite N.pow_add_r, <- W128_pow.
    pose proof (pow_split (t + 1) ltac:(lia)) as PQ. set (p := 2 ^ (t + 1)) in *. set (q := 2 ^ (128 - (t + 1))) in *.
    assert (NZ : p <> 0) by apply pow2_nz.
    assert (r1 = 0 /\ r0 = Q * p) as [-> ->].
    { destruct (divmod_unique W128 r0 r1 R1) as [DD MM]. rewrite E in DD, MM. replace (Q * (W128 * p)) with (Q * p * W128) in * by ring.
      rewrite N.div_mul in DD by apply W128_nz. rewrite N.mod_mul in MM by apply W128_nz. auto. }
    unfold p. rewrite lor_high. fold p. assert (P2 : p = 2 * 2 ^ t) by (unfold p; rewrite N.add_1_r; apply N.pow_succ_r').
    assert (DQ : Q < q) by (apply (digit_bound p Q 0 q W128); [rewrite PQ; ring|rewrite N.add_0_r, N.mul_comm; auto|auto]).
    pose proof (mul_succ_le p Q q DQ) as MS. rewrite <- PQ in MS.
    split; [rewrite (N.mul_comm Q p); pose proof (pow2_nz t); lia|]. split; [reflexivity|]. rewrite P2. ring.
Qed.
Lemma div_loop_val : forall n D sub r0 r1 Q, N.of_nat n < 256 -> 0 < D -> D * 2 ^ N.of_nat n < W256 -> sub < W256 -> sub < D * 2 ^ (N.of_nat n + 1) ->
  r0 < W128 -> r1 < W128 -> qval r0 r1 = Q * 2 ^ (N.of_nat n + 1) ->
  div_loop n (of_val sub) (of_val (D * 2 ^ N.of_nat n)) r0 r1 = Ret (of_val (qval r0 r1 + sub / D), of_val (sub mod D)).
Proof.
  induction n as [|n IH]; intros D sub r0 r1 Q NB DP DB SB SD R0 R1 E;
    match goal with |- div_loop ?k _ _ _ _ = _ => set (s := N.of_nat k) in * end; cbn [div_loop]; fold s; rewrite leb_val by (apply wf_of; auto); rewrite !val_of;
    pose proof (set_bit_ok s r0 r1 Q NB R0 R1 E) as (B0 & B1 & E1);
    destruct (N.leb_spec (D * 2 ^ s) sub) as [L|L];
    rewrite ?wsub_val, ?val_of by (try apply wf_of; rewrite ?val_of; auto); rewrite shr_val by (try apply wf_of; auto; reflexivity); cbn [rbind]; rewrite ?val_of;
    assert (PS : 2 ^ (s + 1) = 2 * 2 ^ s) by (rewrite N.add_1_r; apply N.pow_succ_r').
  - change (2 ^ s) with 1 in *. change (2 ^ (s + 1)) with 2 in *. rewrite N.mul_1_r in *.
    assert (sub / D = 1) as -> by (symmetry; apply N.div_unique with (sub - D); lia).
    assert (sub mod D = sub - D) as -> by (symmetry; apply N.mod_unique with 1; lia).
    f_equal. f_equal. apply U_eq_of; auto. change (r0 * W128 + r1) with (qval r0 r1). rewrite E. unfold qval in E1. rewrite E1. ring.
  - change (2 ^ s) with 1 in *. rewrite N.mul_1_r in *. rewrite N.div_small, N.mod_small by auto. rewrite N.add_0_r.
    f_equal. f_equal. apply U_eq_of; auto.
  - assert (SN : s = N.of_nat n + 1) by (unfold s; lia). clearbody s. subst s. set (s := N.of_nat n) in *.
    assert (PS2 : 2 ^ (s + 1) = 2 * 2 ^ s) by (rewrite N.add_1_r; apply N.pow_succ_r').
    assert (DH : D * 2 ^ (s + 1) / 2 ^ 1 = D * 2 ^ s).
    { change (2 ^ 1) with 2. rewrite PS2. replace (D * (2 * 2 ^ s)) with (D * 2 ^ s * 2) by ring. apply N.div_mul. discriminate. }
    rewrite DH. set (k := 2 ^ (s + 1)) in *.
    assert (E2 : sub = (sub - D * k) + k * D) by (rewrite (N.mul_comm k D); lia).
    rewrite (IH D (sub - D * k) _ _ (2 * Q + 1)); auto; try lia; try (fold s; fold k; lia).
    + f_equal. f_equal.
      * f_equal. rewrite E1, E. rewrite E2 at 2. rewrite N.div_add by lia. rewrite PS. ring.
      * f_equal. rewrite E2 at 2. now rewrite N.mod_add by lia.
  - assert (SN : s = N.of_nat n + 1) by (unfold s; lia). clearbody s. subst s. set (s := N.of_nat n) in *.
    assert (PS2 : 2 ^ (s + 1) = 2 * 2 ^ s) by (rewrite N.add_1_r; apply N.pow_succ_r').
    assert (DH : D * 2 ^ (s + 1) / 2 ^ 1 = D * 2 ^ s).
    { change (2 ^ 1) with 2. rewrite PS2. replace (D * (2 * 2 ^ s)) with (D * 2 ^ s * 2) by ring. apply N.div_mul. discriminate. }
    rewrite DH. set (k := 2 ^ (s + 1)) in *.
    rewrite (IH D sub _ _ (2 * Q)); auto; try lia; try (fold s; fold k; lia).
Qed.
Lemma div_rem_val : forall a b, wf a -> wf b -> val b <> 0 ->
  div_rem a b = Ret (of_val (val a / val b), of_val (val a mod val b)).
Proof.
  intros a b WA WB NZ. unfold div_rem. rewrite !bits_val by auto.
  pose proof (size_bound (val a)) as SA. pose proof (size_bound (val b)) as SB.
  assert (N.size (val b) <> 0) as Z. { intro X. rewrite X in SB. change (2 ^ 0) with 1 in SB. lia. }
  rewrite (proj2 (N.eqb_neq _ 0) Z).
  pose proof (val_lt a WA) as LA. pose proof (val_lt b WB) as LB.
  pose proof (size_lt (val a) 256) as S1. rewrite <- W256_pow in S1. specialize (S1 LA).
  pose proof (size_le (val b) NZ) as PB.
  destruct (N.ltb_spec (N.size (val a)) (N.size (val b))) as [L|L].
  - assert (val a < val b).
    { apply N.lt_le_trans with (2 ^ N.size (val a)); auto. apply N.le_trans with (2 ^ (N.size (val b) - 1)); auto. apply N.pow_le_mono_r; lia. }
    rewrite N.div_small, N.mod_small by auto. rewrite of_val_val by auto. reflexivity.
  - set (s := N.size (val a) - N.size (val b)) in *. assert (SS : s < 256) by lia.
    assert (DB : val b * 2 ^ s < W256).
    { apply N.lt_le_trans with (2 ^ N.size (val b) * 2 ^ s); [apply N.mul_lt_mono_pos_r; auto; pose proof (pow2_nz s); lia|].
      rewrite <- N.pow_add_r, W256_pow. apply N.pow_le_mono_r; lia. }
    rewrite shl_val by auto. cbn [rbind]. rewrite (N.mod_small (val b * 2 ^ s)) by auto.
    rewrite <- (of_val_val a WA) at 1. rewrite <- (N2Nat.id s) at 2.
    rewrite (div_loop_val _ _ _ _ _ 0); rewrite ?N2Nat.id; auto; try reflexivity; try lia.
    apply N.lt_le_trans with (2 ^ N.size (val a)); auto.
    apply N.le_trans with (2 ^ (N.size (val b) - 1) * 2 ^ (s + 1)); [|now apply N.mul_le_mono_r].
    rewrite <- N.pow_add_r. apply N.pow_le_mono_r; lia.
Qed.
