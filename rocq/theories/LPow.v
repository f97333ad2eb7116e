(** Lemmas on targets, work and retargeting. *)
From Verif Require Import Base MWitness MAmount MTx MLock MText MU256 SU256 LU256 LU256T LU256P MPow SPow.
Local Open Scope N_scope.

Lemma pow256 : forall n, 256 ^ n = 2 ^ (8 * n).
Proof. intro n. change 256 with (2 ^ 8). symmetry. apply N.pow_mul_r. Qed.
Lemma pow256_nz : forall n, 256 ^ n <> 0.
Proof. intro n. rewrite pow256. apply pow2_nz. Qed.
(** the mantissa and the result of from_compact *)
Definition fmant (c : N) : N := let e := c / 2 ^ 24 in if e <=? 3 then (c mod 2 ^ 24) / 256 ^ (3 - e) else c mod 2 ^ 24.
Definition foverflow (c : N) : bool :=
  negb (fmant c =? 0) && ((34 <? c / 2 ^ 24) || ((0xFF <? fmant c) && (33 <? c / 2 ^ 24)) || ((0xFFFF <? fmant c) && (32 <? c / 2 ^ 24))).
Definition fval (c : N) : N := if (0x7FFFFF <? fmant c) || foverflow c then 0 else fmant c * 256 ^ (c / 2 ^ 24 - 3).
Lemma fmant_lt : forall c, fmant c < 2 ^ 24.
Proof.
  intro c. unfold fmant. cbv zeta. assert (M : c mod 2 ^ 24 < 2 ^ 24) by (apply N.mod_lt; discriminate).
  destruct (c / 2 ^ 24 <=? 3); [|exact M]. apply N.le_lt_trans with (c mod 2 ^ 24); auto. apply div_le_self, pow256_nz.
Qed.
Lemma fval_lt : forall c, fval c < W256.
Proof.
  intro c. unfold fval. pose proof (fmant_lt c) as ML. destruct (N.ltb_spec 0x7FFFFF (fmant c)) as [A|A]; cbn [orb]; [reflexivity|].
  unfold foverflow. set (m := fmant c) in *. set (e := c / 2 ^ 24). clearbody m e. rewrite W256_pow.
  destruct (N.eqb_spec m 0) as [-> | NZ]; cbn [negb andb]; [rewrite N.mul_0_l; reflexivity|].
  assert (B : forall k j, m <= k -> e <= j -> (k + 1) * 256 ^ (j - 3) <= 2 ^ 256 -> m * 256 ^ (e - 3) < 2 ^ 256).
  { intros k j K J L. apply N.lt_le_trans with ((k + 1) * 256 ^ (j - 3)); auto.
    apply N.lt_le_trans with ((k + 1) * 256 ^ (e - 3)).
    - apply N.mul_lt_mono_pos_r; [|lia]. pose proof (pow256_nz (e - 3)). lia.
    - apply N.mul_le_mono_l. apply N.pow_le_mono_r; lia. }
  destruct (N.ltb_spec 34 e) as [E|E]; cbn [orb]; [reflexivity|].
  destruct (N.ltb_spec 0xFF m) as [C|C]; cbn [andb].
  2:{ cbn [orb]. destruct (N.ltb_spec 0xFFFF m); [lia|]. cbn [andb]. apply (B 0xFF 34); auto. discriminate. }
  destruct (N.ltb_spec 33 e) as [D|D]; cbn [orb]; [reflexivity|].
  destruct (N.ltb_spec 0xFFFF m) as [F|F]; cbn [andb]; [|apply (B 0xFFFF 33); auto; discriminate].
  destruct (N.ltb_spec 32 e) as [G|G]; [reflexivity|]. apply (B 0x7FFFFF 32); auto. discriminate.
Qed.
Lemma from_compact_val : forall c, from_compact c = Ret (of_val (fval c)).
Proof.
  intro c. unfold from_compact, fval, foverflow. rewrite !N.shiftr_div_pow2.
  change 0xFFFFFF with (N.ones 24). rewrite N.land_ones.
  replace (if c / 2 ^ 24 <=? 3 then (c mod 2 ^ 24 / 2 ^ (8 * (3 - c / 2 ^ 24)), 0) else (c mod 2 ^ 24, 8 * (c / 2 ^ 24 - 3)))
    with (fmant c, 8 * (c / 2 ^ 24 - 3)).
  2:{ unfold fmant. cbv zeta. destruct (N.leb_spec (c / 2 ^ 24) 3) as [L|L]; [|reflexivity].
      rewrite pow256. f_equal. rewrite (proj2 (N.sub_0_le _ _) L). reflexivity. }
  pose proof (fval_lt c) as FL. unfold fval, foverflow in FL. pose proof (fmant_lt c) as ML.
  set (m := fmant c) in *. set (e := c / 2 ^ 24) in *. clearbody m e.
  destruct ((8388607 <? m) || (negb (m =? 0) && ((34 <? e) || (255 <? m) && (33 <? e) || (65535 <? m) && (32 <? e)))) eqn:B.
  - reflexivity.
  - assert (M128 : m < W128) by (apply N.lt_trans with (2 ^ 24); auto; reflexivity).
    rewrite from_of by auto. destruct (N.eq_dec m 0) as [-> | NZ].
    + rewrite N.mul_0_l. assert (SH : forall s, wrapping_shl (of_val 0) s = Ret (of_val 0)).
      { intro s. assert (E1 : wrapping_shl (of_val 0) s = wrapping_shl (of_val 0) (s mod 256)) by (unfold wrapping_shl; now rewrite N.mod_mod by discriminate).
        rewrite E1, shl_val; [rewrite val_of, N.mul_0_l; reflexivity|apply wf_of; reflexivity|apply N.mod_lt; discriminate]. }
      apply SH.
    + apply orb_false_iff in B as [B1 B2]. rewrite (proj2 (N.eqb_neq _ _) NZ) in B2. cbn [negb andb] in B2.
      apply orb_false_iff in B2 as [B2 _]. apply orb_false_iff in B2 as [B2 _]. apply N.ltb_ge in B2.
      rewrite shl_val by (try lia; apply wf_of; apply N.lt_trans with W128; auto; reflexivity). rewrite val_of, <- pow256.
      now rewrite N.mod_small.
Qed.

(** agreement with consensus *)
Lemma bit23 : forall c, N.testbit c 23 = (2 ^ 23 <=? c mod 2 ^ 24).
Proof.
  intro c. assert (2 ^ 24 = 2 ^ 23 * 2) as -> by reflexivity. rewrite N.mod_mul_r by discriminate.
  assert (T : N.testbit c 23 = N.odd (c / 2 ^ 23)) by (rewrite <- N.shiftr_div_pow2, N.testbit_odd; reflexivity).
  rewrite T. pose proof (N.mod_lt c (2 ^ 23) ltac:(discriminate)). generalize dependent (c mod 2 ^ 23). intros x X.
  assert (O : (c / 2 ^ 23) mod 2 = if N.odd (c / 2 ^ 23) then 1 else 0).
  { generalize (c / 2 ^ 23). intro y. destruct (N.odd y) eqn:E; [apply N.odd_spec in E as [k ->]|rewrite <- N.negb_even in E; apply negb_false_iff, N.even_spec in E as [k ->]].
    - symmetry. apply N.mod_unique with k; lia.
    - symmetry. apply N.mod_unique with k; lia. }
  rewrite O. destruct (N.odd (c / 2 ^ 23)); symmetry; [apply N.leb_le|apply N.leb_gt]; lia.
Qed.
Lemma word_mod : forall c, c mod 2 ^ 24 = nbits_word c + (if nbits_sign c then 2 ^ 23 else 0).
Proof.
  intro c. unfold nbits_word, nbits_sign. rewrite bit23. assert (2 ^ 24 = 2 ^ 23 * 2) as E by reflexivity. rewrite E.
  rewrite N.mod_mul_r by discriminate. pose proof (N.mod_lt c (2 ^ 23) ltac:(discriminate)).
  pose proof (N.mod_lt (c / 2 ^ 23) 2 ltac:(discriminate)).
  generalize dependent (c mod 2 ^ 23). generalize dependent ((c / 2 ^ 23) mod 2). intros y Y x X.
  assert (y = 0 \/ y = 1) as [-> | ->] by lia; destruct (N.leb_spec (2 ^ 23) (x + 2 ^ 23 * 0)), (N.leb_spec (2 ^ 23) (x + 2 ^ 23 * 1)); lia.
Qed.
Lemma overflow_ge : forall m e, m <> 0 -> (34 <? e) || (255 <? m) && (33 <? e) || (65535 <? m) && (32 <? e) = true -> 2 ^ 256 <= m * 256 ^ (e - 3).
Proof.
  intros m e NZ H. assert (B : forall k j, k <= m -> j <= e -> 2 ^ 256 <= k * 256 ^ (j - 3) -> 2 ^ 256 <= m * 256 ^ (e - 3)).
  { intros k j K J L. apply N.le_trans with (k * 256 ^ (j - 3)); auto. apply N.mul_le_mono; auto. apply N.pow_le_mono_r; lia. }
  apply orb_true_iff in H as [H|H]; [apply orb_true_iff in H as [H|H]|].
  - apply N.ltb_lt in H. apply (B 1 35); try lia. discriminate.
  - apply andb_true_iff in H as [H1 H2]. apply N.ltb_lt in H1, H2. apply (B 256 34); try lia. discriminate.
  - apply andb_true_iff in H as [H1 H2]. apply N.ltb_lt in H1, H2. apply (B 65536 33); try lia. discriminate.
Qed.
Lemma fval_consensus : forall c, 3 <= nbits_size c \/ nbits_sign c = false -> fval c = nbits_target c.
Proof.
  intros c H. unfold nbits_target. pose proof (word_mod c) as WM. pose proof (N.mod_lt c (2 ^ 23) ltac:(discriminate)) as WL. fold (nbits_word c) in WL.
  destruct (nbits_sign c) eqn:SG.
  - destruct H as [H|H]; [|discriminate]. unfold fval. assert (FM : fmant c = nbits_word c + 2 ^ 23).
    { unfold fmant. cbv zeta. fold (nbits_size c). destruct (N.leb_spec (nbits_size c) 3) as [L|L]; [|exact WM].
      assert (nbits_size c = 3) as -> by lia. change (256 ^ (3 - 3)) with 1. now rewrite N.div_1_r. }
    rewrite FM. change (2 ^ 23) with 8388608 in *. destruct (N.ltb_spec 0x7FFFFF (nbits_word c + 8388608)); [|lia]. cbn [orb andb].
    destruct (N.eqb_spec (nbits_magnitude c) 0) as [-> | NE]; cbn [negb orb]; [|reflexivity]. destruct (2 ^ 256 <=? 0); reflexivity.
  - clear H. rewrite N.add_0_r in WM. cbn [andb orb].
    assert (MAG : nbits_magnitude c = fmant c * 256 ^ (c / 2 ^ 24 - 3)).
    { unfold nbits_magnitude, fmant. cbv zeta. fold (nbits_size c). rewrite WM. destruct (N.leb_spec (nbits_size c) 3) as [L|L]; [|reflexivity].
      rewrite (proj2 (N.sub_0_le _ _) L), N.pow_0_r. now rewrite N.mul_1_r. }
    assert (FL : fmant c <= 0x7FFFFF).
    { unfold fmant. cbv zeta. rewrite WM. change (2 ^ 23) with 8388608 in WL. destruct (c / 2 ^ 24 <=? 3); [|lia].
      apply N.le_trans with (nbits_word c); [apply div_le_self, pow256_nz|lia]. }
    pose proof (fval_lt c) as LT. rewrite W256_pow in LT. rewrite MAG. unfold fval in *. destruct (N.ltb_spec 0x7FFFFF (fmant c)); [lia|]. cbn [orb] in *.
    destruct (foverflow c) eqn:OV.
    + unfold foverflow in OV. apply andb_true_iff in OV as [NZ OV]. apply negb_true_iff, N.eqb_neq in NZ.
      pose proof (overflow_ge _ _ NZ OV) as G. now rewrite (proj2 (N.leb_le _ _) G).
    + now rewrite (proj2 (N.leb_gt _ _) LT).
Qed.

(** encoding *)
Definition enc_word (v s : N) : N := if s <=? 3 then v * 256 ^ (3 - s) else v / 256 ^ (s - 3).
Lemma signed_size_fun : forall v s s', signed_size v s -> signed_size v s' -> s = s'.
Proof. intros v s s' [A B] [C D]. apply N.le_antisymm; auto. Qed.
Lemma signed_size_zero : signed_size 0 0.
Proof. split; [reflexivity|]. intros. apply N.le_0_l. Qed.
Lemma signed_size_pos : forall v s, v <> 0 -> signed_size v s -> 1 <= s.
Proof. intros v s NZ [A _]. destruct (N.eq_dec s 0) as [-> |]; [|lia]. change (2 ^ (8 * 0 - 1)) with 1 in A. lia. Qed.
Lemma signed_size_low : forall v s, v <> 0 -> signed_size v s -> s = 1 \/ (2 <= s /\ 2 ^ (8 * (s - 1) - 1) <= v).
Proof.
  intros v s NZ H. pose proof (signed_size_pos v s NZ H). destruct (N.eq_dec s 1); auto. right. split; [lia|].
  apply N.nlt_ge. intro L. destruct H as [_ B]. specialize (B _ L). lia.
Qed.
Lemma signed_size_intro : forall v s, v < 2 ^ (8 * s - 1) -> (s = 0 \/ (s = 1 /\ v <> 0) \/ 2 ^ (8 * (s - 1) - 1) <= v) -> signed_size v s.
Proof.
  intros v s H L. split; auto. intros s' H'. destruct L as [-> |[[-> NZ]|L]]; [apply N.le_0_l| |].
  - destruct (N.eq_dec s' 0) as [-> |]; [|lia]. change (2 ^ (8 * 0 - 1)) with 1 in H'. lia.
  - apply N.nlt_ge. intro LT. apply (N.lt_irrefl v). apply N.lt_le_trans with (2 ^ (8 * s' - 1)); auto.
    apply N.le_trans with (2 ^ (8 * (s - 1) - 1)); auto. apply N.pow_le_mono_r; lia.
Qed.
Lemma lor_add24 : forall w s, w < 2 ^ 24 -> N.lor w (s * 2 ^ 24) = w + s * 2 ^ 24.
Proof. intros. now apply lor_low. Qed.
Lemma land_bit23 : forall w, w < 2 ^ 24 -> (N.land w 0x800000 =? 0) = (w <? 2 ^ 23).
Proof.
  intros w H. change 0x800000 with (2 ^ 23).
  assert (T : (N.land w (2 ^ 23) =? 0) = negb (N.testbit w 23)).
  { destruct (N.testbit w 23) eqn:B; cbn [negb].
    - apply N.eqb_neq. intro X. assert (Y : N.testbit (N.land w (2 ^ 23)) 23 = false) by (rewrite X; apply N.bits_0).
      rewrite N.land_spec, B, N.pow2_bits_true in Y. discriminate.
    - apply N.eqb_eq, N.bits_inj_0. intro n. rewrite N.land_spec, N.pow2_bits_eqb. destruct (N.eqb_spec 23 n) as [<- |]; [rewrite B|rewrite andb_false_r]; reflexivity. }
  rewrite T, bit23. rewrite (N.mod_small w) by auto. now rewrite N.ltb_antisym.
Qed.
Lemma to_compact_val : forall t s, wf t -> signed_size (val t) s ->
  to_compact_lossy t = Ret (enc_word (val t) s + s * 2 ^ 24) /\ s <= 33 /\ enc_word (val t) s < 2 ^ 23 /\
  (val t <> 0 -> 2 ^ 15 <= enc_word (val t) s).
Proof.
  intros t s W SS. pose proof (val_lt t W) as VL. unfold to_compact_lossy. rewrite bits_val by auto. set (v := val t) in *.
  set (b := N.size v). set (z := (b + 7) / 8).
  destruct (N.eq_dec v 0) as [V0|NZ].
  { assert (s = 0) by (apply (signed_size_fun v); auto; rewrite V0; apply signed_size_zero). subst s.
    assert (t = U_ZERO) as -> by (rewrite <- (of_val_val t W); fold v; rewrite V0; symmetry; apply zero_of).
    unfold z, b. rewrite V0. split; [reflexivity|]. split; [discriminate|]. split; [reflexivity|]. congruence. }
  pose proof (size_bound v) as SB. pose proof (size_le v NZ) as SL. fold b in SB, SL.
  assert (B256 : b <= 256) by (apply size_lt; rewrite <- W256_pow; auto).
  assert (B1 : 1 <= b). { destruct (N.eq_dec b 0) as [E|]; [|lia]. rewrite E in SB. change (2 ^ 0) with 1 in SB. lia. }
  assert (Z1 : b <= 8 * z /\ 8 * z <= b + 7) by (unfold z; pose proof (N.div_mod (b + 7) 8 ltac:(discriminate)); pose proof (N.mod_lt (b + 7) 8 ltac:(discriminate)); lia).
  clearbody z. assert (VZ : v < 2 ^ (8 * z)) by (apply N.lt_le_trans with (2 ^ b); auto; apply N.pow_le_mono_r; lia).
  assert (VZL : 2 ^ (8 * (z - 1)) <= v) by (apply N.le_trans with (2 ^ (b - 1)); auto; apply N.pow_le_mono_r; lia).
  assert (Z2 : 1 <= z <= 32) by lia. clearbody b. clear Z1 SB SL B256 B1 b.
  (* the first word *)
  set (w0 := enc_word v z).
  assert (W0 : (if z <=? 3 then Ret (((low_u64 t * 2 ^ (8 * (3 - z))) mod W64) mod 2 ^ 32)
         else rbind (wrapping_shr t (8 * (z - 3))) (fun bn => Ret (low_u32 bn))) = Ret w0 /\ 2 ^ 16 <= w0 /\ w0 < 2 ^ 24).
  { unfold w0, enc_word. rewrite pow256, (pow256 (z - 3)). destruct (N.leb_spec z 3) as [L|L].
    - assert (V24 : v * 2 ^ (8 * (3 - z)) < 2 ^ 24).
      { apply N.lt_le_trans with (2 ^ (8 * z) * 2 ^ (8 * (3 - z))); [apply N.mul_lt_mono_pos_r; auto; pose proof (pow2_nz (8 * (3 - z))); lia|].
        rewrite <- N.pow_add_r. apply N.pow_le_mono_r; lia. }
      assert (V16 : 2 ^ 16 <= v * 2 ^ (8 * (3 - z))).
      { apply N.le_trans with (2 ^ (8 * (z - 1)) * 2 ^ (8 * (3 - z))); [rewrite <- N.pow_add_r; apply N.pow_le_mono_r; lia|now apply N.mul_le_mono_r]. }
      assert (LV : low_u64 t = v).
      { rewrite low_u64_val by auto. fold v. apply N.mod_small. apply N.lt_le_trans with (2 ^ (8 * z)); auto. rewrite W64_pow. apply N.pow_le_mono_r; lia. }
      rewrite LV. rewrite (N.mod_small _ W64) by (apply N.lt_trans with (2 ^ 24); auto; reflexivity).
      rewrite (N.mod_small _ (2 ^ 32)) by (apply N.lt_trans with (2 ^ 24); auto; reflexivity). auto.
    - rewrite shr_val by (auto; lia). cbn [rbind]. fold v. rewrite low_u32_of by (apply wf_of, div_lt256; auto). rewrite val_of.
      assert (V24 : v / 2 ^ (8 * (z - 3)) < 2 ^ 24).
      { apply N.div_lt_upper_bound; [apply pow2_nz|]. rewrite <- N.pow_add_r. replace (8 * (z - 3) + 24) with (8 * z) by lia. auto. }
      assert (V16 : 2 ^ 16 <= v / 2 ^ (8 * (z - 3))).
      { apply N.div_le_lower_bound; [apply pow2_nz|]. rewrite <- N.pow_add_r. replace (8 * (z - 3) + 16) with (8 * (z - 1)) by lia. auto. }
      rewrite N.mod_small by (apply N.lt_trans with (2 ^ 24); auto; reflexivity). auto. }
  destruct W0 as (E0 & L0 & H0). rewrite E0. cbn [rbind]. rewrite land_bit23 by auto.
  destruct (N.ltb_spec w0 (2 ^ 23)) as [C|C]; cbn [negb].
  - assert (SZ : signed_size v z).
    { apply signed_size_intro.
      - unfold w0, enc_word in C. rewrite pow256, (pow256 (z - 3)) in C. destruct (N.leb_spec z 3) as [L|L].
        + apply (N.mul_lt_mono_pos_r (2 ^ (8 * (3 - z)))); [pose proof (pow2_nz (8 * (3 - z))); lia|].
          rewrite <- N.pow_add_r. replace (8 * z - 1 + 8 * (3 - z)) with 23 by lia. exact C.
        + apply N.nle_gt. intro X. apply (N.lt_irrefl (2 ^ 23)). apply N.le_lt_trans with (v / 2 ^ (8 * (z - 3))); auto.
          apply N.div_le_lower_bound; [apply pow2_nz|]. rewrite <- N.pow_add_r. replace (8 * (z - 3) + 23) with (8 * z - 1) by lia. auto.
      - destruct (N.eq_dec z 1) as [-> |]; [auto|]. right. right. apply N.le_trans with (2 ^ (8 * (z - 1))); auto. apply N.pow_le_mono_r; lia. }
    rewrite (signed_size_fun _ _ _ SS SZ). fold w0.
    rewrite (N.mod_small (z * 2 ^ 24)) by (apply N.le_lt_trans with (32 * 2 ^ 24); [apply N.mul_le_mono_r; lia|reflexivity]).
    rewrite lor_add24 by auto. split; [reflexivity|]. split; [lia|]. split; [auto|]. intros _. apply N.le_trans with (2 ^ 16); auto. discriminate.
  - assert (SZ : signed_size v (z + 1)).
    { apply signed_size_intro.
      - apply N.lt_le_trans with (2 ^ (8 * z)); auto. apply N.pow_le_mono_r; lia.
      - right. right. replace (z + 1 - 1) with z by lia.
        unfold w0, enc_word in C. rewrite pow256, (pow256 (z - 3)) in C. destruct (N.leb_spec z 3) as [L|L].
        + apply (N.mul_le_mono_pos_r _ _ (2 ^ (8 * (3 - z)))); [pose proof (pow2_nz (8 * (3 - z))); lia|].
          rewrite <- N.pow_add_r. replace (8 * z - 1 + 8 * (3 - z)) with 23 by lia. exact C.
        + apply N.le_trans with (2 ^ (8 * (z - 3)) * (v / 2 ^ (8 * (z - 3)))); [|apply N.mul_div_le, pow2_nz].
          replace (8 * z - 1) with (8 * (z - 3) + 23) by lia. rewrite N.pow_add_r. now apply N.mul_le_mono_l. }
    rewrite (signed_size_fun _ _ _ SS SZ). rewrite N.shiftr_div_pow2.
    assert (WE : w0 / 2 ^ 8 = enc_word v (z + 1)).
    { unfold w0, enc_word. change (2 ^ 8) with 256. destruct (N.leb_spec z 3) as [L|L], (N.leb_spec (z + 1) 3) as [L2|L2]; try lia.
      - replace (3 - z) with (3 - (z + 1) + 1) by lia. rewrite N.pow_add_r, N.mul_assoc. change (256 ^ 1) with 256. now rewrite N.div_mul by discriminate.
      - assert (z = 3) as -> by lia. change (256 ^ (3 - 3)) with 1. change (256 ^ (3 + 1 - 3)) with 256. now rewrite N.mul_1_r.
      - rewrite N.div_div by (try apply pow256_nz; discriminate). f_equal. replace (z + 1 - 3) with (z - 3 + 1) by lia. now rewrite N.pow_add_r. }
    rewrite WE. rewrite <- WE. assert (WL : w0 / 2 ^ 8 < 2 ^ 16) by (apply N.div_lt_upper_bound; [discriminate|exact H0]).
    assert (WG : 2 ^ 15 <= w0 / 2 ^ 8) by (apply N.div_le_lower_bound; [discriminate|exact C]).
    rewrite (N.mod_small ((z + 1) * 2 ^ 24)) by (apply N.le_lt_trans with (33 * 2 ^ 24); [apply N.mul_le_mono_r; lia|reflexivity]).
    rewrite lor_add24 by (apply N.lt_trans with (2 ^ 16); auto; reflexivity). split; [reflexivity|]. split; [lia|]. split; [apply N.lt_trans with (2 ^ 16); auto; reflexivity|]. auto.
Qed.

(** reading an encoded word *)
Lemma fields : forall w s, w < 2 ^ 23 -> nbits_size (w + s * 2 ^ 24) = s /\ nbits_word (w + s * 2 ^ 24) = w /\ nbits_sign (w + s * 2 ^ 24) = false.
Proof.
  intros w s H. assert (H' : w < 2 ^ 24) by (apply N.lt_trans with (2 ^ 23); auto; reflexivity).
  split; [|split].
  - unfold nbits_size. rewrite N.div_add by discriminate. now rewrite N.div_small.
  - unfold nbits_word. replace (s * 2 ^ 24) with (s * 2 * 2 ^ 23) by (change (2 ^ 24) with (2 * 2 ^ 23); ring).
    rewrite N.mod_add by discriminate. now apply N.mod_small.
  - unfold nbits_sign. rewrite bit23. rewrite N.mod_add by discriminate. rewrite N.mod_small by auto. now apply N.leb_gt.
Qed.
Lemma enc_magnitude : forall v s, enc_word v s < 2 ^ 23 -> nbits_magnitude (enc_word v s + s * 2 ^ 24) = leading3 v s.
Proof.
  intros v s H. destruct (fields _ s H) as (A & B & _). unfold nbits_magnitude. rewrite A, B. unfold enc_word, leading3.
  destruct (N.leb_spec s 3) as [L|L].
  - rewrite N.div_mul by apply pow256_nz. rewrite (proj2 (N.sub_0_le _ _) L). rewrite N.pow_0_r, N.mod_1_r. lia.
  - pose proof (N.div_mod v (256 ^ (s - 3)) (pow256_nz _)) as D. rewrite D at 2. rewrite N.add_sub. apply N.mul_comm.
Qed.
Lemma leading3_le : forall v s, leading3 v s <= v.
Proof. intros. unfold leading3. lia. Qed.
Lemma enc_target : forall v s, v < 2 ^ 256 -> enc_word v s < 2 ^ 23 -> nbits_target (enc_word v s + s * 2 ^ 24) = leading3 v s.
Proof.
  intros v s V H. unfold nbits_target. destruct (fields _ s H) as (_ & _ & ->). rewrite enc_magnitude by auto. cbn [andb orb].
  pose proof (leading3_le v s). rewrite (proj2 (N.leb_gt _ _)); auto. apply N.le_lt_trans with v; auto.
Qed.
Lemma enc_precision : forall v s, v <> 0 -> 2 ^ 15 <= enc_word v s -> (v - leading3 v s) * 2 ^ 15 < leading3 v s.
Proof.
  intros v s NZ. unfold enc_word, leading3. destruct (N.leb_spec s 3) as [L|L]; intro H.
  - rewrite (proj2 (N.sub_0_le _ _) L). rewrite N.pow_0_r, N.mod_1_r. lia.
  - pose proof (pow256_nz (s - 3)) as PZ. set (m := 256 ^ (s - 3)) in *. clearbody m. pose proof (N.div_mod v m PZ) as D. pose proof (N.mod_lt v m PZ) as M.
    set (q := v / m) in *. set (r := v mod m) in *. clearbody q r. subst v. rewrite N.add_sub.
    replace (m * q + r - m * q) with r by lia. apply N.lt_le_trans with (m * 2 ^ 15).
    + apply N.mul_lt_mono_pos_r; auto. reflexivity.
    + now apply N.mul_le_mono_l.
Qed.
Lemma signed_size_ex : forall v, v < 2 ^ 256 -> exists s, signed_size v s.
Proof.
  intros v H. destruct (N.eq_dec v 0) as [-> | NZ]; [exists 0; apply signed_size_zero|].
  set (b := N.size v). pose proof (size_bound v) as SB. pose proof (size_le v NZ) as SL. fold b in SB, SL.
  assert (B1 : 1 <= b). { destruct (N.eq_dec b 0) as [E|]; [|lia]. rewrite E in SB. change (2 ^ 0) with 1 in SB. lia. }
  exists (b / 8 + 1). pose proof (N.div_mod b 8 ltac:(discriminate)) as D. pose proof (N.mod_lt b 8 ltac:(discriminate)) as M.
  set (q := b / 8) in *. set (r := b mod 8) in *. clearbody q r. apply signed_size_intro.
  - apply N.lt_le_trans with (2 ^ b); auto. apply N.pow_le_mono_r; lia.
  - destruct (N.eq_dec q 0) as [-> |NQ]; [auto|]. right. right. apply N.le_trans with (2 ^ (b - 1)); auto. apply N.pow_le_mono_r; lia.
Qed.
Lemma canonical_enc : forall c, nbits_canonical c -> c <> 0 ->
  signed_size (nbits_target c) (nbits_size c) /\ enc_word (nbits_target c) (nbits_size c) = nbits_word c /\ c = nbits_word c + nbits_size c * 2 ^ 24 /\ nbits_target c = nbits_magnitude c /\ nbits_target c < 2 ^ 256.
Proof.
  intros c [-> |(C32 & SG & W15 & S1 & DIG & MAG)] NZ; [congruence|].
  assert (T : nbits_target c = nbits_magnitude c).
  { unfold nbits_target. rewrite SG. cbn [andb orb]. now rewrite (proj2 (N.leb_gt _ _) MAG). }
  assert (CE : c = nbits_word c + nbits_size c * 2 ^ 24).
  { pose proof (N.div_mod c (2 ^ 24) ltac:(discriminate)) as D. rewrite word_mod, SG, N.add_0_r in D. fold (nbits_size c) in D. rewrite D at 1.
    rewrite N.add_comm. f_equal. apply N.mul_comm. }
  rewrite T. pose proof (N.mod_lt c (2 ^ 23) ltac:(discriminate)) as WL. fold (nbits_word c) in WL.
  set (w := nbits_word c) in *. set (s := nbits_size c) in *.
  assert (EW : enc_word (nbits_magnitude c) s = w /\ signed_size (nbits_magnitude c) s).
  { unfold nbits_magnitude, enc_word. fold s w. destruct (N.leb_spec s 3) as [L|L].
    - specialize (DIG L). assert (WD : w = w / 256 ^ (3 - s) * 256 ^ (3 - s)).
      { pose proof (N.div_mod w (256 ^ (3 - s)) (pow256_nz _)) as D. rewrite DIG, N.add_0_r, N.mul_comm in D. exact D. }
      split; [now symmetry|]. set (m := w / 256 ^ (3 - s)) in *. clearbody m. rewrite pow256 in WD.
      assert (P : 0 < 2 ^ (8 * (3 - s))) by (pose proof (pow2_nz (8 * (3 - s))); lia).
      apply signed_size_intro.
      + apply (N.mul_lt_mono_pos_r (2 ^ (8 * (3 - s)))); auto. rewrite <- WD, <- N.pow_add_r. replace (8 * s - 1 + 8 * (3 - s)) with 23 by lia. auto.
      + destruct (N.eq_dec s 1) as [S|S].
        { right. left. split; auto. intros ->. rewrite N.mul_0_l in WD. rewrite WD in W15. now apply W15. }
        right. right. apply (N.mul_le_mono_pos_r _ _ (2 ^ (8 * (3 - s)))); auto. rewrite <- WD, <- N.pow_add_r. replace (8 * (s - 1) - 1 + 8 * (3 - s)) with 15 by lia. auto.
    - split; [apply N.div_mul, pow256_nz|]. rewrite pow256. assert (P : 0 < 2 ^ (8 * (s - 3))) by (pose proof (pow2_nz (8 * (s - 3))); lia).
      apply signed_size_intro.
      + replace (8 * s - 1) with (23 + 8 * (s - 3)) by lia. rewrite N.pow_add_r. now apply N.mul_lt_mono_pos_r.
      + right. right. replace (8 * (s - 1) - 1) with (15 + 8 * (s - 3)) by lia. rewrite N.pow_add_r. now apply N.mul_le_mono_r. }
  destruct EW as [EW SS]. auto.
Qed.

(** conversions between the two U256 types do nothing *)
Lemma to_inner_id : forall t, wf t -> to_inner t = t.
Proof.
  intros t W. unfold to_inner. rewrite to_le_val by auto. rewrite from_le_of by (apply le_bytes_ok || apply le_bytes_length).
  rewrite le_val_bytes by (exact (val_lt t W)). now apply of_val_val.
Qed.
Lemma from_inner_id : forall t, wf t -> from_inner t = t.
Proof. exact to_inner_id. Qed.
Lemma signed_size_mono : forall v v' s s', v <= v' -> signed_size v s -> signed_size v' s' -> s <= s'.
Proof. intros v v' s s' L [_ B] [A _]. apply B. now apply N.le_lt_trans with v'. Qed.
Lemma leading3_mono : forall v v' s s', v <= v' -> signed_size v s -> signed_size v' s' -> leading3 v s <= leading3 v' s'.
Proof.
  intros v v' s s' L S S'. pose proof (signed_size_mono _ _ _ _ L S S') as LS.
  assert (LD : forall x k, leading3 x k = x / 256 ^ (k - 3) * 256 ^ (k - 3)).
  { intros x k. unfold leading3. pose proof (N.div_mod x (256 ^ (k - 3)) (pow256_nz _)) as D. rewrite D at 1. rewrite N.add_sub. apply N.mul_comm. }
  destruct (N.eq_dec s s') as [<- |NE].
  - rewrite !LD. apply N.mul_le_mono_r. apply N.div_le_mono; auto. apply pow256_nz.
  - assert (V : v < 2 ^ (8 * (s' - 1) - 1)) by (destruct S as [A _]; apply N.lt_le_trans with (2 ^ (8 * s - 1)); auto; apply N.pow_le_mono_r; lia).
    destruct (N.eq_dec v' 0) as [Z|NZ].
    { assert (v = 0) as -> by lia. rewrite (signed_size_fun _ _ _ S signed_size_zero). unfold leading3. rewrite N.mod_0_l by apply pow256_nz. apply N.le_0_l. }
    apply N.le_trans with v; [apply leading3_le|]. destruct (N.leb_spec s' 3) as [L3|L3].
    { rewrite (LD v' s'). rewrite (proj2 (N.sub_0_le _ _) L3), N.pow_0_r, N.div_1_r, N.mul_1_r. auto. }
    destruct (signed_size_low _ _ NZ S') as [E|[_ LO]]; [lia|]. apply N.lt_le_incl. apply N.lt_le_trans with (2 ^ (8 * (s' - 1) - 1)); auto.
    rewrite LD, pow256. replace (8 * (s' - 1) - 1) with (15 + 8 * (s' - 3)) in * by lia. rewrite N.pow_add_r in *. apply N.mul_le_mono_r.
    apply N.div_le_lower_bound; [apply pow2_nz|]. rewrite N.mul_comm. auto.
Qed.

(** work *)
Definition gval (x : N) : N := if x <=? 1 then W256 - 1 else W256 / (x + 1).
Lemma gval_lt : forall x, gval x < W256.
Proof.
  intro x. unfold gval. pose proof W256_nz. destruct (N.leb_spec x 1); [lia|]. apply N.div_lt; lia.
Qed.
Lemma inverse_g : forall t, wf t -> inverse t = Ret (of_val (gval (val t))).
Proof.
  intros t W. unfold gval. destruct (N.leb_spec (val t) 1) as [L|L].
  - unfold inverse. rewrite is_zero_val, is_one_val by auto. assert (val t = 0 \/ val t = 1) as [-> | ->] by lia; cbn [N.eqb Pos.eqb]; now rewrite max_of.
  - apply inverse_val; auto; lia.
Qed.
Lemma gval_anti : forall x y, x <= y -> gval y <= gval x.
Proof.
  intros x y L. pose proof (gval_lt y) as GY. unfold gval at 2. destruct (N.leb_spec x 1); [lia|].
  unfold gval. destruct (N.leb_spec y 1); [lia|]. apply N.div_le_compat_l. lia.
Qed.
Lemma div_gt_iff : forall a b c, b <> 0 -> (a / b <= c <-> a < b * (c + 1)).
Proof.
  intros a b c NZ. split; intro H.
  - pose proof (N.mul_succ_div_gt a b NZ). apply N.lt_le_trans with (b * N.succ (a / b)); auto. apply N.mul_le_mono_l. lia.
  - apply N.lt_succ_r. apply N.div_lt_upper_bound; auto. now rewrite <- N.add_1_r.
Qed.
Lemma W256_2 : W256 = 2 * 2 ^ 255.
Proof. reflexivity. Qed.
Lemma gval_galois : forall w z, 2 <= w -> w < 2 ^ 255 -> (gval z <= w <-> gval w <= z).
Proof.
  intros w z W1 W2. assert (GW : gval w = W256 / (w + 1)) by (unfold gval; destruct (N.leb_spec w 1); [lia|reflexivity]). rewrite GW.
  assert (L : w + 1 <= 2 ^ 255) by lia.
  assert (HW : 2 <= W256 / (w + 1)) by (apply N.div_le_lower_bound; [lia|]; rewrite W256_2, N.mul_comm; now apply N.mul_le_mono_l).
  unfold gval. destruct (N.leb_spec z 1) as [Z|Z].
  - split; intro H; [|lia]. exfalso. rewrite W256_2 in H. lia.
  - rewrite !div_gt_iff by lia. now rewrite (N.mul_comm (z + 1)).
Qed.
Lemma W256_3 : W256 / 3 < 2 ^ 255.
Proof. reflexivity. Qed.
Lemma gval_round : forall x, x < W256 -> gval (gval (gval x)) = gval x.
Proof.
  intros x X. destruct (N.leb_spec x 1) as [L|L].
  { unfold gval at 3 4. rewrite (proj2 (N.leb_le _ _) L). reflexivity. }
  assert (GX : gval x = W256 / (x + 1)) by (unfold gval; destruct (N.leb_spec x 1); [lia|reflexivity]).
  assert (W3 : gval x <= W256 / 3) by (rewrite GX; apply N.div_le_compat_l; lia).
  assert (W1 : 1 <= gval x) by (rewrite GX; apply N.div_le_lower_bound; lia).
  destruct (N.eq_dec (gval x) 1) as [-> |NE]; [reflexivity|].
  assert (H2 : 2 <= gval x) by lia. assert (H5 : gval x < 2 ^ 255) by (apply N.le_lt_trans with (W256 / 3); auto; apply W256_3).
  pose proof (fun z => gval_galois (gval x) z H2 H5) as G. apply N.le_antisymm.
  - apply G. apply N.le_refl.
  - apply gval_anti. apply G. apply N.le_refl.
Qed.

(** retargeting *)
Lemma shr2 : forall t, wf t -> min_transition_threshold t = Ret (of_val (val t / 4)).
Proof.
  intros t W. unfold min_transition_threshold. rewrite to_inner_id by auto. rewrite shr_val by (auto; reflexivity). cbn [rbind].
  change (2 ^ 2) with 4. rewrite from_inner_id; [reflexivity|]. apply wf_of. apply (div_lt256 (val t) 2). now apply val_lt.
Qed.
Lemma shl2 : forall t, wf t -> max_transition_threshold_unchecked t = Ret (of_val ((val t * 4) mod W256)).
Proof.
  intros t W. unfold max_transition_threshold_unchecked. rewrite to_inner_id by auto. rewrite shl_val by (auto; reflexivity). cbn [rbind].
  change (2 ^ 2) with 4. rewrite from_inner_id; [reflexivity|]. apply wf_of. apply N.mod_lt, W256_nz.
Qed.
Lemma max_thr : forall t p, wf t -> wf (p_max_attainable_target p) ->
  max_transition_threshold t p = Ret (of_val (N.min ((val t * 4) mod W256) (val (p_max_attainable_target p)))).
Proof.
  intros t p W WP. unfold max_transition_threshold. rewrite shl2 by auto. cbn [rbind].
  assert (M : (val t * 4) mod W256 < W256) by (apply N.mod_lt, W256_nz). rewrite leb_val by (auto; now apply wf_of). rewrite val_of.
  generalize dependent ((val t * 4) mod W256). intros x X. destruct (N.leb_spec x (val (p_max_attainable_target p))) as [L|L].
  - now rewrite N.min_l.
  - rewrite N.min_r by lia. now rewrite of_val_val.
Qed.
Lemma clamp_ok : forall ts T, 4 * T < 2 ^ 32 ->
  clamp ts (Z.of_N (N.shiftr T 2)) (Z.of_N ((T * 4) mod 2 ^ 32)) = Ret (Z.of_N (clamped ts T)).
Proof.
  intros ts T H. unfold clamp, clamped. rewrite N.shiftr_div_pow2. change (2 ^ 2) with 4. rewrite N.mod_small by lia.
  assert (D : T / 4 <= T) by (apply div_le_self; discriminate). generalize dependent (T / 4). intros q D.
  destruct (Z.ltb_spec (Z.of_N (T * 4)) (Z.of_N q)); [lia|]. f_equal. destruct (Z.ltb_spec ts (Z.of_N q)); [lia|].
  destruct (Z.ltb_spec (Z.of_N (T * 4)) ts); lia.
Qed.
Lemma clamped_le : forall ts T, clamped ts T <= T * 4.
Proof.
  intros ts T. unfold clamped. assert (D : T / 4 <= T) by (apply div_le_self; discriminate). generalize dependent (T / 4). intros q D. lia.
Qed.
Lemma clamped_ge : forall ts T, T / 4 <= clamped ts T.
Proof.
  intros ts T. unfold clamped. assert (D : T / 4 <= T) by (apply div_le_self; discriminate). generalize dependent (T / 4). intros q D. lia.
Qed.
Lemma retarget_val : forall last ts p, p_no_pow_retargeting p = false -> wf (p_max_attainable_target p) ->
  p_pow_target_timespan p <> 0 -> 4 * p_pow_target_timespan p < 2 ^ 32 ->
  val (p_max_attainable_target p) * (p_pow_target_timespan p * 4) < W256 ->
  fval last <= val (p_max_attainable_target p) ->
  let next := next_target (fval last) ts (p_pow_target_timespan p) (val (p_max_attainable_target p)) in
  from_next_work_required last ts p = to_compact_lossy (of_val next) /\ next < W256.
Proof.
  intros last ts p NR WP TN T4 LIM PL. cbv zeta. unfold from_next_work_required. rewrite NR.
  set (T := p_pow_target_timespan p) in *. set (m := p_max_attainable_target p) in *.
  rewrite clamp_ok by auto. cbn [rbind]. rewrite from_compact_val. cbn [rbind]. pose proof (fval_lt last) as FL.
  assert (WF : wf (of_val (fval last))) by (now apply wf_of). rewrite max_thr by auto. cbn [rbind]. fold m. rewrite val_of.
  destruct (Z.ltb_spec (Z.of_N (clamped ts T)) 0) as [X|_]; [lia|]. rewrite N2Z.id.
  pose proof (clamped_le ts T) as CL. set (k := clamped ts T) in *. set (v := fval last) in *. unfold next_target. fold k.
  assert (KV : v * k <= val m * (T * 4)) by (now apply N.mul_le_mono).
  assert (KL : v * k < W256) by (now apply N.le_lt_trans with (val m * (T * 4))).
  assert (V4 : v * 4 < W256).
  { apply N.le_lt_trans with (val m * (T * 4)); auto. apply N.mul_le_mono; auto. lia. }
  assert (K64 : k < W64) by (apply N.le_lt_trans with (T * 4); auto; apply N.lt_trans with (2 ^ 32); [lia|reflexivity]).
  rewrite to_inner_id by auto. rewrite mul_u64_val by auto.
  rewrite val_of. cbn [rbind]. rewrite (N.mod_small (v * k)) by auto. rewrite (N.mod_small (v * 4)) by auto.
  assert (T128 : T < W128) by (apply N.lt_trans with (2 ^ 32); [lia|reflexivity]).
  assert (WT : wf (u_from T)) by (rewrite from_of by auto; apply wf_of; apply N.lt_trans with W128; auto; reflexivity).
  assert (VT : val (u_from T) = T) by (rewrite from_of by auto; apply val_of).
  rewrite div_val by (try rewrite VT; auto; now apply wf_of). rewrite VT, val_of. cbn [rbind].
  assert (RL : v * k / T < W256) by (apply N.le_lt_trans with (v * k); auto; apply div_le_self; auto).
  rewrite from_inner_id by (now apply wf_of).
  assert (R4 : v * k / T <= v * 4).
  { apply N.div_le_upper_bound; auto. replace (T * (v * 4)) with (v * (T * 4)) by ring. now apply N.mul_le_mono_l. }
  pose proof (val_lt m WP) as ML.
  set (r := v * k / T) in *. clearbody r. split; [|lia].
  rewrite leb_val by (apply wf_of; lia). rewrite !val_of.
  destruct (N.leb_spec (N.min (v * 4) (val m)) r) as [L|L]; f_equal; f_equal; lia.
Qed.

(** walking back to the last block that is not at the limit *)
Lemma bytes_eqb_eq : forall a b, bytes_eqb a b = true <-> a = b.
Proof.
  induction a as [|x a IH]; intros [|y b]; cbn [bytes_eqb]; try (split; congruence).
  rewrite andb_true_iff, N.eqb_eq, IH. split; [intros [-> ->]; auto|intro H; injection H; auto].
Qed.
Section Walk.
  Variable E : Type.
  Variable get : N -> result header E.
  Lemma walk_back_spec : forall f hd h iv lim, iv <> 0 -> (N.to_nat h < f)%nat -> h < 2 ^ 32 ->
    exists r, walk_back get f hd h iv lim = Ret r /\ last_real (fun k => if k =? h then Ok hd else get k) iv lim h r.
  Proof.
    induction f as [|f IH]; intros hd h iv lim IV F H; [lia|]. cbn [walk_back]. unfold is_retarget_height. rewrite (proj2 (N.eqb_neq _ _) IV). cbn [rbind].
    match goal with |- context [if ?c then _ else _] => destruct c eqn:C end.
    - apply andb_true_iff in C as [C1 C3]. apply andb_true_iff in C1 as [C1 C2]. apply N.eqb_eq in C3. apply negb_true_iff in C1, C2. apply N.eqb_neq in C2.
      assert (NS : ~ stops iv lim hd h).
      { intros [P|[P|P]]; [|congruence|congruence]. change (repeat 0 32) with GENESIS_PREV in P. apply bytes_eqb_eq in P. congruence. }
      assert (H0 : h <> 0) by (intros ->; apply C2; now apply N.mod_0_l).
      unfold sat_sub32. destruct (N.leb_spec 1 h); [|lia]. destruct (get (h - 1)) as [hd'|e] eqn:G.
      + destruct (IH hd' (h - 1) iv lim IV ltac:(lia) ltac:(lia)) as (r & W & LR). exists r. split; auto.
        destruct r as [b|e]; destruct LR as (k & LK & A & B).
        * destruct A as (hk & HK & ST & BB). exists k. split; [lia|]. split.
          -- exists hk. split; auto. destruct (N.eqb_spec k h); [lia|]. destruct (N.eqb_spec k (h - 1)) as [-> |]; auto. congruence.
          -- intros j J1 J2. destruct (N.eqb_spec j h) as [-> |]; [eauto|]. destruct (B j J1 ltac:(lia)) as (hj & HJ & NJ). exists hj. split; auto.
             destruct (N.eqb_spec j (h - 1)) as [-> |]; auto. congruence.
        * exists k. split; [lia|]. split.
          -- destruct (N.eqb_spec k h); [lia|]. destruct (N.eqb_spec k (h - 1)) as [-> |]; auto. congruence.
          -- intros j J1 J2. destruct (N.eqb_spec j h) as [-> |]; [eauto|]. destruct (B j J1 ltac:(lia)) as (hj & HJ & NJ). exists hj. split; auto.
             destruct (N.eqb_spec j (h - 1)) as [-> |]; auto. congruence.
      + exists (Err e). split; auto. exists (h - 1). split; [lia|]. split.
        * destruct (N.eqb_spec (h - 1) h); [lia|]. auto.
        * intros j J1 J2. assert (j = h) as -> by lia. rewrite N.eqb_refl. eauto.
    - exists (Ok (h_bits hd)). split; auto. exists h. split; [lia|]. split; [|intros; lia]. rewrite N.eqb_refl. exists hd. split; auto. split; auto.
      apply andb_false_iff in C as [C|C]; [apply andb_false_iff in C as [C|C]|].
      + left. apply negb_false_iff in C. now apply bytes_eqb_eq in C.
      + right. left. apply negb_false_iff in C. now apply N.eqb_eq.
      + right. right. now apply N.eqb_neq.
  Qed.
End Walk.
