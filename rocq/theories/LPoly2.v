(** Lemmas on the Poly1305 arithmetic. *)
From Verif Require Import Base MDec LDec LU256 MHash SHash LHash LHash2 MSha2 MChaCha SChaCha LPoly.
Local Open Scope N_scope.

Lemma ck64 : forall v, v < 2 ^ 64 -> u64_ck v = Ret v. Proof. intros. unfold u64_ck. now rewrite (proj2 (N.ltb_lt _ _)). Qed.
Lemma ck32 : forall v, v < 2 ^ 32 -> u32_ck v = Ret v. Proof. intros. unfold u32_ck. now rewrite (proj2 (N.ltb_lt _ _)). Qed.
Lemma shr26 : forall x, N.shiftr x 26 = x / X26. Proof. intros. rewrite N.shiftr_div_pow2. reflexivity. Qed.
Lemma mask26 : forall x, N.land x BITMASK = x mod X26. Proof. intros. change BITMASK with (N.ones 26). rewrite N.land_ones. reflexivity. Qed.
Lemma low26 : forall t, N.land (t mod 2 ^ 32) BITMASK = t mod X26.
Proof.
  intro t. rewrite mask26. change (2 ^ 32) with (X26 * 64). rewrite N.mod_mul_r by (unfold X26; lia). rewrite N.mul_comm, N.mod_add by (unfold X26; lia). apply N.mod_mod. unfold X26. lia.
Qed.
(** a sum of checked products *)
Lemma term_ok : forall r acc j i m x y, nth i r 0 = x -> nth (((5 - i) mod 5 + j) mod 5)%nat acc 0 = y -> (if (j <? i)%nat then 5 else 1) = m ->
  m * x < 2 ^ 64 -> m * x * y < 2 ^ 64 -> term r acc j i = Ret (m * x * y).
Proof. intros r acc j i m x y <- <- M L1 L2. unfold term. rewrite M. rewrite ck64 by auto. cbn [rbind]. now apply ck64. Qed.
Lemma dot_ok : forall r acc j p0 p1 p2 p3 p4, term r acc j 0 = Ret p0 -> term r acc j 1 = Ret p1 -> term r acc j 2 = Ret p2 -> term r acc j 3 = Ret p3 -> term r acc j 4 = Ret p4 ->
  p0 + p1 + p2 + p3 + p4 < 2 ^ 64 -> dot r acc j = Ret (p0 + p1 + p2 + p3 + p4).
Proof.
  intros r acc j p0 p1 p2 p3 p4 H0 H1 H2 H3 H4 L. unfold dot. cbn [seq fold_left rbind]. rewrite H0. cbn [rbind]. rewrite ck64 by lia. cbn [rbind]. rewrite N.add_0_l.
  rewrite H1. cbn [rbind]. rewrite ck64 by lia. cbn [rbind]. rewrite H2. cbn [rbind]. rewrite ck64 by lia. cbn [rbind]. rewrite H3. cbn [rbind]. rewrite ck64 by lia. cbn [rbind].
  rewrite H4. cbn [rbind]. apply ck64. lia.
Qed.
Lemma prod_le : forall a b A B, a < A -> b < B -> a * b <= A * B. Proof. intros. apply N.mul_le_mono; lia. Qed.
Definition B27 : N := 134217792. (* 2^27 + 64 *)
Lemma mul_identity : forall r0 r1 r2 r3 r4 a0 a1 a2 a3 a4,
  val5 r0 r1 r2 r3 r4 * val5 a0 a1 a2 a3 a4 =
  val5 (1 * r0 * a0 + 5 * r1 * a4 + 5 * r2 * a3 + 5 * r3 * a2 + 5 * r4 * a1) (1 * r0 * a1 + 1 * r1 * a0 + 5 * r2 * a4 + 5 * r3 * a3 + 5 * r4 * a2)
    (1 * r0 * a2 + 1 * r1 * a1 + 1 * r2 * a0 + 5 * r3 * a4 + 5 * r4 * a3) (1 * r0 * a3 + 1 * r1 * a2 + 1 * r2 * a1 + 1 * r3 * a0 + 5 * r4 * a4)
    (1 * r0 * a4 + 1 * r1 * a3 + 1 * r2 * a2 + 1 * r3 * a1 + 1 * r4 * a0)
  + 1361129467683753853853498429727072845819 * val5 (r1 * a4 + r2 * a3 + r3 * a2 + r4 * a1) (r2 * a4 + r3 * a3 + r4 * a2) (r3 * a4 + r4 * a3) (r4 * a4) 0.
Proof. intros. unfold val5, X26. ring. Qed.
Lemma carry_val : forall t0 t1 t2 t3 t4, let u1 := t1 + t0 / X26 in let u2 := t2 + u1 / X26 in let u3 := t3 + u2 / X26 in let u4 := t4 + u3 / X26 in
  val5 t0 t1 t2 t3 t4 = val5 (t0 mod X26) (u1 mod X26) (u2 mod X26) (u3 mod X26) (u4 mod X26) + X26 * X26 * X26 * X26 * X26 * (u4 / X26).
Proof.
  intros. assert (NZ : X26 <> 0) by (unfold X26; lia). pose proof (N.div_mod t0 X26 NZ). pose proof (N.div_mod u1 X26 NZ). pose proof (N.div_mod u2 X26 NZ). pose proof (N.div_mod u3 X26 NZ). pose proof (N.div_mod u4 X26 NZ).
  unfold val5. rewrite H at 1. unfold u4 in *. unfold u3 in *. unfold u2 in *. unfold u1 in *. unfold X26 in *. lia.
Qed.
Lemma r_times_a_spec : forall r0 r1 r2 r3 r4 a0 a1 a2 a3 a4,
  r0 < X26 -> r1 < X26 -> r2 < X26 -> r3 < X26 -> r4 < 2 ^ 20 -> a0 < B27 -> a1 < B27 -> a2 < B27 -> a3 < B27 -> a4 < 3 * 2 ^ 25 ->
  exists acc, r_times_a [r0; r1; r2; r3; r4] [a0; a1; a2; a3; a4] = Ret acc /\ limbs_ok 63 acc /\ val acc mod P1305 = (val5 r0 r1 r2 r3 r4 * val5 a0 a1 a2 a3 a4) mod P1305.
Proof.
  intros r0 r1 r2 r3 r4 a0 a1 a2 a3 a4 R0 R1 R2 R3 R4 A0 A1 A2 A3 A4.
  assert (P00 := prod_le _ _ _ _ R0 A0). assert (P01 := prod_le _ _ _ _ R0 A1). assert (P02 := prod_le _ _ _ _ R0 A2). assert (P03 := prod_le _ _ _ _ R0 A3). assert (P04 := prod_le _ _ _ _ R0 A4).
  assert (P10 := prod_le _ _ _ _ R1 A0). assert (P11 := prod_le _ _ _ _ R1 A1). assert (P12 := prod_le _ _ _ _ R1 A2). assert (P13 := prod_le _ _ _ _ R1 A3). assert (P14 := prod_le _ _ _ _ R1 A4).
  assert (P20 := prod_le _ _ _ _ R2 A0). assert (P21 := prod_le _ _ _ _ R2 A1). assert (P22 := prod_le _ _ _ _ R2 A2). assert (P23 := prod_le _ _ _ _ R2 A3). assert (P24 := prod_le _ _ _ _ R2 A4).
  assert (P30 := prod_le _ _ _ _ R3 A0). assert (P31 := prod_le _ _ _ _ R3 A1). assert (P32 := prod_le _ _ _ _ R3 A2). assert (P33 := prod_le _ _ _ _ R3 A3). assert (P34 := prod_le _ _ _ _ R3 A4).
  assert (P40 := prod_le _ _ _ _ R4 A0). assert (P41 := prod_le _ _ _ _ R4 A1). assert (P42 := prod_le _ _ _ _ R4 A2). assert (P43 := prod_le _ _ _ _ R4 A3). assert (P44 := prod_le _ _ _ _ R4 A4).
  pose proof (mul_identity r0 r1 r2 r3 r4 a0 a1 a2 a3 a4) as ID. rewrite ID. change 1361129467683753853853498429727072845819 with P1305.
  rewrite (N.mul_comm P1305), N.mod_add by discriminate. clear ID.
  unfold r_times_a. unfold X26, B27 in *. change (2 ^ 20) with 1048576 in *. change (3 * 2 ^ 25) with 100663296 in *.
  assert (TK : forall m x y, m <= 5 -> x < 67108864 -> x * y <= 67108864 * 134217792 -> m * x < 2 ^ 64 /\ m * x * y < 2 ^ 64).
  { intros m x y M X Y. assert (m * x <= 5 * 67108864) by (apply N.mul_le_mono; lia). assert (m * (x * y) <= 5 * (67108864 * 134217792)) by (apply N.mul_le_mono; lia). rewrite N.mul_assoc in H0. lia. }
  assert (TK1 : forall m x, m <= 5 -> x < 67108864 -> m * x < 2 ^ 64) by (intros m x M XX; apply (TK m x 0); [auto|auto|rewrite N.mul_0_r; lia]).
  assert (TK2 : forall m x y, m <= 5 -> x < 67108864 -> x * y <= 67108864 * 134217792 -> m * x * y < 2 ^ 64) by (intros; now apply TK). clear TK.
  assert (R4' : r4 < 67108864) by lia.
  set (t0 := 1 * r0 * a0 + 5 * r1 * a4 + 5 * r2 * a3 + 5 * r3 * a2 + 5 * r4 * a1).
  set (t1 := 1 * r0 * a1 + 1 * r1 * a0 + 5 * r2 * a4 + 5 * r3 * a3 + 5 * r4 * a2).
  set (t2 := 1 * r0 * a2 + 1 * r1 * a1 + 1 * r2 * a0 + 5 * r3 * a4 + 5 * r4 * a3).
  set (t3 := 1 * r0 * a3 + 1 * r1 * a2 + 1 * r2 * a1 + 1 * r3 * a0 + 5 * r4 * a4).
  set (t4 := 1 * r0 * a4 + 1 * r1 * a3 + 1 * r2 * a2 + 1 * r3 * a1 + 1 * r4 * a0).
  assert (BT : t0 < 2 ^ 58 /\ t1 < 2 ^ 58 /\ t2 < 2 ^ 58 /\ t3 < 2 ^ 58 /\ t4 < 33969703159693312) by (unfold t0, t1, t2, t3, t4; clear TK1 TK2; repeat split; lia).
  destruct BT as (BT0 & BT1 & BT2 & BT3 & BT4).
  assert (D0 : dot [r0; r1; r2; r3; r4] [a0; a1; a2; a3; a4] 0 = Ret t0) by (unfold t0; apply dot_ok; [(eapply term_ok; [reflexivity|reflexivity|reflexivity|apply TK1; lia|apply TK2; lia])..|fold t0; lia]).
  assert (D1 : dot [r0; r1; r2; r3; r4] [a0; a1; a2; a3; a4] 1 = Ret t1) by (unfold t1; apply dot_ok; [(eapply term_ok; [reflexivity|reflexivity|reflexivity|apply TK1; lia|apply TK2; lia])..|fold t1; lia]).
  assert (D2 : dot [r0; r1; r2; r3; r4] [a0; a1; a2; a3; a4] 2 = Ret t2) by (unfold t2; apply dot_ok; [(eapply term_ok; [reflexivity|reflexivity|reflexivity|apply TK1; lia|apply TK2; lia])..|fold t2; lia]).
  assert (D3 : dot [r0; r1; r2; r3; r4] [a0; a1; a2; a3; a4] 3 = Ret t3) by (unfold t3; apply dot_ok; [(eapply term_ok; [reflexivity|reflexivity|reflexivity|apply TK1; lia|apply TK2; lia])..|fold t3; lia]).
  assert (D4 : dot [r0; r1; r2; r3; r4] [a0; a1; a2; a3; a4] 4 = Ret t4) by (unfold t4; apply dot_ok; [(eapply term_ok; [reflexivity|reflexivity|reflexivity|apply TK1; lia|apply TK2; lia])..|fold t4; lia]).
  rewrite D0, D1, D2, D3, D4. clear D0 D1 D2 D3 D4. clearbody t0 t1 t2 t3 t4. clear - BT0 BT1 BT2 BT3 BT4. cbn [rbind].
  pose proof (carry_val t0 t1 t2 t3 t4) as CV. cbv zeta in CV. rewrite !shr26. unfold X26 in *.
  rewrite (ck64 (t1 + _)) by lia. cbn [rbind]. set (u1 := t1 + t0 / 67108864) in *. assert (u1 < 2 ^ 59) by (unfold u1; lia). rewrite shr26. unfold X26.
  rewrite (ck64 (t2 + _)) by (clearbody u1; lia). cbn [rbind]. set (u2 := t2 + u1 / 67108864) in *. assert (u2 < 2 ^ 59) by (unfold u2; clearbody u1; lia). rewrite shr26. unfold X26.
  rewrite (ck64 (t3 + _)) by (clearbody u1 u2; lia). cbn [rbind]. set (u3 := t3 + u2 / 67108864) in *. assert (u3 < 2 ^ 59) by (unfold u3; clearbody u1 u2; lia). rewrite shr26. unfold X26.
  rewrite (ck64 (t4 + _)) by (clearbody u1 u2 u3; lia). cbn [rbind]. set (u4 := t4 + u3 / 67108864) in *. assert (u4 / 67108864 <= 507000000) by (unfold u4; clearbody u1 u2 u3; lia). rewrite shr26. unfold X26.
  rewrite !low26. unfold X26. set (c := u4 / 67108864) in *. rewrite (N.mod_small c) by lia. rewrite ck32 by lia. cbn [rbind].
  assert (M0 : t0 mod 67108864 < 67108864) by (apply N.mod_lt; lia). assert (M1 : u1 mod 67108864 < 67108864) by (apply N.mod_lt; lia). assert (M2 : u2 mod 67108864 < 67108864) by (apply N.mod_lt; lia).
  assert (M3 : u3 mod 67108864 < 67108864) by (apply N.mod_lt; lia). assert (M4 : u4 mod 67108864 < 67108864) by (apply N.mod_lt; lia).
  set (v0 := t0 mod 67108864) in *. set (v1 := u1 mod 67108864) in *. set (v2 := u2 mod 67108864) in *. set (v3 := u3 mod 67108864) in *. set (v4 := u4 mod 67108864) in *. clearbody c v0 v1 v2 v3 v4 u1 u2 u3 u4.
  rewrite ck32 by lia. cbn [rbind]. rewrite shr26. unfold X26. rewrite ck32 by lia. cbn [rbind]. rewrite mask26.
  eexists. split; [reflexivity|]. split.
  - eexists _, _, _, _, _. split; [reflexivity|]. unfold X26. repeat split; auto; try lia.
  - rewrite CV. assert (EV : val [(v0 + c * 5) mod X26; v1 + (v0 + c * 5) / 67108864; v2; v3; v4] + c * P1305 = val5 v0 v1 v2 v3 v4 + 67108864 * 67108864 * 67108864 * 67108864 * 67108864 * c).
    { unfold val, val5, X26, P1305. pose proof (N.div_mod (v0 + c * 5) 67108864 ltac:(lia)). change (2 ^ 130 - 5) with 1361129467683753853853498429727072845819. lia. }
    rewrite <- EV. symmetry. apply N.mod_add. discriminate.
Qed.
