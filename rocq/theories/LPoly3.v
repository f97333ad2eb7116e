(** Lemmas: Poly1305 finalization, and the engine. *)
From Verif Require Import Base MDec LDec LU256 MHash SHash LHash LHash2 MSha2 MChaCha SChaCha LPoly LPoly2.
Local Open Scope N_scope.

Lemma shr : forall x k, N.shiftr x k = x / 2 ^ k. Proof. intros. apply N.shiftr_div_pow2. Qed.
Lemma select_all : forall t a, t < 2 ^ 32 -> a < 2 ^ 32 -> select (2 ^ 32 - 1) t a = t /\ select 0 t a = a.
Proof.
  intros t a T A. unfold select. split.
  - change (2 ^ 32 - 1 - (2 ^ 32 - 1)) with 0. rewrite N.land_0_r, N.lor_0_r. change (2 ^ 32 - 1) with (N.ones 32). rewrite N.land_ones. now apply N.mod_small.
  - rewrite N.land_0_r, N.lor_0_l. change (2 ^ 32 - 1 - 0) with (N.ones 32). rewrite N.land_ones. now apply N.mod_small.
Qed.
Lemma select_t : forall t a, t < 2 ^ 32 -> a < 2 ^ 32 -> select (2 ^ 32 - 1) t a = t. Proof. intros. now apply select_all. Qed.
Lemma select_a : forall t a, t < 2 ^ 32 -> a < 2 ^ 32 -> select 0 t a = a. Proof. intros. now apply select_all. Qed.
(** the carries and the mask: all limbs below 2^26, same value mod p, below 2^130 *)
Lemma carry_arith : forall a0 a1 a2 a3 a4, a0 < X26 -> a1 <= X26 + 63 -> a2 < X26 -> a3 < X26 -> a4 < X26 ->
  let b2 := a2 + a1 / X26 in let b3 := a3 + b2 / X26 in let b4 := a4 + b3 / X26 in let c := b4 / X26 in let b0 := a0 + c * 5 in let b1 := a1 + b0 / X26 in
  b2 < 2 ^ 27 /\ b3 < 2 ^ 27 /\ b4 < 2 ^ 27 /\ c <= 1 /\ b0 < 2 ^ 27 /\ b1 < 2 ^ 28 /\
  val5 (b0 mod X26) (b1 mod X26) (b2 mod X26) (b3 mod X26) (b4 mod X26) + c * P1305 = val5 a0 a1 a2 a3 a4.
Proof.
  intros a0 a1 a2 a3 a4 A0 A1 A2 A3 A4. unfold val5, P1305, X26 in *. cbv zeta. change (2 ^ 130 - 5) with 1361129467683753853853498429727072845819.
  set (k1 := a1 / 67108864). assert (K1 : k1 <= 1 /\ (k1 = 1 -> a1 >= 67108864) /\ (k1 = 0 -> a1 < 67108864)) by (unfold k1; lia). destruct K1 as (K1 & K1a & K1b).
  set (b2 := a2 + k1). set (k2 := b2 / 67108864). assert (K2 : b2 = 67108864 * k2 + b2 mod 67108864 /\ k2 <= k1) by (unfold k2; split; [apply N.div_mod; lia|unfold b2; lia]).
  set (b3 := a3 + k2). set (k3 := b3 / 67108864). assert (K3 : b3 = 67108864 * k3 + b3 mod 67108864 /\ k3 <= k2) by (unfold k3; split; [apply N.div_mod; lia|unfold b3; clearbody k2; lia]).
  set (b4 := a4 + k3). set (c := b4 / 67108864). assert (K4 : b4 = 67108864 * c + b4 mod 67108864 /\ c <= k3) by (unfold c; split; [apply N.div_mod; lia|unfold b4; clearbody k3; lia]).
  set (b0 := a0 + c * 5). set (k0 := b0 / 67108864). assert (K0 : b0 = 67108864 * k0 + b0 mod 67108864 /\ k0 <= c) by (unfold k0; split; [apply N.div_mod; lia|unfold b0; clearbody c; lia]).
  assert (KB1 : a1 + k0 = 67108864 * k1 + (a1 + k0) mod 67108864).
  { rewrite (N.div_mod (a1 + k0) 67108864) at 1 by lia. f_equal. f_equal. clearbody k0 c k3 k2. destruct K2, K3, K4, K0. clear - K1 K1a K1b A1 H0 H2 H4 H6. destruct (N.eq_dec k1 0) as [E|E].
    - rewrite E in *. apply N.div_small. lia.
    - assert (k1 = 1) as -> by lia. symmetry. apply (N.div_unique _ _ 1 (a1 + k0 - 67108864)); lia. }
  set (m1 := (a1 + k0) mod 67108864) in *. set (m0 := b0 mod 67108864) in *. set (m2 := b2 mod 67108864) in *. set (m3 := b3 mod 67108864) in *. set (m4 := b4 mod 67108864) in *.
  destruct K2 as [K2 ?], K3 as [K3 ?], K4 as [K4 ?], K0 as [K0 ?]. clearbody m0 m1 m2 m3 m4 k0 c k3 k2 k1. unfold b0, b2, b3, b4 in *. clear b0 b2 b3 b4. repeat split; try lia.
Qed.
(** the subtraction of p *)
Lemma final_arith : forall b0 b1 b2 b3 b4, b0 < X26 -> b1 < X26 -> b2 < X26 -> b3 < X26 -> b4 < X26 ->
  let t0 := b0 + 5 in let t1 := b1 + t0 / X26 in let t2 := b2 + t1 / X26 in let t3 := b3 + t2 / X26 in let k := t3 / X26 in
  k <= 1 /\ t0 < 2 ^ 27 /\ t1 < 2 ^ 27 /\ t2 < 2 ^ 27 /\ t3 < 2 ^ 27 /\
  (X26 <= b4 + k -> P1305 <= val5 b0 b1 b2 b3 b4 /\ b4 + k = X26 /\ val5 (t0 mod X26) (t1 mod X26) (t2 mod X26) (t3 mod X26) 0 + P1305 = val5 b0 b1 b2 b3 b4) /\
  (b4 + k < X26 -> val5 b0 b1 b2 b3 b4 < P1305).
Proof.
  intros b0 b1 b2 b3 b4 B0 B1 B2 B3 B4. unfold val5, P1305, X26 in *. cbv zeta. change (2 ^ 130 - 5) with 1361129467683753853853498429727072845819.
  set (t0 := b0 + 5). set (k0 := t0 / 67108864). assert (K0 : t0 = 67108864 * k0 + t0 mod 67108864 /\ k0 <= 1 /\ t0 mod 67108864 < 67108864) by (unfold k0; split; [apply N.div_mod; lia|split; [unfold t0; lia|apply N.mod_lt; lia]]).
  set (t1 := b1 + k0). set (k1 := t1 / 67108864). assert (K1 : t1 = 67108864 * k1 + t1 mod 67108864 /\ k1 <= 1 /\ t1 mod 67108864 < 67108864) by (unfold k1; split; [apply N.div_mod; lia|split; [unfold t1; clearbody k0; lia|apply N.mod_lt; lia]]).
  set (t2 := b2 + k1). set (k2 := t2 / 67108864). assert (K2 : t2 = 67108864 * k2 + t2 mod 67108864 /\ k2 <= 1 /\ t2 mod 67108864 < 67108864) by (unfold k2; split; [apply N.div_mod; lia|split; [unfold t2; clearbody k1; lia|apply N.mod_lt; lia]]).
  set (t3 := b3 + k2). set (k := t3 / 67108864). assert (K3 : t3 = 67108864 * k + t3 mod 67108864 /\ k <= 1 /\ t3 mod 67108864 < 67108864) by (unfold k; split; [apply N.div_mod; lia|split; [unfold t3; clearbody k2; lia|apply N.mod_lt; lia]]).
  set (m0 := t0 mod 67108864) in *. set (m1 := t1 mod 67108864) in *. set (m2 := t2 mod 67108864) in *. set (m3 := t3 mod 67108864) in *.
  destruct K0 as (K0 & ? & ?), K1 as (K1 & ? & ?), K2 as (K2 & ? & ?), K3 as (K3 & ? & ?). clearbody m0 m1 m2 m3 k0 k1 k2 k. unfold t0, t1, t2, t3 in *. clear t0 t1 t2 t3. repeat split; lia.
Qed.
Lemma reduce_spec : forall acc, limbs_ok 63 acc -> exists b0 b1 b2 b3 b4, poly_reduce acc = Ret [b0; b1; b2; b3; b4] /\
  b0 < X26 /\ b1 < X26 /\ b2 < X26 /\ b3 < X26 /\ b4 < X26 /\ val5 b0 b1 b2 b3 b4 = val acc mod P1305.
Proof.
  intros acc (a0 & a1 & a2 & a3 & a4 & -> & A0 & A1 & A2 & A3 & A4). unfold poly_reduce, val.
  pose proof (carry_arith a0 a1 a2 a3 a4 A0 A1 A2 A3 A4) as CA. cbv zeta in CA. rewrite !shr26. assert (NZ : X26 <> 0) by (unfold X26; lia).
  assert (ML : forall x, x mod X26 < X26) by (intro; now apply N.mod_lt).
  set (b2 := a2 + a1 / X26) in *. set (b3 := a3 + b2 / X26) in *. set (b4 := a4 + b3 / X26) in *. set (c := b4 / X26) in *. set (b0 := a0 + c * 5) in *. set (b1 := a1 + b0 / X26) in *.
  destruct CA as (L2 & L3 & L4 & LC & L0 & L1 & E).
  rewrite (ck32 b2) by lia. cbn [rbind]. rewrite shr26. fold b3. rewrite (ck32 b3) by lia. cbn [rbind]. rewrite shr26. fold b4. rewrite (ck32 b4) by lia. cbn [rbind]. rewrite shr26. fold c.
  rewrite (ck32 (c * 5)) by lia. cbn [rbind]. fold b0. rewrite (ck32 b0) by lia. cbn [rbind]. rewrite shr26. fold b1. rewrite (ck32 b1) by lia. cbn [rbind]. cbv zeta.
  rewrite !mask26. rewrite <- E. rewrite N.mod_add by discriminate.
  assert (M0 := ML b0). assert (M1 := ML b1). assert (M2 := ML b2). assert (M3 := ML b3). assert (M4 := ML b4).
  generalize dependent (b0 mod X26). generalize dependent (b1 mod X26). generalize dependent (b2 mod X26). generalize dependent (b3 mod X26). generalize dependent (b4 mod X26).
  clear - NZ ML. intros e4 M4 e3 M3 e2 M2 e1 M1 e0 _ M0.
  pose proof (final_arith e0 e1 e2 e3 e4 M0 M1 M2 M3 M4) as FA. cbv zeta in FA.
  set (t0 := e0 + 5) in *. set (t1 := e1 + t0 / X26) in *. set (t2 := e2 + t1 / X26) in *. set (t3 := e3 + t2 / X26) in *. set (k := t3 / X26) in *.
  destruct FA as (LK & L0 & L1 & L2 & L3 & GE & LT).
  rewrite (ck32 t0) by lia. cbn [rbind]. rewrite shr26. fold t1. rewrite (ck32 t1) by lia. cbn [rbind]. rewrite shr26. fold t2. rewrite (ck32 t2) by lia. cbn [rbind]. rewrite shr26. fold t3. rewrite (ck32 t3) by lia. cbn [rbind].
  rewrite shr26. fold k. rewrite !mask26. assert (M0' := ML t0). assert (M1' := ML t1). assert (M2' := ML t2). assert (M3' := ML t3).
  generalize dependent (t0 mod X26). generalize dependent (t1 mod X26). generalize dependent (t2 mod X26). generalize dependent (t3 mod X26). clearbody k. clear t0 t1 t2 t3 L0 L1 L2 L3 ML. intros g3 N3 g2 N2 g1 N1 g0 GE N0.
  assert (X2 : 2 ^ 26 = X26) by reflexivity. rewrite X2. clear X2.
  destruct (N.lt_ge_cases (e4 + k) X26) as [C|C].
  - specialize (LT C). assert (T4 : wadd 32 (wsub32 e4 X26) k = 2 ^ 32 + e4 + k - X26).
    { unfold wadd, wsub32. rewrite (N.mod_small (e4 + 2 ^ 32 - X26)) by (unfold X26 in *; lia). rewrite N.mod_small by (unfold X26 in *; lia). unfold X26 in *. lia. }
    rewrite T4. assert (SH : N.shiftr (2 ^ 32 + e4 + k - X26) 31 = 1) by (rewrite shr; symmetry; apply (N.div_unique _ _ 1 (2 ^ 31 + e4 + k - X26)); unfold X26 in *; lia).
    rewrite SH. change (wsub32 1 1) with 0. rewrite !select_a by (unfold X26 in *; lia).
    exists e0, e1, e2, e3, e4. split; [reflexivity|]. repeat split; auto. symmetry. now apply N.mod_small.
  - destruct (GE C) as (GP & EX & EV). assert (T4 : wadd 32 (wsub32 e4 X26) k = 0).
    { unfold wadd, wsub32. rewrite (N.mod_small (e4 + 2 ^ 32 - X26)) by (unfold X26 in *; lia). replace (e4 + 2 ^ 32 - X26 + k) with (2 ^ 32) by (unfold X26 in *; lia). reflexivity. }
    rewrite T4. change (wsub32 (N.shiftr 0 31) 1) with (2 ^ 32 - 1). rewrite !select_t by (unfold X26 in *; lia).
    exists g0, g1, g2, g3, 0. split; [reflexivity|]. do 4 (split; [assumption|]). split; [reflexivity|].
    rewrite <- EV. replace (val5 g0 g1 g2 g3 0 + P1305) with (val5 g0 g1 g2 g3 0 + 1 * P1305) by lia. rewrite N.mod_add by discriminate. symmetry. apply N.mod_small.
    unfold val5, X26, P1305 in *. change (2 ^ 130 - 5) with 1361129467683753853853498429727072845819 in *. lia.
Qed.
Lemma le4 : forall v, v < 2 ^ 32 -> le_val (le_bytes 4 v) = v. Proof. intros. apply le_val_bytes. exact H. Qed.
Lemma pack_arith : forall b0 b1 b2 b3 b4, b0 < X26 -> b1 < X26 -> b2 < X26 -> b3 < X26 -> b4 < X26 ->
  let w0 := b0 + (b1 mod 64) * X26 in let w1 := b1 / 64 + (b2 mod 4096) * 2 ^ 20 in let w2 := b2 / 4096 + (b3 mod 262144) * 2 ^ 14 in let w3 := b3 / 262144 + (b4 mod 16777216) * 2 ^ 8 in
  w0 < 2 ^ 32 /\ w1 < 2 ^ 32 /\ w2 < 2 ^ 32 /\ w3 < 2 ^ 32 /\ w0 + 2 ^ 32 * (w1 + 2 ^ 32 * (w2 + 2 ^ 32 * w3)) + 2 ^ 128 * (b4 / 16777216) = val5 b0 b1 b2 b3 b4.
Proof.
  intros b0 b1 b2 b3 b4 B0 B1 B2 B3 B4. cbv zeta. unfold val5, X26 in *.
  assert (D1 : b1 = 64 * (b1 / 64) + b1 mod 64) by (apply N.div_mod; lia). assert (D2 : b2 = 4096 * (b2 / 4096) + b2 mod 4096) by (apply N.div_mod; lia).
  assert (D3 : b3 = 262144 * (b3 / 262144) + b3 mod 262144) by (apply N.div_mod; lia). assert (D4 : b4 = 16777216 * (b4 / 16777216) + b4 mod 16777216) by (apply N.div_mod; lia).
  assert (M1 : b1 mod 64 < 64) by (apply N.mod_lt; lia). assert (M2 : b2 mod 4096 < 4096) by (apply N.mod_lt; lia). assert (M3 : b3 mod 262144 < 262144) by (apply N.mod_lt; lia). assert (M4 : b4 mod 16777216 < 16777216) by (apply N.mod_lt; lia).
  generalize dependent (b1 mod 64). generalize dependent (b2 mod 4096). generalize dependent (b3 mod 262144). generalize dependent (b4 mod 16777216).
  generalize dependent (b1 / 64). generalize dependent (b2 / 4096). generalize dependent (b3 / 262144). generalize dependent (b4 / 16777216). intros. subst b1 b2 b3 b4. change (2 ^ 128) with (2 ^ 32 * 2 ^ 32 * 2 ^ 32 * 2 ^ 32). repeat split; lia.
Qed.
Lemma shl_or : forall a b k m, a < 2 ^ k -> k <= 32 -> m = 2 ^ (32 - k) -> N.lor a (shl32 b k) = a + (b mod m) * 2 ^ k.
Proof.
  intros a b k m A K ->. unfold shl32. rewrite N.shiftl_mul_pow2. replace (2 ^ 32) with (2 ^ (32 - k) * 2 ^ k) by (rewrite <- N.pow_add_r; f_equal; lia).
  rewrite N.mul_mod_distr_r by (apply N.pow_nonzero; lia). now apply lor_low.
Qed.
Lemma sum_arith : forall w0 w1 w2 w3 s0 s1 s2 s3, w0 < 2 ^ 32 -> w1 < 2 ^ 32 -> w2 < 2 ^ 32 -> w3 < 2 ^ 32 -> s0 < 2 ^ 32 -> s1 < 2 ^ 32 -> s2 < 2 ^ 32 -> s3 < 2 ^ 32 ->
  let t0 := w0 + s0 in let t1 := w1 + s1 + t0 / 2 ^ 32 in let t2 := w2 + s2 + t1 / 2 ^ 32 in let t3 := w3 + s3 + t2 / 2 ^ 32 in
  t0 < 2 ^ 34 /\ t1 < 2 ^ 34 /\ t2 < 2 ^ 34 /\ t3 < 2 ^ 34 /\
  exists q, t0 mod 2 ^ 32 + 2 ^ 32 * (t1 mod 2 ^ 32 + 2 ^ 32 * (t2 mod 2 ^ 32 + 2 ^ 32 * (t3 mod 2 ^ 32))) + q * (2 ^ 32 * 2 ^ 32 * 2 ^ 32 * 2 ^ 32) =
    w0 + 2 ^ 32 * (w1 + 2 ^ 32 * (w2 + 2 ^ 32 * w3)) + (s0 + 2 ^ 32 * (s1 + 2 ^ 32 * (s2 + 2 ^ 32 * s3))).
Proof.
  intros. assert (K : forall t, t = 2 ^ 32 * (t / 2 ^ 32) + t mod 2 ^ 32 /\ t mod 2 ^ 32 < 2 ^ 32) by (intro; split; [apply N.div_mod; lia|apply N.mod_lt; lia]).
  destruct (K t0) as [K0 ?]. destruct (K t1) as [K1 ?]. destruct (K t2) as [K2 ?]. destruct (K t3) as [K3 ?]. clear K.
  assert (B0 : t0 / 2 ^ 32 <= 1) by (unfold t0; lia). assert (B1 : t1 / 2 ^ 32 <= 2) by (unfold t1; lia). assert (B2 : t2 / 2 ^ 32 <= 2) by (unfold t2; generalize dependent (t1 / 2 ^ 32); intros; lia).
  split; [unfold t0; lia|]. split; [unfold t1; lia|]. split; [unfold t2; lia|]. split; [unfold t3; lia|]. exists (t3 / 2 ^ 32).
  set (n0 := t0 mod 2 ^ 32) in *. set (n1 := t1 mod 2 ^ 32) in *. set (n2 := t2 mod 2 ^ 32) in *. set (n3 := t3 mod 2 ^ 32) in *.
  set (k3 := t3 / 2 ^ 32) in *. set (k2 := t2 / 2 ^ 32) in *. set (k1 := t1 / 2 ^ 32) in *. set (k0 := t0 / 2 ^ 32) in *.
  clearbody n0 n1 n2 n3 k3 k2 k1 k0. unfold t0, t1, t2, t3 in *. clear t0 t1 t2 t3. lia.
Qed.
Lemma out_spec : forall b0 b1 b2 b3 b4 s0 s1 s2 s3, b0 < X26 -> b1 < X26 -> b2 < X26 -> b3 < X26 -> b4 < X26 -> s0 < 2 ^ 32 -> s1 < 2 ^ 32 -> s2 < 2 ^ 32 -> s3 < 2 ^ 32 ->
  poly_out [b0; b1; b2; b3; b4] [s0; s1; s2; s3] = Ret (le_bytes 16 ((val5 b0 b1 b2 b3 b4 + (s0 + 2 ^ 32 * (s1 + 2 ^ 32 * (s2 + 2 ^ 32 * s3)))) mod 2 ^ 128)).
Proof.
  intros b0 b1 b2 b3 b4 s0 s1 s2 s3 B0 B1 B2 B3 B4 S0 S1 S2 S3. unfold poly_out. destruct (pack_arith b0 b1 b2 b3 b4 B0 B1 B2 B3 B4) as (W0 & W1 & W2 & W3 & EV).
  rewrite (shl_or b0 b1 26 64) by first [exact B0|reflexivity|lia]. rewrite (shl_or (N.shiftr b1 6) b2 20 4096) by first [reflexivity|(rewrite shr; apply N.div_lt_upper_bound; [lia|exact B1])|lia].
  rewrite (shl_or (N.shiftr b2 12) b3 14 262144) by first [reflexivity|(rewrite shr; apply N.div_lt_upper_bound; [lia|exact B2])|lia].
  rewrite (shl_or (N.shiftr b3 18) b4 8 16777216) by first [reflexivity|(rewrite shr; apply N.div_lt_upper_bound; [lia|exact B3])|lia].
  rewrite !shr. change (2 ^ 6) with 64. change (2 ^ 12) with 4096. change (2 ^ 18) with 262144. change (2 ^ 26) with X26.
  generalize dependent (b0 + b1 mod 64 * X26). generalize dependent (b1 / 64 + b2 mod 4096 * 2 ^ 20). generalize dependent (b2 / 4096 + b3 mod 262144 * 2 ^ 14). generalize dependent (b3 / 262144 + b4 mod 16777216 * 2 ^ 8).
  intros w3 W3 w2 W2 w1 W1 w0 W0 EV. rewrite <- EV. clear EV. cbv zeta.
  destruct (sum_arith w0 w1 w2 w3 s0 s1 s2 s3 W0 W1 W2 W3 S0 S1 S2 S3) as (T0 & T1 & T2 & T3 & q & EQ).
  rewrite !ck64 by lia. cbn [rbind]. rewrite !shr. rewrite (ck64 (w1 + s1 + _)) by lia. cbn [rbind]. rewrite !shr. rewrite (ck64 (w2 + s2 + _)) by lia. cbn [rbind]. rewrite !shr. rewrite (ck64 (w3 + s3 + _)) by lia. cbn [rbind].
  set (t0 := w0 + s0) in *. set (t1 := w1 + s1 + t0 / 2 ^ 32) in *. set (t2 := w2 + s2 + t1 / 2 ^ 32) in *. set (t3 := w3 + s3 + t2 / 2 ^ 32) in *.
  f_equal. set (L := le_bytes 4 _ ++ _). assert (OL : bytes_ok L) by (unfold L; repeat (apply bytes_ok_app; split); apply le_bytes_ok).
  rewrite <- (le_bytes_val L OL). assert (LL : length L = 16%nat) by (unfold L; rewrite !app_length, !le_bytes_length; reflexivity). rewrite LL. f_equal.
  assert (ML : forall t, t mod 2 ^ 32 < 2 ^ 32) by (intro; apply N.mod_lt; lia).
  assert (VL : le_val L = t0 mod 2 ^ 32 + 2 ^ 32 * (t1 mod 2 ^ 32 + 2 ^ 32 * (t2 mod 2 ^ 32 + 2 ^ 32 * (t3 mod 2 ^ 32)))).
  { unfold L. rewrite !le_val_app, !le4 by apply ML. rewrite !le_bytes_len. change (256 ^ N.of_nat 4) with (2 ^ 32). reflexivity. }
  apply (N.mod_unique _ _ (b4 / 16777216 + q)).
  - pose proof (le_val_lt L OL) as BL. unfold lenN in BL. rewrite LL in BL. exact BL.
  - rewrite VL. change (2 ^ 128) with (2 ^ 32 * 2 ^ 32 * 2 ^ 32 * 2 ^ 32). rewrite (N.mul_add_distr_l (2 ^ 32 * 2 ^ 32 * 2 ^ 32 * 2 ^ 32)).
    rewrite (N.mul_comm (2 ^ 32 * 2 ^ 32 * 2 ^ 32 * 2 ^ 32) q). revert EQ. generalize (2 ^ 32 * 2 ^ 32 * 2 ^ 32 * 2 ^ 32 * (b4 / 16777216)). generalize (q * (2 ^ 32 * 2 ^ 32 * 2 ^ 32 * 2 ^ 32)).
    clear. intros. lia.
Qed.

(** * The engine *)
Definition pstep (r a : N) (block : bytes) : N := (a + le_val (block ++ [1])) * r mod P1305.
Lemma block_spec : forall r0 r1 r2 r3 r4 acc msg last, r0 < X26 -> r1 < X26 -> r2 < X26 -> r3 < X26 -> r4 < 2 ^ 20 -> limbs_ok 63 acc -> bytes_ok msg ->
  (last = false -> lenN msg = 16) -> (last = true -> lenN msg < 16) ->
  exists acc', poly_block [r0; r1; r2; r3; r4] acc msg last = Ret acc' /\ limbs_ok 63 acc' /\ val acc' mod P1305 = pstep (val5 r0 r1 r2 r3 r4) (val acc mod P1305) msg.
Proof.
  intros r0 r1 r2 r3 r4 acc msg last R0 R1 R2 R3 R4 (a0 & a1 & a2 & a3 & a4 & -> & A0 & A1 & A2 & A3 & A4) O LF LT. unfold poly_block.
  destruct (prepare_spec msg last O LF LT) as (m0 & m1 & m2 & m3 & m4 & EP & EV & M0 & M1 & M2 & M3 & M4). rewrite EP. cbn [rbind add_limbs]. unfold X26 in *.
  rewrite !ck32 by lia. cbn [rbind].
  destruct (r_times_a_spec r0 r1 r2 r3 r4 (a0 + m0) (a1 + m1) (a2 + m2) (a3 + m3) (a4 + m4)) as (acc & EA & OA & VA); try assumption; try (unfold B27; lia).
  exists acc. split; [exact EA|]. split; [exact OA|]. rewrite VA. unfold pstep. rewrite <- EV. unfold val. rewrite <- (N.mul_mod_idemp_l (_ + _)) by discriminate. rewrite N.add_mod_idemp_l by discriminate.
  rewrite N.mul_mod_idemp_l by discriminate. f_equal. rewrite N.mul_comm. f_equal. unfold val5, X26. lia.
Qed.
Lemma blocks_spec : forall r0 r1 r2 r3 r4, r0 < X26 -> r1 < X26 -> r2 < X26 -> r3 < X26 -> r4 < 2 ^ 20 -> forall ls acc, full 16 ls -> bytes_ok (concat ls) -> limbs_ok 63 acc ->
  exists acc', poly_blocks [r0; r1; r2; r3; r4] acc ls = Ret acc' /\ limbs_ok 63 acc' /\ val acc' mod P1305 = fold_left (pstep (val5 r0 r1 r2 r3 r4)) ls (val acc mod P1305).
Proof.
  intros r0 r1 r2 r3 r4 R0 R1 R2 R3 R4 ls acc F. revert acc. induction F as [|b ls B F IH]; intros acc O K; cbn [poly_blocks fold_left]; [exists acc; auto|].
  cbn [concat] in O. apply bytes_ok_app in O. destruct O as [O1 O2].
  destruct (block_spec r0 r1 r2 r3 r4 acc b false R0 R1 R2 R3 R4 K O1) as (acc1 & E1 & K1 & V1); [auto|discriminate|]. rewrite E1. cbn [rbind]. rewrite <- V1. now apply IH.
Qed.
