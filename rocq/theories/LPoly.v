(** Lemmas on Poly1305. *)
From Verif Require Import Base MDec LDec LU256 MHash SHash LHash LHash2 MSha2 MChaCha SChaCha.
Local Open Scope N_scope.

(** * Limbs *)
Definition X26 : N := 67108864.
Definition val5 (a0 a1 a2 a3 a4 : N) : N := a0 + X26 * (a1 + X26 * (a2 + X26 * (a3 + X26 * a4))).
Lemma le32_val : forall l i, bytes_ok l -> le32 l i = N.shiftr (le_val l) (8 * i) mod 2 ^ 32 \/ lenN l < i + 4.
Proof.
  intros l i O. destruct (N.lt_ge_cases (lenN l) (i + 4)) as [L|L]; [now right|left]. unfold le32.
  rewrite <- (takeN_dropN i l) at 2. rewrite <- (takeN_dropN 4 (dropN i l)) at 2. rewrite le_val_app, le_val_app, !lenN_takeN, lenN_dropN.
  assert (O2 : bytes_ok (takeN i l) /\ bytes_ok (takeN 4 (dropN i l))).
  { rewrite <- (takeN_dropN i l) in O. apply bytes_ok_app in O. destruct O as [O1 O]. split; auto. rewrite <- (takeN_dropN 4 (dropN i l)) in O. now apply bytes_ok_app in O. }
  destruct O2 as [O1 O2]. apply le_val_lt in O1. apply le_val_lt in O2. rewrite lenN_takeN in O1. rewrite lenN_takeN, lenN_dropN in O2.
  replace (N.min i (lenN l)) with i in * by lia. replace (N.min 4 (lenN l - i)) with 4 in * by lia.
  rewrite N.shiftr_div_pow2, N.pow_mul_r. change (2 ^ 8) with 256. change (2 ^ 32) with (256 ^ 4).
  rewrite (N.add_comm (le_val (takeN i l))), (N.mul_comm (256 ^ i)), N.div_add_l by (apply N.pow_nonzero; lia). rewrite (N.div_small _ (256 ^ i)) by auto. rewrite N.add_0_r.
  rewrite N.mul_comm, N.mod_add by (apply N.pow_nonzero; lia). symmetry. now apply N.mod_small.
Qed.
Lemma le32_at : forall l i, bytes_ok l -> i + 4 <= lenN l -> le32 l i = N.shiftr (le_val l) (8 * i) mod 2 ^ 32.
Proof. intros l i O L. destruct (le32_val l i O); auto. lia. Qed.
Lemma limb_bits : forall x k m, k <= 32 -> m < 2 ^ (32 - k) -> N.land (N.shiftr (x mod 2 ^ 32) k) m = N.land (N.shiftr x k) m.
Proof.
  intros x k m K M. apply N.bits_inj. intro n. rewrite !N.land_spec, !N.shiftr_spec'. destruct (N.lt_ge_cases n (32 - k)) as [L|L].
  - rewrite N.mod_pow2_bits_low by lia. reflexivity.
  - assert (N.testbit m n = false) as ->; [|now rewrite !andb_false_r]. destruct (N.eq_dec m 0) as [->|NZ]; [apply N.bits_0|]. apply N.bits_above_log2. apply N.log2_lt_pow2 in M; lia.
Qed.
Lemma land_split : forall K c d k, c < 2 ^ k -> N.land K (c + 2 ^ k * d) = N.land K c + 2 ^ k * N.land (N.shiftr K k) d.
Proof.
  intros K c d k C. rewrite (N.mul_comm (2 ^ k) d), <- lor_low by auto. rewrite N.land_lor_distr_r. rewrite <- (N.shiftl_mul_pow2 d k).
  assert (E : N.land K (N.shiftl d k) = N.shiftl (N.land (N.shiftr K k) d) k).
  { apply N.bits_inj. intro n. rewrite N.land_spec. destruct (N.lt_ge_cases n k) as [L|L]; [rewrite !N.shiftl_spec_low by auto; apply andb_false_r|].
    rewrite !N.shiftl_spec_high' by auto. rewrite N.land_spec, N.shiftr_spec'. replace (n - k + k) with n by lia. reflexivity. }
  rewrite E, N.shiftl_mul_pow2, lor_low; [lia|]. now apply land_lt.
Qed.
Lemma limbs_land : forall K c0 c1 c2 c3 c4, c0 < X26 -> c1 < X26 -> c2 < X26 -> c3 < X26 ->
  val5 (N.land K c0) (N.land (N.shiftr K 26) c1) (N.land (N.shiftr K 52) c2) (N.land (N.shiftr K 78) c3) (N.land (N.shiftr K 104) c4) = N.land K (val5 c0 c1 c2 c3 c4).
Proof.
  intros K c0 c1 c2 c3 c4 C0 C1 C2 C3. unfold val5. change X26 with (2 ^ 26) in *. rewrite !land_split by auto. rewrite !N.shiftr_shiftr. reflexivity.
Qed.
Definition limbs_ok (k : N) (l : list N) : Prop := exists a0 a1 a2 a3 a4, l = [a0; a1; a2; a3; a4] /\ a0 < X26 /\ a1 <= X26 + k /\ a2 < X26 /\ a3 < X26 /\ a4 < X26.
Definition val (l : list N) : N := match l with [a0; a1; a2; a3; a4] => val5 a0 a1 a2 a3 a4 | _ => 0 end.
Lemma land_mask_lt : forall x m, m < X26 -> N.land x m < X26.
Proof. intros. change X26 with (2 ^ 26) in *. now apply land_lt. Qed.

(** * The key *)
Lemma takeN_pref : forall k (a b : bytes), lenN a = k -> takeN k (a ++ b) = a. Proof. intros. rewrite takeN_app_le by lia. apply takeN_all. lia. Qed.
Lemma dropN_pref : forall k a (b : bytes), lenN a = k -> dropN k (a ++ b) = b. Proof. intros. rewrite dropN_app_ge by lia. rewrite H, N.sub_diag. apply dropN_0. Qed.
Lemma le32_app_l : forall a b i, i + 4 <= lenN a -> le32 (a ++ b) i = le32 a i.
Proof. intros. unfold le32. rewrite dropN_app_le by lia. rewrite takeN_app_le by (rewrite lenN_dropN; lia). reflexivity. Qed.
Lemma le32_app_r : forall a b i, le32 (a ++ b) (lenN a + i) = le32 b i.
Proof. intros. unfold le32. rewrite dropN_app_ge by lia. do 3 f_equal. lia. Qed.
Lemma r_spec : forall key, bytes_ok key -> lenN key = 32 ->
  exists r0 r1 r2 r3 r4, p_r (poly_new key) = [r0; r1; r2; r3; r4] /\ val5 r0 r1 r2 r3 r4 = clamp (le_val (takeN 16 key)) /\
    r0 < X26 /\ r1 < X26 /\ r2 < X26 /\ r3 < X26 /\ r4 < 2 ^ 20.
Proof.
  intros key O L. rewrite <- (takeN_dropN 16 key) in O. apply bytes_ok_app in O. destruct O as [O _]. set (k := takeN 16 key) in *.
  assert (LK : lenN k = 16) by (unfold k; rewrite lenN_takeN; lia).
  assert (E : forall i, i + 4 <= 16 -> le32 key i = N.shiftr (le_val k) (8 * i) mod 2 ^ 32).
  { intros i I. rewrite <- le32_at by (auto; lia). rewrite <- (le32_app_l k (dropN 16 key)) by lia. unfold k. now rewrite takeN_dropN. }
  unfold poly_new. cbn [p_r]. rewrite !E by lia. rewrite <- (N.shiftr_0_r (N.shiftr (le_val k) (8 * 0) mod 2 ^ 32)), !limb_bits by (try lia; reflexivity). rewrite !N.shiftr_shiftr.
  eexists _, _, _, _, _. split; [reflexivity|]. split.
  - unfold clamp. replace 0x0ffffffc0ffffffc0ffffffc0fffffff with (val5 0x3ffffff 0x3ffff03 0x3ffc0ff 0x3f03fff 0xfffff) by reflexivity. rewrite <- limbs_land by reflexivity.
    cbn [N.mul N.add Pos.mul Pos.add Pos.succ]. rewrite N.shiftr_0_r. reflexivity.
  - repeat split; try (apply land_mask_lt; reflexivity). apply land_lt. reflexivity.
Qed.
Lemma s_spec : forall key, bytes_ok key -> lenN key = 32 ->
  exists s0 s1 s2 s3, p_s (poly_new key) = [s0; s1; s2; s3] /\ s0 + 2 ^ 32 * (s1 + 2 ^ 32 * (s2 + 2 ^ 32 * s3)) = le_val (dropN 16 key) /\
   s0 < 2 ^ 32 /\ s1 < 2 ^ 32 /\ s2 < 2 ^ 32 /\ s3 < 2 ^ 32.
Proof.
  intros key O L. unfold poly_new. cbn [p_s]. pose proof (takeN_dropN 16 key) as E. set (s := dropN 16 key) in *. assert (LS : lenN s = 16) by (unfold s; rewrite lenN_dropN; lia).
  assert (LT : lenN (takeN 16 key) = 16) by (rewrite lenN_takeN; lia).
  assert (OS : bytes_ok s) by (rewrite <- E in O; now apply bytes_ok_app in O).
  assert (G : forall i, le32 key (16 + i) = le32 s i) by (intro i; rewrite <- LT, <- (le32_app_r (takeN 16 key) s i), E; reflexivity).
  rewrite (G 0 : le32 key 16 = _), (G 4 : le32 key 20 = _), (G 8 : le32 key 24 = _), (G 12 : le32 key 28 = _).
  eexists _, _, _, _. split; [reflexivity|]. rewrite !le32_at by (auto; lia). cbn [N.mul Pos.mul Pos.add Pos.succ]. rewrite !N.shiftr_div_pow2.
  pose proof (le_val_lt s OS) as B. rewrite LS in B. change (256 ^ 16) with (2 ^ 128) in B. set (v := le_val s) in *. clearbody v.
  split; [|repeat split; apply N.mod_lt; lia].
  change (2 ^ 0) with 1. change (2 ^ 96) with (2 ^ 32 * 2 ^ 32 * 2 ^ 32). change (2 ^ 64) with (2 ^ 32 * 2 ^ 32). rewrite <- !N.div_div by lia. rewrite N.div_1_r.
  set (v1 := v / 2 ^ 32). set (v2 := v1 / 2 ^ 32). set (v3 := v2 / 2 ^ 32).
  assert (v3 < 2 ^ 32). { unfold v3, v2, v1. rewrite !N.div_div by lia. apply N.div_lt_upper_bound; [lia|]. change (2 ^ 32 * (2 ^ 32 * 2 ^ 32) * 2 ^ 32) with (2 ^ 128). exact B. }
  rewrite (N.mod_small v3) by auto. pose proof (N.div_mod v (2 ^ 32) ltac:(lia)). pose proof (N.div_mod v1 (2 ^ 32) ltac:(lia)). pose proof (N.div_mod v2 (2 ^ 32) ltac:(lia)).
  fold v1 in H0. fold v2 in H1. fold v3 in H2. lia.
Qed.

(** * The message blocks *)
Lemma repeat_lenN : forall (x : N) n, lenN (repeat x n) = N.of_nat n. Proof. intros. unfold lenN. now rewrite repeat_length. Qed.
Lemma zeros_val : forall n, le_val (repeat 0 n) = 0.
Proof. induction n as [|n IH]; cbn [repeat le_val]; [reflexivity|]. rewrite IH. reflexivity. Qed.
Lemma zeros_ok : forall n, bytes_ok (repeat 0 n).
Proof. intro n. apply Forall_forall. intros x X. apply repeat_spec in X. subst. reflexivity. Qed.
Lemma dropN_repeat : forall (x : N) k n, k <= N.of_nat n -> dropN k (repeat x n) = repeat x (n - N.to_nat k).
Proof.
  intros x k n K. replace n with (N.to_nat k + (n - N.to_nat k))%nat at 1 by lia. rewrite repeat_app. apply dropN_pref. rewrite repeat_lenN. lia.
Qed.
Lemma prepare_spec : forall msg last, bytes_ok msg -> (last = false -> lenN msg = 16) -> (last = true -> lenN msg < 16) ->
  exists m0 m1 m2 m3 m4, prepare msg last = Ret [m0; m1; m2; m3; m4] /\ val5 m0 m1 m2 m3 m4 = le_val (msg ++ [1]) /\
    m0 < X26 /\ m1 < X26 /\ m2 < X26 /\ m3 < X26 /\ m4 < 2 ^ 25.
Proof.
  intros msg last O LF LT. assert (L16 : lenN msg <= 16) by (destruct last; [specialize (LT eq_refl)|specialize (LF eq_refl)]; lia).
  unfold prepare. rewrite copy_in_ok by (rewrite repeat_lenN; lia). cbn [rbind]. rewrite takeN_0, N.add_0_l. cbn [app]. rewrite dropN_repeat by lia.
  rewrite copy_in_ok by (rewrite lenN_app, repeat_lenN, lenN_cons, lenN_nil; lia). cbn [rbind]. rewrite takeN_pref by reflexivity.
  rewrite dropN_app_ge by lia. replace (lenN msg + lenN [1] - lenN msg) with 1 by (rewrite lenN_cons, lenN_nil; lia). rewrite dropN_repeat by lia.
  set (z := repeat 0 (17 - N.to_nat (lenN msg) - N.to_nat 1)). rewrite app_assoc. set (f := (msg ++ [1]) ++ z).
  assert (OF : bytes_ok f) by (unfold f; rewrite !bytes_ok_app; repeat split; auto; [repeat constructor|apply zeros_ok]).
  assert (LFF : lenN f = 17) by (unfold f, z; rewrite !lenN_app, repeat_lenN, lenN_cons, lenN_nil; lia).
  assert (V : le_val (msg ++ [1]) = le_val f) by (unfold f, z; rewrite (le_val_app (msg ++ [1])), zeros_val; lia). rewrite V.
  rewrite !le32_at by (auto; lia). set (M := le_val f) in *.
  assert (TOP : N.lor (N.shiftr (N.shiftr M (8 * 12) mod 2 ^ 32) 8) (if last then 0 else N.shiftl 1 24) = N.shiftr M 104).
  { assert (LM := le_val_lt msg O). destruct last.
    - rewrite N.lor_0_r. specialize (LT eq_refl). rewrite N.mod_small; [rewrite N.shiftr_shiftr; reflexivity|].
      rewrite N.shiftr_div_pow2. apply N.div_lt_upper_bound; [lia|]. rewrite <- N.pow_add_r. rewrite <- V, le_val_app. cbn [le_val].
      assert (256 ^ lenN msg <= 256 ^ 15) by (apply N.pow_le_mono_r; lia). change (2 ^ (8 * 12 + 32)) with (256 ^ 15 * 256). lia.
    - specialize (LF eq_refl). rewrite <- V, le_val_app. cbn [le_val]. rewrite LF in *. rewrite N.mul_0_r, N.add_0_r, N.mul_1_r. set (v := le_val msg) in *. clearbody v.
      change (256 ^ 16) with (2 ^ 32 * 2 ^ 96) in *. rewrite !N.shiftr_div_pow2. change (8 * 12) with 96. change (N.shiftl 1 24) with (1 * 2 ^ 24).
      rewrite (N.div_add v (2 ^ 32)) by (apply N.pow_nonzero; lia). replace (v / 2 ^ 96 + 2 ^ 32) with (v / 2 ^ 96 + 1 * 2 ^ 32) by lia. rewrite N.mod_add by lia.
      assert (Q : v / 2 ^ 96 < 2 ^ 32) by (apply N.div_lt_upper_bound; lia). rewrite N.mod_small by auto.
      rewrite lor_low by (apply N.div_lt_upper_bound; [lia|]; change (2 ^ 8 * 2 ^ 24) with (2 ^ 32); auto).
      change (2 ^ 104) with (2 ^ 96 * 2 ^ 8). rewrite <- N.div_div by lia. rewrite N.div_add by lia. change (2 ^ 32) with (2 ^ 24 * 2 ^ 8). rewrite N.div_add by lia. lia. }
  rewrite TOP. assert (ML : M < 2 ^ 129).
  { rewrite <- V, le_val_app. cbn [le_val]. assert (LM := le_val_lt msg O). assert (256 ^ lenN msg <= 256 ^ 16) by (apply N.pow_le_mono_r; lia). change (2 ^ 129) with (2 * 256 ^ 16). lia. }
  rewrite <- (N.shiftr_0_r (N.shiftr M (8 * 0) mod 2 ^ 32)), !limb_bits by (try lia; reflexivity). rewrite !N.shiftr_shiftr.
  eexists _, _, _, _, _. split; [reflexivity|].
  assert (T4 : N.shiftr M 104 < 2 ^ 25) by (rewrite N.shiftr_div_pow2; apply N.div_lt_upper_bound; [lia|]; exact ML).
  split; [|repeat split; try (apply land_mask_lt; reflexivity); exact T4].
  assert (E4 : N.shiftr M 104 = N.land (N.shiftr M 104) (N.ones 26)).
  { rewrite N.land_ones, N.mod_small; [reflexivity|]. eapply N.lt_trans; [exact T4|reflexivity]. }
  rewrite E4. change BITMASK with (N.ones 26). cbn [N.mul N.add Pos.mul Pos.add Pos.succ]. rewrite N.shiftr_0_r. rewrite limbs_land by reflexivity.
  change (val5 _ _ _ _ _) with (N.ones 130). rewrite N.land_ones, N.mod_small; [reflexivity|]. eapply N.lt_trans; [exact ML|reflexivity].
Qed.
