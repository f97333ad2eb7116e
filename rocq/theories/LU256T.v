(** Lemmas about 256-bit integers: bytes, text, inverse, conversion to floating point. *)
From Verif Require Import Base MWitness MAmount MTx MLock MText SText LText MU256 LU256.
Local Open Scope N_scope.

(** bytes *)
Lemma P256_16 : 256 ^ 16 = W128. Proof. reflexivity. Qed.
Lemma P256_32 : 256 ^ 32 = W256. Proof. reflexivity. Qed.
Lemma to_le_val : forall a, wf a -> to_le_bytes a = le_bytes 32 (val a).
Proof.
  intros [h l] [H L]. unfold to_le_bytes, val. cbn [hi lo] in *. set (b := le_bytes 16 l ++ le_bytes 16 h).
  assert (OK : bytes_ok b) by (apply bytes_ok_app; split; apply le_bytes_ok).
  assert (LB : length b = 32%nat) by (unfold b; rewrite app_length, !le_bytes_length; reflexivity).
  rewrite <- (le_bytes_val b OK), LB. f_equal. unfold b. rewrite le_val_app. unfold lenN. rewrite le_bytes_length.
  change (256 ^ N.of_nat 16) with W128. rewrite !le_val_bytes by auto. ring.
Qed.
Lemma to_be_val : forall a, wf a -> to_be_bytes a = be_bytes 32 (val a).
Proof.
  intros a W. unfold be_bytes. rewrite <- to_le_val by auto. unfold to_be_bytes, to_le_bytes, be_bytes. now rewrite rev_app_distr.
Qed.
Lemma half_lt : forall b, bytes_ok b -> length b = 16%nat -> le_val b < W128.
Proof. intros b OK L. pose proof (le_val_lt b OK) as H. unfold lenN in H. rewrite L in H. exact H. Qed.
Lemma from_le_of : forall b, bytes_ok b -> length b = 32%nat -> from_le_bytes b = of_val (le_val b).
Proof.
  intros b OK L. unfold from_le_bytes.
  assert (LF : length (firstn 16 b) = 16%nat) by (rewrite firstn_length; lia).
  apply U_eq_of; [apply half_lt; [apply bytes_ok_skipn; auto|rewrite skipn_length; lia]|apply half_lt; [apply bytes_ok_firstn; auto|auto]|].
  rewrite <- (firstn_skipn 16 b) at 3. rewrite le_val_app. unfold lenN. rewrite LF. change (256 ^ N.of_nat 16) with W128. ring.
Qed.
Lemma from_be_of : forall b, bytes_ok b -> length b = 32%nat -> from_be_bytes b = of_val (be_val b).
Proof.
  intros b OK L. assert (E : from_be_bytes b = from_le_bytes (rev b)).
  { unfold from_be_bytes, from_le_bytes, be_val. rewrite skipn_rev, firstn_rev, L. reflexivity. }
  rewrite E, from_le_of; [reflexivity| |now rewrite rev_length]. unfold bytes_ok. now apply Forall_rev.
Qed.
Lemma bytes_val_lt : forall b, bytes_ok b -> length b = 32%nat -> le_val b < W256.
Proof. intros b OK L. pose proof (le_val_lt b OK) as H. unfold lenN in H. rewrite L in H. exact H. Qed.

(** small conversions *)
Lemma low_u32_of : forall a, wf a -> low_u32 a = val a mod 2 ^ 32.
Proof.
  intros [h l] [H L]. unfold low_u32, val. cbn [hi lo] in *.
  assert (W128 = 2 ^ 96 * 2 ^ 32) as -> by reflexivity. change 4294967296 with (2 ^ 32).
  replace (h * (2 ^ 96 * 2 ^ 32) + l) with (l + (h * 2 ^ 96) * 2 ^ 32) by ring. now rewrite N.mod_add.
Qed.
Lemma low_u64_val : forall a, wf a -> low_u64 a = val a mod W64.
Proof. intros a W. rewrite <- (of_val_val a W) at 1. apply low_u64_of. Qed.
Lemma sat128_val : forall a, wf a -> saturating_to_u128 a = N.min (val a) (W128 - 1).
Proof.
  intros [h l] W. unfold saturating_to_u128. assert (W1 : W128 - 1 < W128) by (pose proof W128_nz; lia).
  assert (WM : wf (u_from (W128 - 1))) by (split; [reflexivity|auto]). rewrite ltb_val by auto. rewrite from_of by auto. rewrite val_of.
  destruct W as [H L]. unfold val in *. cbn [hi lo] in *.
  destruct (N.ltb_spec (W128 - 1) (h * W128 + l)) as [G|G].
  - rewrite N.min_r; auto. apply N.lt_le_incl. exact G.
  - assert (h = 0) as ->. { destruct (N.eq_dec h 0); auto. exfalso. pose proof (mul_succ_le W128 0 h ltac:(lia)). lia. }
    rewrite N.mul_0_l, N.add_0_l, N.min_l by lia. reflexivity.
Qed.

(** inverse *)
Lemma wf_not : forall a, wf a -> wf (u_not a).
Proof. intros a W. rewrite not_val by auto. apply wf_of. pose proof W256_nz. lia. Qed.
Lemma wf_inc : forall a, wf a -> wf (wrapping_inc a).
Proof. intros a W. rewrite inc_val by auto. apply wf_of, mod_lt256. Qed.
Lemma div_val : forall a b, wf a -> wf b -> val b <> 0 -> u_div a b = Ret (of_val (val a / val b)).
Proof. intros. unfold u_div. now rewrite div_rem_val. Qed.
Lemma rem_val : forall a b, wf a -> wf b -> val b <> 0 -> u_rem a b = Ret (of_val (val a mod val b)).
Proof. intros. unfold u_rem. now rewrite div_rem_val. Qed.
Lemma inverse_val : forall a, wf a -> val a <> 0 -> val a <> 1 -> inverse a = Ret (of_val (W256 / (val a + 1))).
Proof.
  intros a W N0 N1. unfold inverse. rewrite is_zero_val, is_one_val, is_max_val by auto.
  rewrite (proj2 (N.eqb_neq _ _) N0), (proj2 (N.eqb_neq _ _) N1). pose proof (val_lt a W) as L. pose proof W256_nz as WZ.
  destruct (N.eqb_spec (val a) (W256 - 1)) as [E|E].
  - rewrite one_of. f_equal. f_equal. replace (val a + 1) with W256 by lia. symmetry. now apply N.div_same.
  - rewrite inc_val by auto. rewrite (N.mod_small (val a + 1)) by lia.
    assert (WI : wf (of_val (val a + 1))) by (apply wf_of; lia).
    rewrite div_val by (auto using wf_not; rewrite val_of; lia). cbn [rbind]. rewrite not_val by auto. rewrite !val_of.
    set (v := val a) in *. clearbody v. f_equal.
    assert (LQ : (W256 - 1 - v) / (v + 1) < W256 - 1).
    { apply N.div_lt_upper_bound; [lia|]. assert (W256 - 1 <= (v + 1) * (W256 - 1)); [|lia].
      rewrite <- (N.mul_1_l (W256 - 1)) at 1. apply N.mul_le_mono_r. lia. }
    rewrite inc_val by (apply wf_of; lia). rewrite val_of. rewrite N.mod_small by lia. f_equal.
    replace W256 with ((W256 - 1 - v) + 1 * (v + 1)) at 2 by lia. now rewrite N.div_add by lia.
Qed.

(** decimal text *)
Lemma digit10_mod : forall v, digit10 (48 + v mod 10) (v mod 10).
Proof. intro v. split; [apply N.mod_lt; lia|reflexivity]. Qed.
Lemma fmt_u_step : forall v, v / 10 <> 0 -> fmt_u v = fmt_u (v / 10) ++ [48 + v mod 10].
Proof.
  intros v NZ. symmetry. apply fmt_u_unique. destruct (fmt_u_canonical (v / 10)) as (NU & Z & H).
  assert (V : v = 10 * (v / 10) + v mod 10) by (apply N.div_mod; lia).
  split; [|split].
  - rewrite V at 3. apply numeral_snoc; auto. apply digit10_mod.
  - intros ->. exfalso. apply NZ. reflexivity.
  - intros _. specialize (H NZ). pose proof (numeral_nonempty _ _ _ _ NU). destruct (fmt_u (v / 10)); [congruence|]. exact H.
Qed.
Lemma fmt_u_digit : forall v, v < 10 -> fmt_u v = [48 + v].
Proof.
  intros v L. symmetry. apply fmt_u_unique. split; [|split].
  - apply numeral_one. split; auto.
  - intros ->. reflexivity.
  - cbn [hd]. lia.
Qed.
Lemma wf_ten : wf (U 0 10). Proof. split; reflexivity. Qed.
Lemma decimal_step : forall n cur acc, decimal_loop (S n) cur acc =
  rbind (u_rem cur (U 0 10)) (fun r => rbind (u_div cur (U 0 10)) (fun c =>
  if is_zero c then Ret ((lo r mod 256 + 48) :: acc) else decimal_loop n c ((lo r mod 256 + 48) :: acc))).
Proof. reflexivity. Qed.
Lemma decimal_loop_ok : forall n a acc, wf a -> val a < 10 ^ N.of_nat (S n) -> decimal_loop (S n) a acc = Ret (fmt_u (val a) ++ acc).
Proof.
  assert (V10 : val (U 0 10) = 10) by reflexivity.
  induction n as [|n IH]; intros a acc W L; rewrite decimal_step; rewrite rem_val, div_val by (auto using wf_ten; rewrite V10; lia);
    cbn [rbind]; rewrite V10; pose proof (val_lt a W) as VL; (rewrite is_zero_val by (apply wf_of; apply N.le_lt_trans with (val a); auto; apply div_le_self; lia)); rewrite val_of.
  - assert (D : lo (of_val (val a mod 10)) mod 256 = val a mod 10).
    { unfold of_val. cbn [lo]. pose proof (N.mod_lt (val a) 10 ltac:(lia)). rewrite (N.mod_small _ W128) by (apply N.lt_trans with 10; auto; reflexivity). apply N.mod_small. lia. }
    rewrite D. change (10 ^ N.of_nat 1) with 10 in L. rewrite (N.div_small (val a) 10) by auto. cbn [N.eqb]. rewrite fmt_u_digit by auto. rewrite N.mod_small by auto.
    cbn [app]. rewrite N.add_comm. reflexivity.
  - assert (D : lo (of_val (val a mod 10)) mod 256 = val a mod 10).
    { unfold of_val. cbn [lo]. pose proof (N.mod_lt (val a) 10 ltac:(lia)). rewrite (N.mod_small _ W128) by (apply N.lt_trans with 10; auto; reflexivity). apply N.mod_small. lia. }
    rewrite D. destruct (N.eqb_spec (val a / 10) 0) as [Z|Z].
    + assert (val a < 10) by (apply N.div_small_iff in Z; auto; lia). rewrite fmt_u_digit by auto. rewrite N.mod_small by auto. cbn [app]. rewrite N.add_comm. reflexivity.
    + rewrite IH; rewrite ?val_of.
      * rewrite (fmt_u_step (val a)) by auto. rewrite <- app_assoc. cbn [app]. rewrite (N.add_comm 48). reflexivity.
      * apply wf_of. apply N.le_lt_trans with (val a); auto; apply div_le_self; lia.
      * apply N.div_lt_upper_bound; [lia|]. rewrite <- N.pow_succ_r'. rewrite <- Nat2N.inj_succ. exact L.
Qed.
Lemma display_ok : forall a, wf a -> u_display a = Ret (fmt_u (val a)).
Proof.
  intros a W. unfold u_display. rewrite is_zero_val by auto. destruct (N.eqb_spec (val a) 0) as [-> | NZ]; [reflexivity|].
  rewrite decimal_loop_ok; [now rewrite app_nil_r|auto|]. apply N.lt_trans with W256; [now apply val_lt|reflexivity].
Qed.

(** binary and octal text *)
Definition digit_of (r c d : N) : Prop := d < r /\ c = 48 + d.
Lemma bits_loop_ok : forall k n a acc, 1 <= k -> k <= 3 -> wf a -> val a < 2 ^ (k * N.of_nat n) ->
  exists t, bits_loop k n a acc = Ret (t ++ acc) /\
    ((val a = 0 /\ t = []) \/ (val a <> 0 /\ numeral (digit_of (2 ^ k)) (2 ^ k) t (val a) /\ hd 0 t <> 48)).
Proof.
  intros k n. induction n as [|n IH]; intros a acc K1 K3 W L; cbn [bits_loop]; rewrite gtb0_val by auto; destruct (N.ltb_spec 0 (val a)) as [P|P].
  - exfalso. change (N.of_nat 0) with 0 in L. rewrite N.mul_0_r, N.pow_0_r in L. lia.
  - exists []. split; [reflexivity|]. left. split; [lia|reflexivity].
  - rewrite shr_val by (auto; lia). cbn [rbind]. rewrite low_u64_val by auto.
    assert (PK := pow2_nz k).
    assert (MM : (val a mod W64) mod 2 ^ k = val a mod 2 ^ k).
    { assert (W64 = 2 ^ k * 2 ^ (64 - k)) as -> by (rewrite <- N.pow_add_r, W64_pow; f_equal; lia).
      rewrite N.mod_mul_r by apply pow2_nz. rewrite (N.mul_comm (2 ^ k)), N.mod_add by auto. now apply N.mod_mod. }
    rewrite MM. edestruct (IH (of_val (val a / 2 ^ k)) ((48 + val a mod 2 ^ k) :: acc) K1 K3) as (t & E & C).
    + apply wf_of, div_lt256, val_lt, W.
    + rewrite val_of. apply N.div_lt_upper_bound; [apply pow2_nz|]. rewrite <- N.pow_add_r.
      replace (k + k * N.of_nat n) with (k * N.of_nat (S n)) by lia. exact L.
    + rewrite E. exists (t ++ [48 + val a mod 2 ^ k]). split; [now rewrite <- app_assoc|]. right. split; [lia|].
      rewrite val_of in C. assert (V : val a = 2 ^ k * (val a / 2 ^ k) + val a mod 2 ^ k) by (apply N.div_mod; auto).
      assert (DD : digit_of (2 ^ k) (48 + val a mod 2 ^ k) (val a mod 2 ^ k)) by (split; [apply N.mod_lt; auto|reflexivity]).
      destruct C as [[Z ->]|(NZ & NU & HD)].
      * cbn [app]. rewrite Z, N.mul_0_r, N.add_0_l in V. split; [rewrite V at 2; apply numeral_one; auto|]. cbn [hd]. lia.
      * split; [rewrite V at 2; apply numeral_snoc; auto|]. pose proof (numeral_nonempty _ _ _ _ NU). destruct t; [congruence|exact HD].
  - exists []. split; [reflexivity|]. left. split; [lia|reflexivity].
Qed.
Lemma radix_text_ok : forall k n a, 1 <= k -> k <= 3 -> 256 <= k * N.of_nat n -> wf a ->
  exists t, (if is_zero a then Ret [48] else bits_loop k n a []) = Ret t /\
    numeral (digit_of (2 ^ k)) (2 ^ k) t (val a) /\ (val a = 0 -> t = [48]) /\ (val a <> 0 -> hd 0 t <> 48).
Proof.
  intros k n a K1 K3 KN W. rewrite is_zero_val by auto. destruct (N.eqb_spec (val a) 0) as [-> | NZ].
  - exists [48]. split; [reflexivity|]. split; [|split; [auto|congruence]].
    apply numeral_one. split; [pose proof (pow2_nz k); lia|reflexivity].
  - destruct (bits_loop_ok k n a [] K1 K3 W) as (t & E & C).
    + apply N.lt_le_trans with W256; [now apply val_lt|]. rewrite W256_pow. apply N.pow_le_mono_r; lia.
    + exists t. rewrite app_nil_r in E. split; auto. destruct C as [[Z _]|(_ & A & B)]; [congruence|]. split; auto. split; [congruence|auto].
Qed.

(** decimal parsing *)
Lemma wf_p38 : wf (u_from POW10_38). Proof. split; reflexivity. Qed.
Lemma val_p38 : val (u_from POW10_38) = 10 ^ 38. Proof. reflexivity. Qed.
Lemma add_flag : forall X m, m < W256 -> (W256 <=? X) || (W256 <=? X mod W256 + m) = (W256 <=? X + m).
Proof.
  intros X m M. destruct (N.leb_spec W256 X); cbn [orb]; [symmetry; apply N.leb_le; lia|]. now rewrite N.mod_small.
Qed.
Lemma parse_step : forall c cs v, v < W256 ->
  parse_chunks (c :: cs) (of_val v) =
  match from_str_radix false 0 (W128 - 1) 10 c with
  | Err _ => Ret (Err UInvalid)
  | Ok m => if v * 10 ^ 38 + Z.to_N m <? W256 then parse_chunks cs (of_val (v * 10 ^ 38 + Z.to_N m)) else Ret (Err UOverflow)
  end.
Proof.
  intros c cs v V. cbn [parse_chunks]. destruct (from_str_radix false 0 (W128 - 1) 10 c) as [m|] eqn:E; [|reflexivity].
  apply (radix_ok 10 digit10) in E as [_ R]; [|exact good10].
  assert (M : Z.to_N m < W128) by (pose proof W128_nz; lia).
  rewrite mul_val by auto using wf_of, wf_p38. cbn [rbind]. rewrite val_p38, val_of, from_of by auto.
  assert (M2 : Z.to_N m < W256) by (apply N.lt_le_trans with W128; auto; unfold W256; pose proof W128_nz; nia).
  rewrite add_val by (try apply wf_of; auto; apply mod_lt256). rewrite !val_of.
  rewrite add_flag by auto. rewrite N.add_mod_idemp_l by apply W256_nz.
  rewrite N.leb_antisym. destruct (N.ltb_spec (v * 10 ^ 38 + Z.to_N m) W256); cbn [negb]; [|reflexivity].
  now rewrite N.mod_small.
Qed.
Lemma chunk_value : forall c ds, Forall2 digit10 c ds -> c <> [] -> (length c <= 38)%nat ->
  from_str_radix false 0 (W128 - 1) 10 c = Ok (Z.of_N (digits_val 10 0 ds)).
Proof.
  intros c ds F NE L. apply (radix_ok 10 digit10); [exact good10|].
  assert (NU : numeral digit10 10 c (digits_val 10 0 ds)) by (apply numeral_digits; split; eauto).
  split; [now apply it_plain|]. pose proof (numeral_bound _ _ _ _ digit10_lt NU) as B.
  assert (10 ^ lenN c <= 10 ^ 38) by (apply N.pow_le_mono_r; unfold lenN; lia).
  assert (10 ^ 38 < W128) by reflexivity. lia.
Qed.
Lemma parse_full : forall cs ds v, Forall (fun c => length c = 38%nat) cs -> Forall2 digit10 (concat cs) ds -> v < W256 ->
  parse_chunks cs (of_val v) = Ret (if digits_val 10 v ds <? W256 then Ok (of_val (digits_val 10 v ds)) else Err UOverflow).
Proof.
  induction cs as [|c cs IH]; intros ds v F D V.
  - cbn [concat] in D. inv D. cbn [parse_chunks digits_val fold_left]. now rewrite (proj2 (N.ltb_lt _ _) V).
  - inv F. cbn [concat] in D. apply Forall2_app_inv_l in D as (d1 & d2 & D1 & D2 & ->).
    rewrite parse_step by auto. assert (NE : c <> []) by (intros ->; discriminate). rewrite (chunk_value c d1) by (auto; lia). rewrite N2Z.id.
    rewrite digits_val_app. rewrite (digits_val_acc 10 d1 v). rewrite <- (Forall2_lenN _ _ _ _ _ D1).
    assert (LC : lenN c = 38) by (unfold lenN; rewrite H1; reflexivity). rewrite LC.
    set (w := v * 10 ^ 38 + digits_val 10 0 d1). destruct (N.ltb_spec w W256) as [L|L].
    + now apply IH.
    + pose proof (digits_val_mono 10 d2 w ltac:(lia)). destruct (N.ltb_spec (digits_val 10 w d2) W256); [lia|reflexivity].
Qed.
Lemma chunks_ok : forall f s, (length s <= f)%nat -> (length s mod 38 = 0)%nat ->
  Forall (fun c => length c = 38%nat) (chunks f s) /\ concat (chunks f s) = s.
Proof.
  induction f as [|f IH]; intros s L M.
  - destruct s; [|cbn in L; lia]. cbn. split; auto.
  - destruct s as [|x s]; [cbn; split; auto|]. cbn [chunks]. set (t := x :: s) in *.
    assert (38 <= length t)%nat.
    { destruct (le_lt_dec 38 (length t)); auto. exfalso. rewrite Nat.mod_small in M by auto. discriminate. }
    destruct (IH (skipn 38 t)) as [A B].
    + rewrite skipn_length. unfold t in *. cbn [length] in *. lia.
    + rewrite skipn_length. replace (length t) with (length t - 38 + 1 * 38)%nat in M by lia. now rewrite Nat.mod_add in M by lia.
    + split; [constructor; auto; rewrite firstn_length; lia|]. cbn [concat]. rewrite B. apply firstn_skipn.
Qed.
Lemma rchunks_ok : forall s, s <> [] -> exists c cs, rchunks_rev s = c :: cs /\ c <> [] /\ (length c <= 38)%nat /\
  Forall (fun c => length c = 38%nat) cs /\ concat (c :: cs) = s.
Proof.
  intros s NE. unfold rchunks_rev. pose proof (Nat.mod_upper_bound (length s) 38 ltac:(lia)) as UB. pose proof (Nat.div_mod (length s) 38 ltac:(lia)) as DM.
  destruct (length s mod 38)%nat as [|r] eqn:R.
  - destruct (chunks_ok (length s) s) as [A B]; auto. destruct (chunks (length s) s) as [|c cs] eqn:C; [cbn in B; congruence|].
    inv A. exists c, cs. split; auto. split; [intros ->; discriminate|]. split; [lia|]. split; auto.
  - destruct (chunks_ok (length s) (skipn (S r) s)) as [A B].
    + rewrite skipn_length. lia.
    + rewrite skipn_length. rewrite DM. replace (38 * (length s / 38) + S r - S r)%nat with ((length s / 38) * 38)%nat by lia. apply Nat.mod_mul. lia.
    + eexists _, _. split; [reflexivity|]. assert (LF : length (firstn (S r) s) = S r) by (rewrite firstn_length; lia).
      split; [intro X; rewrite X in LF; discriminate|]. split; [lia|]. split; auto. cbn [concat]. rewrite B. apply firstn_skipn.
Qed.
Lemma from_str_digits : forall s n, numeral digit10 10 s n ->
  u_from_str s = Ret (if n <? W256 then Ok (of_val n) else Err UOverflow).
Proof.
  intros s n NU. pose proof (numeral_nonempty _ _ _ _ NU) as NE. unfold u_from_str. destruct s as [|x s0] eqn:ES; [congruence|]. rewrite <- ES in *.
  destruct (rchunks_ok s NE) as (c & cs & -> & CN & CL & F & CC). apply numeral_digits in NU as (_ & ds & D & ->).
  rewrite <- CC in D. cbn [concat] in D. apply Forall2_app_inv_l in D as (d1 & d2 & D1 & D2 & ->).
  rewrite zero_of, parse_step by reflexivity. rewrite (chunk_value c d1) by auto. rewrite N2Z.id, N.mul_0_l, N.add_0_l.
  pose proof (chunk_value c d1 D1 CN CL) as CV. apply (radix_ok 10 digit10) in CV as [_ R]; [|exact good10].
  rewrite digits_val_app. assert (L : digits_val 10 0 d1 < W256).
  { apply N.lt_le_trans with W128; [pose proof W128_nz; lia|unfold W256; pose proof W128_nz; nia]. }
  rewrite (proj2 (N.ltb_lt _ _) L). now apply parse_full.
Qed.
Lemma parse_ok_chunks : forall cs v u, v < W256 -> parse_chunks cs (of_val v) = Ret (Ok u) ->
  Forall (fun c => exists z, from_str_radix false 0 (W128 - 1) 10 c = Ok z) cs.
Proof.
  induction cs as [|c cs IH]; intros v u V H; [constructor|]. rewrite parse_step in H by auto.
  destruct (from_str_radix false 0 (W128 - 1) 10 c) as [m|] eqn:E; [|discriminate].
  destruct (N.ltb_spec (v * 10 ^ 38 + Z.to_N m) W256); [|discriminate]. constructor; eauto.
Qed.
Lemma parse_total : forall cs v, v < W256 -> exists r, parse_chunks cs (of_val v) = Ret r /\ (forall u, r = Ok u -> wf u).
Proof.
  induction cs as [|c cs IH]; intros v V; [eexists; split; [reflexivity|]; intros u E; inv E; now apply wf_of|]. rewrite parse_step by auto.
  destruct (from_str_radix false 0 (W128 - 1) 10 c) as [m|] eqn:E; [|eexists; split; [reflexivity|discriminate]].
  destruct (N.ltb_spec (v * 10 ^ 38 + Z.to_N m) W256); [auto|eexists; split; [reflexivity|discriminate]].
Qed.
Lemma from_str_total : forall s, exists r, u_from_str s = Ret r /\ (forall u, r = Ok u -> wf u).
Proof.
  intro s. unfold u_from_str. destruct s; [eexists; split; [reflexivity|discriminate]|]. rewrite zero_of. apply parse_total. reflexivity.
Qed.
Lemma digits_concat : forall cs, Forall (fun c : str => exists ds, Forall2 digit10 c ds) cs -> exists ds, Forall2 digit10 (concat cs) ds.
Proof.
  induction 1 as [|c cs [ds H] _ [d2 IH]]; [exists []; constructor|]. exists (ds ++ d2). cbn [concat]. now apply Forall2_app.
Qed.
Lemma from_str_noplus : forall s u, ~ In 43 s -> (u_from_str s = Ret (Ok u) <-> wf u /\ numeral digit10 10 s (val u)).
Proof.
  intros s u NP. split.
  - intro H. destruct (from_str_total s) as (r & E & WF). assert (wf u) as WU by (apply WF; congruence). split; auto.
    pose proof H as HH. unfold u_from_str in HH. destruct s as [|x s0] eqn:ES; [discriminate|]. rewrite <- ES in *.
    assert (NE : s <> []) by congruence. destruct (rchunks_ok s NE) as (c & cs & R & CN & CL & F & CC). rewrite R in HH.
    rewrite zero_of in HH. apply parse_ok_chunks in HH; [|reflexivity].
    assert (exists ds, Forall2 digit10 s ds) as (ds & D).
    { rewrite <- CC. apply digits_concat. apply Forall_forall. intros t I. rewrite Forall_forall in HH. destruct (HH t I) as (z & Z).
      apply (radix_ok 10 digit10) in Z as [T _]; [|exact good10]. apply int_text_noplus in T as (n & _ & NU).
      - apply numeral_digits in NU as (_ & ds & D & _). eauto.
      - intro X. apply NP. rewrite <- CC. apply in_concat. eauto. }
    assert (NU : numeral digit10 10 s (digits_val 10 0 ds)) by (apply numeral_digits; split; eauto).
    pose proof (from_str_digits s _ NU) as Q. rewrite H in Q. destruct (digits_val 10 0 ds <? W256) eqn:L; [|discriminate].
    assert (u = of_val (digits_val 10 0 ds)) as -> by congruence. now rewrite val_of.
  - intros (W & NU). rewrite (from_str_digits s _ NU). pose proof (val_lt u W) as L. rewrite (proj2 (N.ltb_lt _ _) L). now rewrite of_val_val.
Qed.
