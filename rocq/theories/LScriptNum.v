(** Script numbers. *)
From Verif Require Import Base MDec MWitness MAmount MTx MTxSize MScript SScript LScript.
Local Open Scope N_scope.

Lemma le_val_snoc : forall w x, le_val (w ++ [x]) = le_val w + 256 ^ lenN w * x.
Proof.
  induction w; intros x.
  - cbn [app le_val]. rewrite lenN_nil, N.pow_0_r. lia.
  - cbn [app le_val]. rewrite IHw, lenN_cons, N.add_1_l, N.pow_succ_r'. ring.
Qed.

Definition sgn (x : N) (z : N) : Z := if x <? 128 then Z.of_N z else (- Z.of_N z)%Z.
Lemma num_val_snoc : forall w x, bytes_ok w -> x < 256 ->
  num_val (w ++ [x]) = sgn x (le_val w + 256 ^ lenN w * (x mod 128)).
Proof.
  intros w x Hw Hx. unfold num_val. destruct (w ++ [x]) eqn:E; [destruct w; discriminate|]. rewrite <- E. clear E.
  rewrite le_val_snoc, lenN_app. change (lenN [x]) with 1. cbn zeta.
  replace (2 ^ (8 * (lenN w + 1) - 1)) with (256 ^ lenN w * 128).
  2:{ replace (8 * (lenN w + 1) - 1) with (8 * lenN w + 7) by lia. rewrite N.pow_add_r, N.pow_mul_r. reflexivity. }
  pose proof (le_val_lt w Hw) as L. set (p := 256 ^ lenN w) in *. unfold sgn.
  destruct (N.ltb_spec x 128).
  - rewrite N.mod_small by lia. destruct (N.ltb_spec (le_val w + p * x) (p * 128)); [reflexivity|].
    nia.
  - assert (x mod 128 = x - 128) as ->.
    { replace x with (x - 128 + 1 * 128) at 1 by lia. rewrite N.mod_add by lia. apply N.mod_small. lia. }
    destruct (N.ltb_spec (le_val w + p * x) (p * 128)); [nia|]. f_equal. f_equal.
    rewrite N.mul_sub_distr_l. assert (p * 128 <= p * x) by (apply N.mul_le_mono_l; lia). lia.
Qed.

Lemma pow256_pos : forall n, 0 < 256 ^ n.
Proof. intros. apply N.neq_0_lt_0. apply N.pow_nonzero. lia. Qed.

Lemma snoc_cases : forall (b : bytes), b = [] \/ exists w x, b = w ++ [x].
Proof. intros b. destruct (rev b) as [|x w] eqn:E.
  - left. apply (f_equal (@rev N)) in E. rewrite rev_involutive in E. exact E.
  - right. exists (rev w), x. apply (f_equal (@rev N)) in E. rewrite rev_involutive in E. exact E.
Qed.
Lemma bytes_ok_snoc : forall w x, bytes_ok (w ++ [x]) -> bytes_ok w /\ x < 256.
Proof. intros w x H. apply bytes_ok_app in H. destruct H as [H1 H2]. inv H2. auto. Qed.

(** magnitude bound by length *)
Lemma num_val_bound : forall b, bytes_ok b -> b <> [] ->
  (Z.abs (num_val b) < 2 ^ (8 * Z.of_nat (length b) - 1))%Z.
Proof.
  intros b Hb Hne. destruct (snoc_cases b) as [->|(w & x & ->)]; [congruence|].
  apply bytes_ok_snoc in Hb. destruct Hb as [Hw Hx]. rewrite num_val_snoc by auto.
  pose proof (le_val_lt w Hw). pose proof (pow256_pos (lenN w)).
  assert (x mod 128 < 128) by (apply N.mod_lt; lia).
  assert (B : le_val w + 256 ^ lenN w * (x mod 128) < 256 ^ lenN w * 128) by nia.
  replace (2 ^ (8 * Z.of_nat (length (w ++ [x])) - 1))%Z with (Z.of_N (256 ^ lenN w * 128)).
  - unfold sgn. destruct (x <? 128); lia.
  - rewrite N2Z.inj_mul, N2Z.inj_pow. rewrite app_length. cbn [length].
    replace (8 * Z.of_nat (length w + 1) - 1)%Z with (8 * Z.of_N (lenN w) + 7)%Z by (unfold lenN; lia).
    rewrite Z.pow_add_r by lia. rewrite Z.pow_mul_r by lia. reflexivity.
Qed.

Lemma num_minimal_intro : forall b, bytes_ok b ->
  (b = [] \/ (length b = 1%nat /\ num_val b <> 0%Z) \/
   (exists k, length b = S (S k) /\ (2 ^ (8 * Z.of_nat (S k) - 1) <= Z.abs (num_val b))%Z)) ->
  num_minimal b.
Proof.
  intros b Hb H b' Hb' E. destruct H as [->|[[L V]|(k & L & V)]].
  - cbn [length]. lia.
  - destruct b'; [|cbn [length]; lia]. cbn [num_val] in E. congruence.
  - assert (P : (0 < 2 ^ (8 * Z.of_nat (S k) - 1))%Z) by (apply Z.pow_pos_nonneg; lia).
    destruct b' as [|x r] eqn:Eb; [cbn [num_val] in E; lia|].
    rewrite <- Eb in *. pose proof (num_val_bound b' Hb' ltac:(subst; discriminate)) as B. rewrite E in B.
    assert (2 ^ (8 * Z.of_nat (S k) - 1) < 2 ^ (8 * Z.of_nat (length b') - 1))%Z as Q by lia.
    assert (1 <= length b')%nat by (subst; cbn [length]; lia).
    apply Z.pow_lt_mono_r_iff in Q; lia.
Qed.

Definition code_min (b : bytes) : bool :=
  match rev b with
  | [] => true
  | lst :: _ => negb ((N.land lst 127 =? 0)
           && ((lenN b <=? 1) || (N.land (nth (N.to_nat (lenN b - 2)) b 0) 128 =? 0)))
  end.

Lemma land127 : forall x, N.land x 127 = x mod 128.
Proof. intro x. change 127 with (N.ones 7). rewrite N.land_ones. reflexivity. Qed.
Lemma land128_small : forall x, x < 256 -> (N.land x 128 =? 0) = (x <? 128).
Proof.
  intros x H. revert x H.
  assert (A : forall x, x < 256 -> Bool.eqb (N.land x 128 =? 0) (x <? 128) = true).
  { apply byte_cases. vm_compute. reflexivity. }
  intros x H. apply eqb_prop. apply A. exact H.
Qed.

Lemma nth_prev : forall (w : bytes) p x, nth (N.to_nat (lenN ((w ++ [p]) ++ [x]) - 2)) ((w ++ [p]) ++ [x]) 0 = p.
Proof.
  intros. rewrite !lenN_app. change (lenN [p]) with 1. change (lenN [x]) with 1.
  replace (N.to_nat (lenN w + 1 + 1 - 2)) with (length w) by (unfold lenN; lia).
  rewrite <- app_assoc. rewrite app_nth2 by lia. rewrite Nat.sub_diag. reflexivity.
Qed.

Lemma code_min_ok : forall b, bytes_ok b -> (code_min b = true <-> num_minimal b).
Proof.
  intros b Hb. destruct (snoc_cases b) as [->|(v & x & ->)].
  { split; [|reflexivity]. intros _. apply num_minimal_intro; [constructor|auto]. }
  apply bytes_ok_snoc in Hb. destruct Hb as [Hv Hx].
  unfold code_min. rewrite rev_unit, land127.
  assert (Hok : bytes_ok (v ++ [x])) by (apply bytes_ok_app; split; [auto|repeat constructor; auto]).
  pose proof (num_val_snoc v x Hv Hx) as Ev.
  assert (Hab : Z.abs (num_val (v ++ [x])) = Z.of_N (le_val v + 256 ^ lenN v * (x mod 128))).
  { rewrite Ev. unfold sgn. destruct (x <? 128); lia. }
  destruct (snoc_cases v) as [->|(w & p & ->)].
  - change (lenN ([] ++ [x]) <=? 1) with true. cbn [orb]. rewrite andb_true_r.
    cbn [app] in *. split.
    + intro H. apply negb_true_iff, N.eqb_neq in H. apply num_minimal_intro; [auto|]. right. left.
      split; [reflexivity|]. change (256 ^ lenN []) with 1 in Hab. cbn [le_val] in Hab. lia.
    + intro H. apply negb_true_iff, N.eqb_neq. intro E.
      rewrite E in Hab. change (256 ^ lenN []) with 1 in Hab. cbn [le_val] in Hab.
      specialize (H [] ltac:(constructor)). cbn [num_val] in H. cbn [length] in H.
      assert (0 = num_val [x])%Z by lia. specialize (H H0). lia.
  - apply bytes_ok_snoc in Hv. destruct Hv as [Hw Hp]. rewrite nth_prev, (land128_small p) by auto.
    assert (L1 : (lenN ((w ++ [p]) ++ [x]) <=? 1) = false).
    { rewrite !lenN_app. change (lenN [p]) with 1. change (lenN [x]) with 1. apply N.leb_gt. lia. }
    rewrite L1. cbn [orb]. rewrite le_val_snoc, lenN_app in Hab. change (lenN [p]) with 1 in Hab.
    rewrite N.add_1_r, N.pow_succ_r' in Hab. pose proof (pow256_pos (lenN w)) as Pw.
    split.
    + intro H. apply num_minimal_intro; [auto|]. right. right. exists (length w). split; [rewrite !app_length; cbn [length]; lia|].
      rewrite Hab. replace (2 ^ (8 * Z.of_nat (S (length w)) - 1))%Z with (Z.of_N (256 ^ lenN w * 128)).
      2:{ rewrite N2Z.inj_mul, N2Z.inj_pow.
          replace (8 * Z.of_nat (S (length w)) - 1)%Z with (8 * Z.of_N (lenN w) + 7)%Z by (unfold lenN; lia).
          rewrite Z.pow_add_r by lia. rewrite Z.pow_mul_r by lia. reflexivity. }
      apply N2Z.inj_le. apply negb_true_iff, andb_false_iff in H. destruct H as [H|H].
      * apply N.eqb_neq in H. nia.
      * apply N.ltb_ge in H. nia.
    + intro H. destruct ((x mod 128 =? 0) && (p <? 128)) eqn:T; [exfalso|reflexivity]. eqbs.
      assert (Hx2 : x = 0 \/ x = 128) by lia.
      specialize (H (w ++ [p + x])).
      assert (Hokb : bytes_ok (w ++ [p + x])) by (apply bytes_ok_app; split; [auto|repeat constructor; unfold byte_ok; lia]).
      assert (Eq : num_val (w ++ [p + x]) = num_val ((w ++ [p]) ++ [x])).
      { rewrite Ev, (num_val_snoc w (p + x)) by (auto; lia). rewrite le_val_snoc, lenN_app.
        change (lenN [p]) with 1. rewrite N.add_1_r, N.pow_succ_r'.
        destruct Hx2 as [-> | ->]; unfold sgn.
        - rewrite N.add_0_r. destruct (N.ltb_spec p 128); [|lia]. rewrite (N.mod_small p) by lia.
          change (0 mod 128) with 0. change (0 <? 128) with true. cbv iota. f_equal. lia.
        - destruct (N.ltb_spec (p + 128) 128); [lia|]. change (128 <? 128) with false. change (128 mod 128) with 0. cbv iota.
          replace ((p + 128) mod 128) with p; [f_equal; f_equal; lia|].
          replace (p + 128) with (p + 1 * 128) by lia. rewrite N.mod_add by lia. symmetry. apply N.mod_small. lia. }
      specialize (H Hokb Eq). rewrite !app_length in H. cbn [length] in H. lia.
Qed.

Lemma le_val_inj : forall a b, bytes_ok a -> bytes_ok b -> length a = length b -> le_val a = le_val b -> a = b.
Proof. intros a b Ha Hb L E. rewrite <- (le_bytes_val a), <- (le_bytes_val b) by auto. rewrite L, E. reflexivity. Qed.

Lemma num_minimal_inj : forall a b, bytes_ok a -> bytes_ok b -> num_minimal a -> num_minimal b ->
  num_val a = num_val b -> a = b.
Proof.
  intros a b Ha Hb Ma Mb E.
  assert (L : length a = length b).
  { pose proof (Ma b Hb (eq_sym E)). pose proof (Mb a Ha E). lia. }
  destruct (snoc_cases a) as [->|(v & x & ->)]; [destruct b; [reflexivity|discriminate]|].
  destruct (snoc_cases b) as [->|(w & y & ->)]; [destruct v; discriminate|].
  assert (Z0 : num_val (v ++ [x]) <> 0%Z).
  { intro Q. pose proof (Ma [] ltac:(constructor) (eq_sym Q)) as R. rewrite app_length in R. cbn [length] in R. lia. }
  apply bytes_ok_snoc in Ha. apply bytes_ok_snoc in Hb. destruct Ha as [Hv Hx], Hb as [Hw Hy].
  rewrite !app_length in L. cbn [length] in L. assert (Lvw : length v = length w) by lia.
  rewrite !num_val_snoc in * by auto.
  assert (Ll : lenN v = lenN w) by (unfold lenN; congruence).
  pose proof (le_val_lt v Hv) as B1. pose proof (le_val_lt w Hw) as B2. pose proof (pow256_pos (lenN w)) as Pw.
  rewrite Ll in *. set (P := 256 ^ lenN w) in *. unfold sgn in *.
  assert (Q : (x <? 128) = (y <? 128) /\ le_val v + P * (x mod 128) = le_val w + P * (y mod 128)).
  { destruct (x <? 128), (y <? 128); split; auto; lia. }
  destruct Q as [Q1 Q2].
  assert (M : x mod 128 = y mod 128 /\ le_val v = le_val w).
  { apply (f_equal (fun z => z / P)) in Q2 as D.
    rewrite !(N.add_comm (le_val _)), !(N.mul_comm P) in D.
    rewrite !N.div_add_l, !(N.div_small _ P) in D by lia. split; [lia|]. nia. }
  destruct M as [M1 M2]. f_equal; [apply le_val_inj; auto|]. f_equal.
  destruct (N.ltb_spec x 128), (N.ltb_spec y 128); try discriminate; lia.
Qed.

(** ** The reader *)
Lemma fold_parse : forall v acc sh, (0 <= sh)%Z ->
  fold_left (fun '(acc, sh) n => (acc + Z.shiftl (Z.of_N n) sh, sh + 8)%Z) v (acc, sh)
  = (acc + Z.of_N (le_val v) * 2 ^ sh, sh + 8 * Z.of_nat (length v))%Z.
Proof.
  induction v; intros acc sh H.
  - cbn [fold_left le_val length]. f_equal; lia.
  - cbn [fold_left le_val length]. rewrite IHv by lia. rewrite Z.shiftl_mul_pow2 by lia.
    rewrite Z.pow_add_r by lia. f_equal; [|lia].
    rewrite N2Z.inj_add, N2Z.inj_mul. change (2 ^ 8)%Z with 256%Z. change (Z.of_N 256) with 256%Z. ring.
Qed.

Lemma parse_val : forall v, bytes_ok v -> v <> [] -> scriptint_parse v = num_val v.
Proof.
  intros v Hv Hne. destruct (snoc_cases v) as [->|(w & x & ->)]; [congruence|].
  unfold scriptint_parse. rewrite fold_parse by lia. rewrite Z.add_0_l, Z.mul_1_r, Z.add_0_l.
  rewrite last_last. pose proof (bytes_ok_snoc _ _ Hv) as [Hw Hx]. rewrite land128_small by auto.
  rewrite num_val_snoc by auto. unfold sgn. rewrite le_val_snoc.
  destruct (N.ltb_spec x 128); cbn [negb].
  - rewrite N.mod_small by lia. reflexivity.
  - f_equal. rewrite app_length. cbn [length]. rewrite Z.shiftl_1_l.
    pose proof (le_val_lt w Hw) as B. pose proof (pow256_pos (lenN w)) as Pw.
    replace (8 * Z.of_nat (length w + 1) - 1)%Z with (8 * Z.of_nat (length w) + 7)%Z by lia.
    replace (2 ^ (8 * Z.of_nat (length w) + 7) - 1)%Z with (Z.ones (8 * Z.of_nat (length w) + 7))
      by (rewrite Z.ones_equiv; lia).
    rewrite Z.land_ones by lia.
    replace (2 ^ (8 * Z.of_nat (length w) + 7))%Z with (Z.of_N (256 ^ lenN w * 128)).
    2:{ rewrite N2Z.inj_mul, N2Z.inj_pow.
        replace (8 * Z.of_nat (length w) + 7)%Z with (8 * Z.of_N (lenN w) + 7)%Z by (unfold lenN; lia).
        rewrite Z.pow_add_r by lia. rewrite Z.pow_mul_r by lia. reflexivity. }
    rewrite <- N2Z.inj_mod. f_equal. set (P := 256 ^ lenN w) in *.
    assert (x mod 128 = x - 128) as ->.
    { replace x with (x - 128 + 1 * 128) at 1 by lia. rewrite N.mod_add by lia. apply N.mod_small. lia. }
    assert (Hs : le_val w + P * x = (le_val w + P * (x - 128)) + 1 * (P * 128)).
    { assert (P * (x - 128) + P * 128 = P * x) by (rewrite <- N.mul_add_distr_l; f_equal; lia). lia. }
    rewrite Hs, N.mod_add by lia. apply N.mod_small.
    assert (P * (x - 128) <= P * 127) by (apply N.mul_le_mono_l; lia). lia.
Qed.

(** What a reader of at most [mx] bytes answers. *)
Lemma read_internal_spec : forall v mx, bytes_ok v ->
  (lenN v <= mx -> num_minimal v -> read_scriptint_internal v mx = Ok (num_val v)) /\
  (lenN v <= mx -> ~ num_minimal v -> read_scriptint_internal v mx = Err IntNonMinimal) /\
  (mx < lenN v -> read_scriptint_internal v mx = Err IntOverflow).
Proof.
  intros v mx Hv. pose proof (code_min_ok v Hv) as C. unfold code_min in C. unfold read_scriptint_internal.
  destruct (snoc_cases v) as [->|(w & x & E)].
  - cbn [rev]. split; [reflexivity|]. split; [|rewrite lenN_nil; lia].
    intros _ N. exfalso. apply N. apply C. reflexivity.
  - assert (Hr : rev v = x :: rev w) by (subst; apply rev_unit). rewrite Hr in *.
    rewrite parse_val by (auto; subst; destruct w; discriminate).
    destruct (N.ltb_spec mx (lenN v)).
    + split; [lia|]. split; [lia|]. reflexivity.
    + split; [|split; [|lia]]; intros _ M.
      * apply C in M. apply negb_true_iff in M. rewrite M. reflexivity.
      * match goal with |- (if ?c then _ else _) = _ => destruct c eqn:T end; [reflexivity|].
        exfalso. apply M, C. reflexivity.
Qed.

Lemma num_bound4 : forall v, bytes_ok v -> lenN v <= 4 -> to_i32 (num_val v) = Ret (num_val v).
Proof.
  intros v Hv L. unfold to_i32. assert (Z.abs (num_val v) < 2 ^ 31)%Z.
  { destruct v as [|a t] eqn:E; [cbn [num_val]; lia|]. rewrite <- E in *.
    pose proof (num_val_bound v Hv ltac:(subst; discriminate)) as B.
    assert (2 ^ (8 * Z.of_nat (length v) - 1) <= 2 ^ 31)%Z by (apply Z.pow_le_mono_r; unfold lenN in L; lia). lia. }
  destruct (Z.leb_spec (-2147483648) (num_val v)); [|lia].
  destruct (Z.leb_spec (num_val v) 2147483647); [|lia]. reflexivity.
Qed.

Lemma read_scriptint_spec : forall v, bytes_ok v ->
  (lenN v <= 4 -> num_minimal v -> read_scriptint v = Ret (Ok (num_val v))) /\
  (lenN v <= 4 -> ~ num_minimal v -> read_scriptint v = Ret (Err IntNonMinimal)) /\
  (4 < lenN v -> read_scriptint v = Ret (Err IntOverflow)).
Proof.
  intros v Hv. destruct (read_internal_spec v 4 Hv) as (A & B & C). unfold read_scriptint.
  split; [|split]; intros; [rewrite A|rewrite B|rewrite C]; auto. rewrite num_bound4 by auto. reflexivity.
Qed.

Lemma read_non_minimal_spec : forall v, bytes_ok v ->
  read_scriptint_non_minimal v = Ret (if lenN v <=? 4 then Ok (num_val v) else Err IntOverflow).
Proof.
  intros v Hv. unfold read_scriptint_non_minimal. destruct v as [|a t] eqn:E; [reflexivity|]. rewrite <- E in *.
  destruct (N.ltb_spec 4 (lenN v)), (N.leb_spec (lenN v) 4); try lia; [reflexivity|].
  rewrite parse_val by (auto; subst; discriminate). rewrite num_bound4 by auto. reflexivity.
Qed.

Lemma forallb_zero_le : forall w, bytes_ok w -> (forallb (N.eqb 0) w = true <-> le_val w = 0).
Proof.
  induction w as [|a w IH]; intros H; [split; reflexivity|]. inv H. cbn [forallb le_val].
  rewrite andb_true_iff, IH by auto. rewrite N.eqb_eq. lia.
Qed.
Lemma forallb_rev : forall {A} (f : A -> bool) l, forallb f (rev l) = forallb f l.
Proof.
  intros. induction l; [reflexivity|]. cbn [rev forallb]. rewrite forallb_app, IHl. cbn [forallb].
  rewrite andb_true_r. apply andb_comm.
Qed.
Lemma scriptbool_spec : forall v, bytes_ok v -> read_scriptbool v = negb (num_val v =? 0)%Z.
Proof.
  intros v Hv. unfold read_scriptbool. destruct (snoc_cases v) as [->|(w & x & ->)]; [reflexivity|].
  rewrite rev_unit, land127, forallb_rev. apply bytes_ok_snoc in Hv. destruct Hv as [Hw Hx].
  rewrite num_val_snoc by auto. f_equal. pose proof (forallb_zero_le w Hw) as F. pose proof (pow256_pos (lenN w)).
  apply eq_true_iff_eq. rewrite andb_true_iff, F, N.eqb_eq, Z.eqb_eq. unfold sgn.
  split.
  - intros [-> ->]. rewrite N.mul_0_r. destruct (x <? 128); reflexivity.
  - intro Q. assert (le_val w + 256 ^ lenN w * (x mod 128) = 0) by (destruct (x <? 128); lia). nia.
Qed.

(** ** The writer *)
Lemma out_put_ok : forall pre rest v, lenN pre + lenN rest = 8 -> rest <> [] ->
  out_put (pre ++ rest) (lenN pre) v = Ret ((pre ++ [v]) ++ tl rest, lenN (pre ++ [v])).
Proof.
  intros pre rest v H N. destruct rest as [|r rest]; [congruence|]. unfold out_put.
  rewrite lenN_cons in H. destruct (N.ltb_spec (lenN pre) 8); [|lia].
  replace (N.to_nat (lenN pre)) with (length pre) by (unfold lenN; lia).
  rewrite firstn_app_exact by reflexivity. replace (skipn (length pre + 1) (pre ++ r :: rest)) with rest.
  - rewrite lenN_app. cbn [tl app]. rewrite <- app_assoc. reflexivity.
  - change (r :: rest) with ([r] ++ rest). rewrite app_assoc.
    replace (length pre + 1)%nat with (length (pre ++ [r])) by (rewrite app_length; reflexivity).
    symmetry. apply skipn_app_exact. reflexivity.
Qed.

Lemma land255 : forall x, N.land x 255 = x mod 256.
Proof. intro x. change 255 with (N.ones 8). rewrite N.land_ones. reflexivity. Qed.

Lemma write_loop_ok : forall fuel pre rest a a0,
  lenN pre + lenN rest = 8 -> bytes_ok pre -> bytes_ok rest ->
  le_val pre + 256 ^ lenN pre * a = a0 -> 0 < a -> a0 < 2 ^ 64 -> (8 <= fuel + length pre)%nat ->
  exists pre' rest' a', write_loop fuel (pre ++ rest) (lenN pre) a = Ret (pre' ++ rest', lenN pre', a') /\
    lenN pre' + lenN rest' = 8 /\ bytes_ok pre' /\ bytes_ok rest' /\ rest' <> [] /\
    le_val pre' + 256 ^ lenN pre' * a' = a0 /\ 0 < a' <= 255.
Proof.
  induction fuel as [|f IH]; intros pre rest a a0 HL Hp Hr HE Ha H0 HF.
  - exfalso. assert (lenN pre = 8) by (unfold lenN in *; lia). rewrite H in HE.
    change (256 ^ 8) with (2 ^ 64) in HE. lia.
  - assert (Hne : rest <> []).
    { intros ->. rewrite lenN_nil in HL. assert (lenN pre = 8) by lia. rewrite H in HE.
      change (256 ^ 8) with (2 ^ 64) in HE. lia. }
    cbn [write_loop]. destruct (N.ltb_spec 255 a).
    + rewrite out_put_ok by auto. cbn [rbind]. rewrite land255, N.shiftr_div_pow2.
      destruct rest as [|r rest]; [congruence|]. cbn [tl]. inv Hr.
      apply IH; auto.
      * rewrite lenN_cons in HL. rewrite lenN_app, lenN_cons, lenN_nil. lia.
      * apply bytes_ok_app. split; [auto|]. repeat constructor. unfold byte_ok. apply N.mod_lt. lia.
      * rewrite le_val_snoc, lenN_app. change (lenN [a mod 256]) with 1. rewrite N.add_1_r, N.pow_succ_r'.
        change (2 ^ 8) with 256. rewrite (N.div_mod a 256) at 3 by lia. ring.
      * change (2 ^ 8) with 256. apply N.div_str_pos. lia.
      * rewrite app_length. cbn [length]. lia.
    + exists pre, rest, a. split; [reflexivity|]. repeat (split; [assumption|]). lia.
Qed.

Lemma slice_to_app : forall pre rest, slice_to (pre ++ rest) (lenN pre) = Ret pre.
Proof.
  intros. unfold slice_to. rewrite lenN_app. destruct (N.leb_spec (lenN pre) (lenN pre + lenN rest)); [|lia].
  replace (N.to_nat (lenN pre)) with (length pre) by (unfold lenN; lia). rewrite firstn_app_exact by reflexivity. reflexivity.
Qed.

Lemma scriptint_bytes_ok : forall n, (- 2 ^ 63 < n < 2 ^ 63)%Z ->
  exists b, scriptint_bytes n = Ret b /\ bytes_ok b /\ num_val b = n /\ num_minimal b /\ lenN b <= 8.
Proof.
  intros n Hn. unfold scriptint_bytes, write_scriptint. destruct (Z.eqb_spec n 0) as [->|Hz].
  { exists []. split; [reflexivity|]. split; [constructor|]. split; [reflexivity|].
    split; [apply num_minimal_intro; [constructor|auto]|]. rewrite lenN_nil. lia. }
  assert (Ha0 : 0 < Z.abs_N n < 2 ^ 63) by lia.
  destruct (write_loop_ok 9 [] (repeat 0 8) (Z.abs_N n) (Z.abs_N n)) as (pre & rest & a & E & HL & Hp & Hr & Hne & HE & Ha).
  { reflexivity. } { constructor. } { repeat constructor. } { cbn [le_val]. rewrite lenN_nil, N.pow_0_r. lia. }
  { lia. } { lia. } { cbn [length]. lia. }
  change (lenN (@nil N)) with 0 in E. cbn [app] in E. unfold bytes, byte in *. rewrite E. cbn [rbind].
  pose proof (pow256_pos (lenN pre)) as Pw. pose proof (le_val_lt pre Hp) as Bp. unfold bytes, byte in *.
  rewrite land128_small by lia.
  destruct (N.ltb_spec a 128) as [La|La]; cbn [negb].
  - (* one byte carries the sign *)
    assert (Hx : as_u8 (N.lor a (if (n <? 0)%Z then 128 else 0)) = a + (if (n <? 0)%Z then 128 else 0)).
    { destruct (n <? 0)%Z; [|rewrite N.lor_0_r, N.add_0_r; unfold as_u8; apply N.mod_small; lia].
      assert (A : forall a, a < 256 -> (if a <? 128 then as_u8 (N.lor a 128) =? a + 128 else true) = true).
      { apply byte_cases. vm_compute. reflexivity. }
      specialize (A a ltac:(lia)). rewrite (proj2 (N.ltb_lt a 128) La) in A. apply N.eqb_eq in A. exact A. }
    rewrite Hx, out_put_ok by auto. cbn [rbind]. rewrite slice_to_app. eexists. split; [reflexivity|].
    set (x := a + (if (n <? 0)%Z then 128 else 0)).
    assert (Hb : x < 256) by (unfold x; destruct (n <? 0)%Z; lia).
    assert (Hok : bytes_ok (pre ++ [x])) by (apply bytes_ok_app; split; [auto|repeat constructor; auto]).
    assert (Hm : x mod 128 = a).
    { unfold x. destruct (n <? 0)%Z; [replace (a + 128) with (a + 1 * 128) by lia; rewrite N.mod_add by lia|rewrite N.add_0_r]; apply N.mod_small; lia. }
    assert (Hv : num_val (pre ++ [x]) = n).
    { rewrite num_val_snoc by auto. rewrite Hm, HE. unfold sgn, x.
      destruct (Z.ltb_spec n 0); [destruct (N.ltb_spec (a + 128) 128)|destruct (N.ltb_spec (a + 0) 128)]; lia. }
    split; [exact Hok|]. split; [exact Hv|]. split.
    + apply num_minimal_intro; [auto|]. right. rewrite Hv.
      destruct pre as [|p0 pre'] eqn:Epre; [left; split; [reflexivity|exact Hz]|right].
      exists (length pre'). rewrite app_length. cbn [length]. split; [lia|].
      assert (Z.of_N (256 ^ lenN (p0 :: pre')) = 2 ^ (8 * Z.of_nat (S (length pre'))))%Z as P2.
      { rewrite N2Z.inj_pow. change (Z.of_N 256) with (2 ^ 8)%Z. rewrite <- Z.pow_mul_r by lia. f_equal; unfold lenN; cbn [length]; lia. }
      assert (2 ^ (8 * Z.of_nat (S (length pre')) - 1) <= 2 ^ (8 * Z.of_nat (S (length pre'))))%Z
        by (apply Z.pow_le_mono_r; lia). nia.
    + rewrite lenN_app. change (lenN [x]) with 1. destruct rest; [congruence|]. rewrite lenN_cons in HL. lia.
  - (* an extra sign byte *)
    assert (Hx : as_u8 a = a) by (unfold as_u8; apply N.mod_small; lia).
    rewrite Hx, out_put_ok by auto. cbn [rbind]. destruct rest as [|r rest]; [congruence|]. cbn [tl].
    rewrite lenN_cons in HL.
    assert (Hne2 : rest <> []).
    { intros ->. rewrite lenN_nil in HL. assert (L7 : lenN pre = 7) by lia. rewrite L7 in HE.
      change (256 ^ 7) with 72057594037927936 in HE. lia. }
    assert (HL2 : lenN (pre ++ [a]) + lenN rest = 8) by (rewrite lenN_app; change (lenN [a]) with 1; lia).
    unfold bytes, byte in *. rewrite out_put_ok by auto. cbn [rbind]. rewrite slice_to_app. eexists. split; [reflexivity|].
    set (x := if (n <? 0)%Z then 128 else 0).
    assert (Hb : x < 256) by (unfold x; destruct (n <? 0)%Z; lia).
    assert (Hpa : bytes_ok (pre ++ [a])) by (apply bytes_ok_app; split; [auto|repeat constructor; unfold byte_ok; lia]).
    assert (Hok : bytes_ok ((pre ++ [a]) ++ [x])) by (apply bytes_ok_app; split; [auto|repeat constructor; auto]).
    assert (Hm : x mod 128 = 0) by (unfold x; destruct (n <? 0)%Z; reflexivity).
    assert (Hv : num_val ((pre ++ [a]) ++ [x]) = n).
    { rewrite num_val_snoc by auto. rewrite Hm, N.mul_0_r, N.add_0_r, le_val_snoc, HE. unfold sgn, x.
      destruct (Z.ltb_spec n 0); [change (128 <? 128) with false|change (0 <? 128) with true]; cbv iota; lia. }
    split; [exact Hok|]. split; [exact Hv|]. split.
    + apply num_minimal_intro; [auto|]. right. right. rewrite Hv. exists (length pre).
      rewrite !app_length. cbn [length]. split; [lia|].
      replace (2 ^ (8 * Z.of_nat (S (length pre)) - 1))%Z with (Z.of_N (256 ^ lenN pre * 128)).
      2:{ rewrite N2Z.inj_mul, N2Z.inj_pow.
          replace (8 * Z.of_nat (S (length pre)) - 1)%Z with (8 * Z.of_N (lenN pre) + 7)%Z by (unfold lenN; lia).
          rewrite Z.pow_add_r by lia. rewrite Z.pow_mul_r by lia. reflexivity. }
      nia.
    + rewrite !lenN_app. change (lenN [a]) with 1. change (lenN [x]) with 1.
      destruct rest; [congruence|]. rewrite lenN_cons in HL. lia.
Qed.

Lemma scriptint_min_panics : scriptint_bytes (- 2 ^ 63) = Panic.
Proof. vm_compute. reflexivity. Qed.

Lemma num_of_len : forall n b, bytes_ok b -> num_minimal b -> num_val b = n ->
  forall k, (1 <= k)%nat -> (Z.abs n < 2 ^ (8 * Z.of_nat k - 1))%Z -> (length b <= k)%nat.
Proof.
  intros n b Hb Hm Hv k Hk Hn.
  destruct (Z.eq_dec n 0) as [->|Hz].
  { specialize (Hm [] ltac:(constructor) (eq_sym Hv)). cbn [length] in Hm. lia. }
  (* the magnitude fits in k bytes: exhibit such a representation *)
  set (top := (256 ^ N.of_nat (k - 1) * 128)).
  assert (T : Z.of_N top = (2 ^ (8 * Z.of_nat k - 1))%Z).
  { unfold top. rewrite N2Z.inj_mul, N2Z.inj_pow.
    replace (8 * Z.of_nat k - 1)%Z with (8 * Z.of_N (N.of_nat (k - 1)) + 7)%Z by lia.
    rewrite Z.pow_add_r by lia. rewrite Z.pow_mul_r by lia. reflexivity. }
  set (m := Z.abs_N n). assert (Hm2 : m < top) by lia.
  set (p := 256 ^ N.of_nat (k - 1)) in *. assert (Pp : 0 < p) by apply pow256_pos.
  set (w := le_bytes (k - 1) (m mod p)). set (x := m / p).
  assert (x < 128) by (unfold x; apply N.div_lt_upper_bound; lia).
  assert (Hw : bytes_ok w) by apply le_bytes_ok.
  assert (Hlw : lenN w = N.of_nat (k - 1)) by (unfold lenN, w; rewrite le_bytes_length; reflexivity).
  assert (Hlv : le_val w = m mod p) by (apply le_val_bytes; apply N.mod_lt; lia).
  set (y := x + (if (n <? 0)%Z then 128 else 0)).
  assert (Hy : y < 256) by (unfold y; destruct (n <? 0)%Z; lia).
  assert (Hym : y mod 128 = x).
  { unfold y. destruct (n <? 0)%Z; [replace (x + 128) with (x + 1 * 128) by lia; rewrite N.mod_add by lia|rewrite N.add_0_r]; apply N.mod_small; lia. }
  specialize (Hm (w ++ [y])).
  assert (L : length (w ++ [y]) = k) by (rewrite app_length; unfold w; rewrite le_bytes_length; cbn [length]; lia).
  rewrite L in Hm. apply Hm.
  - apply bytes_ok_app. split; [auto|repeat constructor; auto].
  - rewrite num_val_snoc by auto. rewrite Hym, Hlw, Hlv. fold p.
    assert (m mod p + p * x = m) as -> by (unfold x; rewrite (N.div_mod m p) at 3 by lia; lia).
    unfold sgn, y, m. rewrite Hv. destruct (Z.ltb_spec n 0);
      [destruct (N.ltb_spec (x + 128) 128)|destruct (N.ltb_spec (x + 0) 128)]; lia.
Qed.
