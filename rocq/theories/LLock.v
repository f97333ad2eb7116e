(** Lemmas about lock times, medians and locators. *)
From Verif Require Import Base MWitness MTx MLock SLock.
From Coq Require Import Permutation Sorted.
Local Open Scope N_scope.

Lemma land_pow2 : forall s k, N.land s (2 ^ k) = if N.testbit s k then 2 ^ k else 0.
Proof.
  intros s k. apply N.bits_inj. intro i. rewrite N.land_spec.
  destruct (N.eq_dec i k) as [->|D].
  - rewrite N.pow2_bits_true, andb_true_r. destruct (N.testbit s k) eqn:E; [rewrite N.pow2_bits_true; reflexivity|rewrite N.bits_0; reflexivity].
  - rewrite (N.pow2_bits_false k i) by auto. rewrite andb_false_r.
    destruct (N.testbit s k); [rewrite N.pow2_bits_false by auto; reflexivity|rewrite N.bits_0; reflexivity].
Qed.

Lemma relative_bit : forall s, is_relative_lock_time s = negb (N.testbit s 31).
Proof.
  intro s. unfold is_relative_lock_time. change LOCK_TIME_DISABLE_FLAG_MASK with (2 ^ 31). rewrite land_pow2.
  destruct (N.testbit s 31); reflexivity.
Qed.
Lemma time_bit : forall s, is_time_locked s = negb (N.testbit s 31) && N.testbit s 22.
Proof.
  intro s. unfold is_time_locked. rewrite relative_bit. change LOCK_TYPE_MASK with (2 ^ 22). rewrite land_pow2.
  destruct (N.testbit s 22); reflexivity.
Qed.
Lemma height_bit : forall s, is_height_locked s = negb (N.testbit s 31) && negb (N.testbit s 22).
Proof.
  intro s. unfold is_height_locked. rewrite relative_bit. change LOCK_TYPE_MASK with (2 ^ 22). rewrite land_pow2.
  destruct (N.testbit s 22); reflexivity.
Qed.
Lemma to_relative_spec : forall s, to_relative_lock_time s =
  if N.testbit s 31 then None else Some (if N.testbit s 22 then RTime (s mod 2 ^ 16) else RBlocks (s mod 2 ^ 16)).
Proof.
  intro s. unfold to_relative_lock_time. rewrite relative_bit, time_bit, negb_involutive.
  destruct (N.testbit s 31); [reflexivity|]. cbn [negb andb]. destruct (N.testbit s 22); reflexivity.
Qed.

Lemma lor_add : forall a k, a < 2 ^ k -> N.lor a (2 ^ k) = a + 2 ^ k.
Proof.
  intros a k H. symmetry. apply N.add_nocarry_lxor in H || idtac.
  rewrite N.add_nocarry_lxor.
  - apply N.bits_inj. intro i. rewrite N.lor_spec, N.lxor_spec. destruct (N.eq_dec i k) as [->|D].
    + rewrite N.pow2_bits_true. replace (N.testbit a k) with false; [reflexivity|].
      symmetry. destruct (N.eq_dec a 0) as [->|]; [apply N.bits_0|]. apply N.bits_above_log2.
      apply N.log2_lt_pow2; lia.
    + rewrite N.pow2_bits_false by auto. destruct (N.testbit a i); reflexivity.
  - rewrite land_pow2. replace (N.testbit a k) with false; [reflexivity|].
    symmetry. destruct (N.eq_dec a 0) as [->|]; [apply N.bits_0|]. apply N.bits_above_log2.
    apply N.log2_lt_pow2; lia.
Qed.

Lemma testbit_small : forall a k, a < 2 ^ k -> N.testbit a k = false.
Proof.
  intros a k H. destruct (N.eq_dec a 0) as [->|]; [apply N.bits_0|]. apply N.bits_above_log2. apply N.log2_lt_pow2; lia.
Qed.

Lemma seq_time_val : forall t, u16 t -> seq_from_512 t = t + 2 ^ 22.
Proof. intros t H. unfold u16 in H. unfold seq_from_512. change LOCK_TYPE_MASK with (2 ^ 22). apply lor_add. lia. Qed.

Lemma rel_time_val : forall t, u16 t -> N.lor LOCK_TYPE_MASK t = t + 2 ^ 22.
Proof. intros t H. rewrite N.lor_comm. apply seq_time_val. exact H. Qed.

Lemma time_seq_bits : forall t, u16 t -> N.testbit (t + 2 ^ 22) 31 = false /\ N.testbit (t + 2 ^ 22) 22 = true /\ (t + 2 ^ 22) mod 2 ^ 16 = t.
Proof.
  intros t H. unfold u16 in H. split; [apply testbit_small; lia|]. split.
  - rewrite <- lor_add by lia. rewrite N.lor_spec, N.pow2_bits_true. apply orb_true_r.
  - change (2 ^ 22) with (64 * 2 ^ 16). rewrite N.mod_add by lia. apply N.mod_small. exact H.
Qed.

Lemma round_trip : forall l, rel_ok l -> to_relative_lock_time (rel_to_consensus l) = Some l.
Proof.
  intros [n|n] H; cbn [rel_ok rel_to_consensus] in *; rewrite to_relative_spec.
  - unfold u16 in H. rewrite !testbit_small by lia. rewrite N.mod_small by lia. reflexivity.
  - rewrite rel_time_val by exact H. destruct (time_seq_bits n H) as (-> & -> & ->). reflexivity.
Qed.

(** seconds *)
Lemma floor_spec : forall s, u32 s -> secs_floor s = if s / 512 <? 2 ^ 16 then Ok (s / 512) else Err s.
Proof.
  intros s H. unfold secs_floor. change (U16M - 1) with 65535. change U16M with 65536. change (2 ^ 16) with 65536. cbv zeta.
  destruct (N.leb_spec (s / 512) 65535), (N.ltb_spec (s / 512) 65536); try lia; [|reflexivity].
  rewrite N.mod_small by lia. reflexivity.
Qed.
Lemma ceil_spec : forall s, secs_ceil s = if (s + 511) / 512 <? 2 ^ 16 then Ok ((s + 511) / 512) else Err s.
Proof.
  intros s. unfold secs_ceil, div_ceil32. change ((U16M - 1) * 512) with 33553920. change U16M with 65536. change (2 ^ 16) with 65536.
  destruct (N.leb_spec s 33553920), (N.ltb_spec ((s + 511) / 512) 65536); try (exfalso; lia); [|reflexivity].
  f_equal. destruct (N.eqb_spec (s mod 512) 0); rewrite N.mod_small by lia; lia.
Qed.

(** sorting *)
Lemma insert_perm : forall x l, Permutation (x :: l) (insert x l).
Proof.
  intros x l. induction l as [|y l IH]; [reflexivity|]. cbn [insert]. destruct (x <=? y); [reflexivity|].
  rewrite perm_swap. constructor. exact IH.
Qed.
Lemma sort_perm : forall l, Permutation l (sort_unstable l).
Proof.
  induction l as [|x l IH]; [reflexivity|]. unfold sort_unstable in *. cbn [fold_right]. rewrite <- insert_perm. constructor. exact IH.
Qed.
Lemma insert_sorted : forall x l, StronglySorted N.le l -> StronglySorted N.le (insert x l).
Proof.
  intros x l H. induction H as [|y l H IH F]; cbn [insert]; [repeat constructor|].
  destruct (N.leb_spec x y).
  - constructor; [constructor; assumption|]. constructor; [assumption|]. eapply Forall_impl; [|exact F]. cbn. intros; lia.
  - constructor; [exact IH|]. rewrite <- insert_perm. constructor; [lia|exact F].
Qed.
Lemma sort_sorted : forall l, StronglySorted N.le (sort_unstable l).
Proof. induction l as [|x l IH]; [constructor|]. apply insert_sorted. exact IH. Qed.
Lemma sorted_unique : forall a b, StronglySorted N.le a -> StronglySorted N.le b -> Permutation a b -> a = b.
Proof.
  induction a as [|x a IH]; intros b Ha Hb P.
  - apply Permutation_nil in P. auto.
  - destruct b as [|y b]; [apply Permutation_sym, Permutation_nil in P; discriminate|].
    inv Ha. inv Hb. assert (x = y).
    { assert (In x (y :: b)) by (eapply Permutation_in; [exact P|left; auto]).
      assert (In y (x :: a)) by (eapply Permutation_in; [symmetry; exact P|left; auto]).
      rewrite Forall_forall in H2, H4. destruct H as [|H]; [auto|]. destruct H0 as [|H0]; [auto|].
      specialize (H2 _ H0). specialize (H4 _ H). lia. }
    subst y. f_equal. apply IH; auto. eapply Permutation_cons_inv; exact P.
Qed.

Lemma filter_perm : forall (f : N -> bool) a b, Permutation a b -> length (filter f a) = length (filter f b).
Proof.
  intros f a b P. induction P; cbn [filter]; auto.
  - destruct (f x); cbn [length]; congruence.
  - destruct (f x), (f y); reflexivity.
  - congruence.
Qed.
Lemma filter_none : forall (f : N -> bool) l, Forall (fun x => f x = false) l -> filter f l = [].
Proof. intros f l H. induction H; cbn [filter]; [reflexivity|]. rewrite H. assumption. Qed.
Lemma filter_le : forall (f : N -> bool) l, (length (filter f l) <= length l)%nat.
Proof. intros f l. induction l as [|x l IH]; cbn [filter length]; [lia|]. destruct (f x); cbn [length]; lia. Qed.

Lemma mid_median : forall l m k, (length l = 2 * k + 1)%nat -> nth_error (sort_unstable l) k = Some m -> median l m.
Proof.
  intros l m k L E. pose proof (sort_perm l) as P. pose proof (sort_sorted l) as S1. split.
  - eapply Permutation_in; [symmetry; exact P|]. eapply nth_error_In; exact E.
  - pose proof (Permutation_length P) as PL. rewrite !(filter_perm _ _ _ P). rewrite PL. set (s := sort_unstable l) in *.
    destruct (nth_error_split _ _ E) as (a & b & Es & La). rewrite Es in *.
    rewrite !filter_app. cbn [filter]. rewrite N.ltb_irrefl. rewrite !app_length in *. cbn [length] in *.
    assert (A : Forall (fun x => x <= m) a /\ Forall (fun x => m <= x) b).
    { clear - S1. induction a as [|y a IH]; cbn [app] in S1; inv S1.
      - split; [constructor|assumption].
      - destruct (IH H1) as [Q R]. split; [|assumption]. constructor; [|assumption].
        rewrite Forall_forall in H2. apply H2. apply in_or_app. right. left. reflexivity. }
    destruct A as [A B]. rewrite (filter_none (fun x => x <? m) b), (filter_none (fun x => m <? x) a).
    + cbn [length]. pose proof (filter_le (fun x => x <? m) a). pose proof (filter_le (fun x => m <? x) b). lia.
    + eapply Forall_impl; [|exact A]. cbn. intros; apply N.ltb_ge; assumption.
    + eapply Forall_impl; [|exact B]. cbn. intros; apply N.ltb_ge; assumption.
Qed.

Lemma filter_mono : forall (f g : N -> bool) l, (forall x, f x = true -> g x = true) -> (length (filter f l) <= length (filter g l))%nat.
Proof.
  intros f g l H. induction l as [|x l IH]; cbn [filter]; [lia|]. specialize (H x).
  destruct (f x); [rewrite H by auto; cbn [length]; lia|]. destruct (g x); cbn [length]; lia.
Qed.
Lemma filter_split : forall (f g : N -> bool) l, (forall x, f x = true \/ g x = true) -> (length l <= length (filter f l) + length (filter g l))%nat.
Proof.
  intros f g l H. induction l as [|x l IH]; cbn [filter]; [cbn; lia|]. specialize (H x).
  destruct (f x), (g x); cbn [length] in *; try lia.
Qed.
Lemma median_unique : forall l m m', median l m -> median l m' -> m = m'.
Proof.
  assert (K : forall l m m', median l m -> median l m' -> ~ m < m').
  { intros l m m' (_ & _ & A) (_ & B & _) C.
    pose proof (filter_split (fun x => m <? x) (fun x => x <? m') l) as D. cbv beta in D.
    assert (forall x, (m <? x) = true \/ (x <? m') = true).
    { intro x. destruct (N.ltb_spec m x); [auto|]. right. apply N.ltb_lt. lia. }
    specialize (D H). lia. }
  intros l m m' A B. pose proof (K l m m' A B). pose proof (K l m' m B A). lia.
Qed.

(** sums *)
Lemma interval_sum_acc : forall l a, a < U32M -> fold_left (fun acc x => rbind acc (fun a => add32 a x)) l (Ret a) =
  if a + fold_right N.add 0 l <? U32M then Ret (a + fold_right N.add 0 l) else Panic.
Proof.
  assert (P : forall l, fold_left (fun acc x => rbind acc (fun a => add32 a x)) l Panic = Panic).
  { induction l; cbn [fold_left rbind]; auto. }
  induction l as [|x l IH]; intros a Ha; cbn [fold_left fold_right rbind].
  - rewrite N.add_0_r. destruct (N.ltb_spec a U32M); [reflexivity|lia].
  - unfold add32 at 2. destruct (N.ltb_spec (a + x) U32M).
    + rewrite IH by assumption. rewrite N.add_assoc. reflexivity.
    + rewrite P. destruct (N.ltb_spec (a + (x + fold_right N.add 0 l)) U32M); [lia|reflexivity].
Qed.

(** locators *)
Fixpoint mapR {H E} (f : N -> result H E) (l : list N) : result (list H) E :=
  match l with
  | [] => Ok []
  | x :: l' => match f x with
               | Err e => Err e
               | Ok h => match mapR f l' with Ok r => Ok (h :: r) | Err e => Err e end
               end
  end.
Definition step_at (k : nat) : N := if (k <=? 10)%nat then 1 else 2 ^ N.of_nat (k - 10).
Lemma depth_S : forall k, locator_depth (S k) = locator_depth k + step_at k.
Proof.
  intro k. unfold locator_depth, step_at. destruct (Nat.leb_spec (S k) 11), (Nat.leb_spec k 11), (Nat.leb_spec k 10); try lia.
  - assert (k = 11)%nat by lia. subst k. reflexivity.
  - replace (S k - 10)%nat with (S (k - 10)) by lia. rewrite Nat2N.inj_succ, N.pow_succ_r'. lia.
Qed.
Lemma step_S : forall k, step_at (S k) = if (10 <=? k)%nat then 2 * step_at k else step_at k.
Proof.
  intro k. unfold step_at. destruct (Nat.leb_spec (S k) 10), (Nat.leb_spec 10 k), (Nat.leb_spec k 10); try lia.
  - assert (k = 10)%nat by lia. subst k. reflexivity.
  - replace (S k - 10)%nat with (S (k - 10)) by lia. rewrite Nat2N.inj_succ, N.pow_succ_r'. lia.
Qed.
Lemma step_bound : forall k, (k <= 40)%nat -> step_at k <= 2 ^ 30.
Proof.
  intros k H. unfold step_at. destruct (Nat.leb_spec k 10); [lia|]. apply N.pow_le_mono_r; lia.
Qed.
Lemma loop_mapR : forall H E (f : N -> result H E) tip, u32 tip -> forall j k fuel hashes step,
  (k + j = 42)%nat -> (j < fuel)%nat -> length hashes = k -> ((k <= 41)%nat -> step = step_at k) ->
  exists n, (n <= j)%nat /\ tip - locator_depth (k + n) = 0 /\ (forall i, (i < n)%nat -> tip - locator_depth (k + i) <> 0) /\
    locator_loop f fuel hashes step (tip - locator_depth k) =
    match mapR f (map (fun k => tip - locator_depth k) (seq k (S n))) with
    | Ok r => Ret (Ok (hashes ++ r)) | Err e => Ret (Err e) end.
Proof.
  intros H E f tip Ht. induction j as [|j IH]; intros k fuel hashes step Hk Hf Hl Hs; (destruct fuel as [|fuel]; [lia|]).
  - exists 0%nat. rewrite Nat.add_0_r. assert (K42 : k = 42%nat) by lia. clear Hl Hs Hk. subst k.
    assert (Z : tip - locator_depth 42 = 0).
    { unfold u32 in Ht. change (locator_depth 42) with (9 + 2 ^ 32). lia. }
    split; [lia|]. split; [exact Z|]. split; [intros i Hi; lia|]. cbn [seq map locator_loop mapR]. rewrite Z.
    destruct (f 0) as [h|e]; [|reflexivity]. reflexivity.
  - cbn [locator_loop]. remember (tip - locator_depth k) as ht eqn:Eh.
    destruct (f ht) as [h|e] eqn:Ef.
    + assert (Ll : lenN (hashes ++ [h]) = N.of_nat k + 1) by (rewrite lenN_app; unfold lenN; rewrite Hl; reflexivity).
      rewrite Ll. replace (MAX_LOCATOR_HASHES <=? N.of_nat k + 1) with false
        by (symmetry; apply N.leb_gt; unfold MAX_LOCATOR_HASHES; lia).
      rewrite orb_false_r. destruct (N.eqb_spec ht 0) as [Z|Z].
      * exists 0%nat. rewrite Nat.add_0_r, <- Eh. split; [lia|]. split; [exact Z|]. split; [intros i Hi; lia|].
        cbn [seq map mapR]. rewrite <- Eh, Ef. reflexivity.
      * assert (Hd : sat_sub32 ht step = tip - locator_depth (S k)).
        { rewrite depth_S, Eh, Hs by lia. unfold sat_sub32. destruct (N.leb_spec (step_at k) (tip - locator_depth k)); lia. }
        rewrite Hd.
        assert (Hst : (S k <= 41)%nat -> (if 10 <? N.of_nat k + 1 then sat_mul32 step 2 else step) = step_at (S k)).
        { intro Hk1. rewrite Hs by lia. rewrite step_S. pose proof (step_bound k ltac:(lia)).
          destruct (N.ltb_spec 10 (N.of_nat k + 1)), (Nat.leb_spec 10 k); try lia.
          unfold sat_mul32, U32M. destruct (N.ltb_spec (step_at k * 2) 4294967296); lia. }
        destruct (IH (S k) fuel (hashes ++ [h]) _ ltac:(lia) ltac:(lia) ltac:(rewrite app_length; cbn; lia) Hst) as (n & A & B & C & D).
        exists (S n). split; [lia|]. split; [rewrite <- Nat.add_succ_comm; exact B|]. split.
        { intros [|i] Hi; [rewrite Nat.add_0_r, <- Eh; exact Z|]. rewrite <- Nat.add_succ_comm. apply C. lia. }
        rewrite D. change (seq k (S (S n))) with (k :: seq (S k) (S n)). rewrite map_cons. cbn [mapR].
        rewrite <- Eh, Ef. destruct (mapR f _); [|reflexivity]. rewrite <- app_assoc. reflexivity.
    + exists (match find (fun n => tip - locator_depth (k + n) =? 0) (seq 0 (S (S j))) with Some n => n | None => 0%nat end).
      assert (G : exists n, find (fun n => tip - locator_depth (k + n) =? 0) (seq 0 (S (S j))) = Some n /\ (n <= S j)%nat /\
         forall i, (i < n)%nat -> tip - locator_depth (k + i) <> 0).
      { assert (Q : forall m a, (exists i, (a <= i < a + m)%nat /\ tip - locator_depth (k + i) = 0) ->
           exists n, find (fun n => tip - locator_depth (k + n) =? 0) (seq a m) = Some n /\ (n < a + m)%nat /\
           forall i, (a <= i < n)%nat -> tip - locator_depth (k + i) <> 0).
        { induction m as [|m IHm]; intros a (i & Hi & Hz); [lia|]. cbn [seq find].
          destruct (N.eqb_spec (tip - locator_depth (k + a)) 0) as [Z|Z].
          - exists a. split; [reflexivity|]. split; [lia|]. intros; lia.
          - destruct (IHm (S a)) as (n & F1 & F2 & F3).
            + exists i. split; [|exact Hz]. destruct (Nat.eq_dec i a); [subst; congruence|lia].
            + exists n. split; [exact F1|]. split; [lia|]. intros i' Hi'. destruct (Nat.eq_dec i' a); [subst; exact Z|apply F3; lia]. }
        destruct (Q (S (S j)) 0%nat) as (n & F1 & F2 & F3).
        - exists (S j). split; [lia|]. replace (k + S j)%nat with 42%nat by lia. unfold u32 in Ht. change (locator_depth 42) with (9 + 2 ^ 32). lia.
        - exists n. split; [exact F1|]. split; [lia|]. intros i Hi. apply F3. lia. }
      destruct G as (n & F1 & F2 & F3). rewrite F1. split; [lia|]. split.
      * apply find_some in F1. destruct F1 as [_ F1]. apply N.eqb_eq in F1. exact F1.
      * split; [exact F3|]. cbn [seq map mapR]. rewrite <- Eh, Ef. reflexivity.
Qed.

Lemma mapR_ok : forall H E (f : N -> result H E) l r, mapR f l = Ok r -> Forall2 (fun x h => f x = Ok h) l r.
Proof.
  intros H E f. induction l as [|x l IH]; intros r R; cbn [mapR] in R; [inv R; constructor|].
  destruct (f x) as [h|] eqn:F; [|discriminate]. destruct (mapR f l) as [r'|]; [|discriminate]. inv R. constructor; auto.
Qed.
Lemma mapR_err : forall H E (f : N -> result H E) l e, mapR f l = Err e ->
  exists a x b, l = a ++ x :: b /\ f x = Err e /\ Forall (fun y => exists h, f y = Ok h) a.
Proof.
  intros H E f. induction l as [|x l IH]; intros e R; cbn [mapR] in R; [discriminate|].
  destruct (f x) as [h|e'] eqn:F.
  - destruct (mapR f l) as [r'|e']; [discriminate|]. inv R. destruct (IH e eq_refl) as (a & y & b & -> & A & B).
    exists (x :: a), y, b. split; [reflexivity|]. split; [exact A|]. constructor; eauto.
  - inv R. exists [], x, l. auto.
Qed.

Lemma build_spec : forall H E (f : N -> result H E) tip, u32 tip -> exists hs, locator_heights tip hs /\ (length hs <= 43)%nat /\
  locator_build f tip = match mapR f hs with Ok r => Ret (Ok r) | Err e => Ret (Err e) end.
Proof.
  intros H E f tip Ht. destruct (loop_mapR H E f tip Ht 42 0 102 [] 1 eq_refl ltac:(lia) eq_refl (fun _ => eq_refl)) as (n & A & B & C & D).
  exists (map (fun k => tip - locator_depth k) (seq 0 (S n))). split; [|split].
  - split; [discriminate|]. rewrite map_length, seq_length. split; [reflexivity|]. intros k Hk. split.
    + intro Z. destruct (Nat.eq_dec k n); [lia|]. exfalso. apply (C k); [lia|]. exact Z.
    + intros ->. replace (S n - 1)%nat with n by lia. exact B.
  - rewrite map_length, seq_length. lia.
  - change (locator_depth 0) with 0 in D. rewrite N.sub_0_r in D. unfold locator_build. rewrite D.
    destruct (mapR f _); reflexivity.
Qed.

Lemma heights_unique : forall tip a b, locator_heights tip a -> locator_heights tip b -> a = b.
Proof.
  assert (K : forall tip a b, locator_heights tip a -> locator_heights tip b -> ~ (length a < length b)%nat).
  { intros tip a b (Na & Ea & Za) (Nb & Eb & Zb) L. assert (0 < length a)%nat by (destruct a; [congruence|cbn; lia]).
    pose proof (proj2 (Za (length a - 1)%nat ltac:(lia)) eq_refl) as Z. apply (Zb (length a - 1)%nat ltac:(lia)) in Z. lia. }
  intros tip a b A B. pose proof (K _ _ _ A B). pose proof (K _ _ _ B A). destruct A as (_ & A & _), B as (_ & B & _).
  rewrite A, B. do 2 f_equal. lia.
Qed.
