(** Properties C20, C21 and C40: lock times, sequences, median times and block locators.
    Model: MLock.v.  Specification: SLock.v ([final_tx]: Bitcoin Core's IsFinalTx;
    [seq_lock_passed]: BIP68 for one input; [median]; [locator_heights]). *)
From Verif Require Import Base MWitness MTx MLock SLock LLock.
From Coq Require Import Permutation.
Local Open Scope N_scope.

(** *** C20 *)
(** The consensus u32 and the lock times are in bijection; the unit is decided by 500,000,000. *)
Theorem C20_bijection :
  (forall n, u32 n -> exists l, abs_from_consensus n = Ret l /\ abs_ok l /\ abs_to_consensus l = n /\
     (abs_is_block_height l = true <-> n < 500000000)) /\
  (forall l, abs_ok l -> u32 (abs_to_consensus l) /\ abs_from_consensus (abs_to_consensus l) = Ret l).
Proof.
  unfold abs_from_consensus, height_from_u32, mtp_from_u32, is_block_height, is_block_time, LOCK_TIME_THRESHOLD, u32. split.
  - intros n Hn. destruct (N.ltb_spec n 500000000); cbn [expect rbind].
    + exists (ABlocks n). cbn. unfold height_ok. repeat split; auto.
    + destruct (N.leb_spec 500000000 n); [|lia]. cbn [expect rbind]. exists (ASeconds n). cbn. unfold mtp_ok. split; [reflexivity|].
      split; [lia|]. split; [reflexivity|]. split; [discriminate|lia].
  - intros [h|t] Hl; cbn in *; unfold height_ok, mtp_ok in Hl; (split; [lia|]).
    + destruct (N.ltb_spec h 500000000); [reflexivity|lia].
    + destruct (N.ltb_spec t 500000000); [lia|]. destruct (N.leb_spec 500000000 t); [reflexivity|lia].
Qed.
Print Assumptions C20_bijection.

(** The checked constructors accept exactly their own range. *)
Theorem C20_constructors : forall n, u32 n ->
  (forall l, abs_from_height n = Ok l <-> height_ok n /\ l = ABlocks n) /\
  (forall l, abs_from_mtp n = Ok l <-> mtp_ok n /\ l = ASeconds n).
Proof.
  intros n Hn. unfold abs_from_height, abs_from_mtp, height_from_u32, mtp_from_u32, is_block_height, is_block_time,
    LOCK_TIME_THRESHOLD, height_ok, mtp_ok, u32 in *. split; intro l.
  - destruct (N.ltb_spec n 500000000); split; intro H0; try discriminate.
    + inv H0. auto.
    + destruct H0 as [_ ->]. reflexivity.
    + lia.
  - destruct (N.leb_spec 500000000 n); split; intro H0; try discriminate.
    + inv H0. auto.
    + destruct H0 as [_ ->]. reflexivity.
    + lia.
Qed.
Print Assumptions C20_constructors.

(** Satisfaction at a chain tip is the consensus rule for the next block. *)
Theorem C20_satisfied : forall n l h t, u32 n -> abs_from_consensus n = Ret l ->
  (abs_is_satisfied_by l h t = true <-> lock_passed n (h + 1) t) /\
  (abs_is_satisfied_by_height l h = if n <? 500000000 then Ok (abs_is_satisfied_by l h t) else Err (n, h)) /\
  (abs_is_satisfied_by_time l t = if n <? 500000000 then Err (n, t) else Ok (abs_is_satisfied_by l h t)).
Proof.
  intros n l h t Hn E. destruct (proj1 C20_bijection n Hn) as (l' & E' & K & V & B). assert (l' = l) by congruence. subst l'.
  unfold lock_passed. destruct l as [x|x]; cbn [abs_ok abs_to_consensus abs_is_satisfied_by abs_is_satisfied_by_height abs_is_satisfied_by_time] in *; subst x; unfold height_ok, mtp_ok in K.
  - destruct (N.ltb_spec n 500000000); [|lia]. unfold height_is_satisfied_by. split; [apply N.ltb_lt|auto].
  - destruct (N.ltb_spec n 500000000); [lia|]. unfold mtp_is_satisfied_by. split; [apply N.ltb_lt|auto].
Qed.
Print Assumptions C20_satisfied.

(** [a.is_implied_by(b)], for locks of one unit: every chain state that satisfies [b] satisfies [a]. *)
Theorem C20_implied : forall a b, abs_ok a -> abs_ok b -> abs_is_same_unit a b = true ->
  (abs_is_implied_by a b = true <->
   forall h t, height_ok h -> mtp_ok t -> abs_is_satisfied_by b h t = true -> abs_is_satisfied_by a h t = true).
Proof.
  intros [a|a] [b|b] Ha Hb U; try discriminate; cbn in *; unfold height_ok, mtp_ok, height_is_satisfied_by, mtp_is_satisfied_by in *;
    rewrite N.leb_le; split; intro H.
  - intros h t _ _. rewrite !N.ltb_lt. lia.
  - specialize (H b 500000000 Hb ltac:(lia)). rewrite !N.ltb_lt in H. lia.
  - intros h t _ _. rewrite !N.ltb_lt. lia.
  - destruct (N.le_gt_cases a b) as [|G]; [assumption|]. specialize (H 0 a ltac:(lia) Ha). rewrite !N.ltb_lt in H. lia.
Qed.
Print Assumptions C20_implied.

(** Implication is never claimed across units. *)
Theorem C20_implied_unit : forall a b, abs_is_implied_by a b = true -> abs_is_same_unit a b = true.
Proof. intros [a|a] [b|b] H; cbn in *; auto. Qed.
Print Assumptions C20_implied_unit.

(** Finding: a time lock of u32::MAX is never satisfied. *)
Theorem C20_max_time_refuted : exists l, abs_from_consensus (2 ^ 32 - 1) = Ret l /\
  forall h t, height_ok h -> mtp_ok t -> abs_is_satisfied_by l h t = false.
Proof.
  exists (ASeconds 4294967295). split; [reflexivity|]. intros h t _ Ht. unfold mtp_ok in Ht. cbn. unfold mtp_is_satisfied_by.
  apply N.ltb_ge. lia.
Qed.
Print Assumptions C20_max_time_refuted.

(** The transaction level check is Bitcoin Core's IsFinalTx for the next block. *)
Theorem C20_transaction : forall tx h t, u32 (tx_lock_time tx) ->
  exists b, is_absolute_timelock_satisfied tx h t = Ret b /\ (b = true <-> final_tx tx (h + 1) t).
Proof.
  intros tx h t Hn. unfold is_absolute_timelock_satisfied, final_tx.
  assert (En : is_lock_time_enabled tx = false <-> Forall (fun i => ti_sequence i = 2 ^ 32 - 1) (tx_inputs tx)).
  { unfold is_lock_time_enabled, enables_lock_time. induction (tx_inputs tx) as [|i l IH]; cbn [existsb].
    - split; auto.
    - rewrite orb_false_iff, negb_false_iff, N.eqb_eq, IH. split; [intros []; constructor; auto|intro H; inv H; auto]. }
  destruct (is_lock_time_enabled tx) eqn:L; cbn [negb].
  - destruct (proj1 C20_bijection _ Hn) as (l & E & _). rewrite E. cbn [rbind]. eexists. split; [reflexivity|].
    rewrite (proj1 (C20_satisfied _ _ h t Hn E)). split; [auto|]. intros [Z|[P|F]].
    + rewrite Z. unfold lock_passed. cbn. lia.
    + exact P.
    + apply En in F. discriminate.
  - exists true. split; [reflexivity|]. split; [|reflexivity]. intros _. right. right. apply En. reflexivity.
Qed.
Print Assumptions C20_transaction.

Example C20_nonvacuous : abs_from_consensus 840000 = Ret (ABlocks 840000) /\ abs_is_satisfied_by (ABlocks 840000) 840000 1700000000 = true /\
  abs_is_satisfied_by (ABlocks 840000) 839999 1700000000 = false /\ abs_from_consensus 1700000000 = Ret (ASeconds 1700000000) /\
  abs_ok (ABlocks 840000) /\ abs_ok (ASeconds 1700000000).
Proof. repeat split; vm_compute; try reflexivity; discriminate. Qed.

(** *** C21 *)
(** Decoding a sequence number follows the BIP68 bit fields. *)
Theorem C21_decode : forall s, to_relative_lock_time s =
    (if N.testbit s 31 then None else Some (if N.testbit s 22 then RTime (s mod 2 ^ 16) else RBlocks (s mod 2 ^ 16))) /\
  rel_from_consensus s = (match to_relative_lock_time s with Some l => Ok l | None => Err s end) /\
  rel_from_sequence s = rel_from_consensus s /\
  is_relative_lock_time s = negb (N.testbit s 31) /\
  is_time_locked s = negb (N.testbit s 31) && N.testbit s 22 /\
  is_height_locked s = negb (N.testbit s 31) && negb (N.testbit s 22).
Proof.
  intro s. split; [apply to_relative_spec|]. split; [reflexivity|]. split; [reflexivity|]. split; [apply relative_bit|].
  split; [apply time_bit|apply height_bit].
Qed.
Print Assumptions C21_decode.

(** Encoding then decoding a lock time is the identity; the sequence constructors encode the same
    thing; decoding then encoding keeps exactly bits 22 and 0 to 15. *)
Theorem C21_encode : 
  (forall l, rel_ok l -> rel_from_consensus (rel_to_consensus l) = Ok l /\ rel_from_sequence (rel_to_sequence l) = Ok l /\
     u32 (rel_to_consensus l)) /\
  (forall n, u16 n -> seq_from_height n = rel_to_sequence (RBlocks n) /\ seq_from_512 n = rel_to_sequence (RTime n)) /\
  (forall s l, rel_from_consensus s = Ok l -> rel_ok l /\
     rel_to_consensus l = s mod 2 ^ 16 + (if N.testbit s 22 then 2 ^ 22 else 0)).
Proof.
  split; [|split].
  - intros l H. unfold rel_from_sequence, rel_to_sequence, rel_from_consensus. rewrite round_trip by exact H.
    split; [reflexivity|]. split; [reflexivity|]. destruct l as [n|n]; cbn [rel_ok rel_to_consensus] in *; [unfold u16, u32 in *; lia|].
    rewrite rel_time_val by exact H. unfold u16, u32 in *. lia.
  - intros n H. split; [reflexivity|]. unfold rel_to_sequence. cbn [rel_to_consensus]. rewrite seq_time_val, rel_time_val by exact H. reflexivity.
  - intros s l H. unfold rel_from_consensus in H. rewrite to_relative_spec in H. destruct (N.testbit s 31); [discriminate|].
    assert (M : u16 (s mod 2 ^ 16)) by (apply N.mod_lt; discriminate).
    destruct (N.testbit s 22); inv H; cbn [rel_ok rel_to_consensus]; (split; [exact M|]); [apply rel_time_val; exact M|lia].
Qed.
Print Assumptions C21_encode.

(** Satisfaction is the BIP68 rule, for a coin mined at or below the tip ... *)
Theorem C21_satisfied : forall s l tip_h tip_t coin_h coin_t, to_relative_lock_time s = Some l ->
  coin_h <= tip_h -> coin_t <= tip_t ->
  exists b, rel_is_satisfied_by l tip_h tip_t (Some coin_h) (Some coin_t) = Ok b /\
    (b = true <-> seq_lock_passed s coin_h coin_t tip_h tip_t).
Proof.
  intros s l th tt ch ct E Hh Ht. rewrite to_relative_spec in E. unfold seq_lock_passed.
  destruct (N.testbit s 31); [discriminate|]. destruct (N.testbit s 22); (match type of E with Some ?x = Some l => assert (EL : l = x) by congruence end); clear E; subst l;
    unfold rel_is_satisfied_by, blocks_is_satisfied_by, time_is_satisfied_by, checked_sub32.
  - destruct (N.leb_spec ct tt); [|lia]. eexists. split; [reflexivity|]. unfold to_seconds. rewrite N.leb_le. cbv iota; generalize (s mod 2 ^ 16). intro v. split; [intro; right; lia|intros [D|D]; [discriminate|lia]].
  - destruct (N.leb_spec ch th); [|lia]. eexists. split; [reflexivity|]. unfold sat_sub32.
    cbv iota; generalize (s mod 2 ^ 16). intro v. destruct (N.leb_spec 1 v); rewrite N.leb_le; (split; [intro; right; lia|intros [D|D]; [discriminate|lia]]).
Qed.
Print Assumptions C21_satisfied.

(** ... and for an unconfirmed coin, which would be mined in the next block too. *)
Theorem C21_satisfied_unconfirmed : forall s l tip_h tip_t, to_relative_lock_time s = Some l ->
  exists b, rel_is_satisfied_by l tip_h tip_t None None = Ok b /\
    (b = true <-> seq_lock_passed s (tip_h + 1) tip_t tip_h tip_t).
Proof.
  intros s l th tt E. rewrite to_relative_spec in E. unfold seq_lock_passed.
  destruct (N.testbit s 31); [discriminate|]. destruct (N.testbit s 22); (match type of E with Some ?x = Some l => assert (EL : l = x) by congruence end); clear E; subst l;
    unfold rel_is_satisfied_by, blocks_is_satisfied_by, time_is_satisfied_by;
    (eexists; split; [reflexivity|]); rewrite N.eqb_eq; cbv iota; generalize (s mod 2 ^ 16); intro v; (split; [intro; right; lia|intros [D|D]; [discriminate|lia]]).
Qed.
Print Assumptions C21_satisfied_unconfirmed.

(** An error exactly for a coin above the tip in the unit of the lock; the single-unit variants
    agree with the general one and refuse the other unit. *)
Theorem C21_errors : forall l tip_h tip_t mined_h mined_t,
  ((exists e, rel_is_satisfied_by l tip_h tip_t mined_h mined_t = Err e) <->
   match l with
   | RBlocks _ => exists m, mined_h = Some m /\ tip_h < m
   | RTime _ => exists m, mined_t = Some m /\ tip_t < m
   end) /\
  (forall b, rel_is_satisfied_by_height l tip_h mined_h = Ok b <->
     (exists n, l = RBlocks n) /\ rel_is_satisfied_by l tip_h tip_t mined_h mined_t = Ok b) /\
  (forall b, rel_is_satisfied_by_time l tip_t mined_t = Ok b <->
     (exists n, l = RTime n) /\ rel_is_satisfied_by l tip_h tip_t mined_h mined_t = Ok b).
Proof.
  intros l th tt mh mt. destruct l as [n|n]; cbn [rel_is_satisfied_by rel_is_satisfied_by_height rel_is_satisfied_by_time];
    unfold blocks_is_satisfied_by, time_is_satisfied_by, checked_sub32; (split; [|split]).
  - destruct mh as [m|]; [destruct (N.leb_spec m th)|]; split; try (intros (e & H0); discriminate).
    + intros (m' & A & B). inv A. lia.
    + eauto.
    + eauto.
    + intros (m' & A & B). discriminate.
  - intro b. destruct mh as [m|]; [destruct (N.leb_spec m th)|]; (split; [intro H0; first [discriminate H0 | split; [eauto|congruence]] | intros [_ H0]; first [discriminate H0|congruence]]).
  - intro b. split; [discriminate|]. intros [(k & H0) _]. discriminate.
  - destruct mt as [m|]; [destruct (N.leb_spec m tt)|]; split; try (intros (e & H0); discriminate).
    + intros (m' & A & B). inv A. lia.
    + eauto.
    + eauto.
    + intros (m' & A & B). discriminate.
  - intro b. split; [discriminate|]. intros [(k & H0) _]. discriminate.
  - intro b. destruct mt as [m|]; [destruct (N.leb_spec m tt)|]; (split; [intro H0; first [discriminate H0 | split; [eauto|congruence]] | intros [_ H0]; first [discriminate H0|congruence]]).
Qed.
Print Assumptions C21_errors.

(** Implication is sound and complete for locks of one unit, and never claimed across units. *)
Theorem C21_implied : forall a b, rel_ok a -> rel_ok b ->
  (rel_is_implied_by a b = true <->
   rel_is_same_unit a b = true /\
   forall th tt mh mt, u32 th -> u32 tt -> rel_is_satisfied_by b th tt mh mt = Ok true -> rel_is_satisfied_by a th tt mh mt = Ok true).
Proof.
  intros [a|a] [b|b] Ha Hb; cbn [rel_is_implied_by rel_is_same_unit rel_ok rel_is_satisfied_by] in *; unfold u16, u32 in *;
    try (split; [discriminate|intros [D _]; discriminate]); unfold blocks_is_satisfied_by, time_is_satisfied_by, checked_sub32, to_seconds, sat_sub32;
    rewrite N.leb_le; split.
  - intro H. split; [reflexivity|]. intros th tt [m|] _ _ _ E.
    + destruct (m <=? th); [|discriminate]. inv E. f_equal. destruct (N.leb_spec 1 a), (N.leb_spec 1 b); rewrite N.leb_le in *; lia.
    + inv E. f_equal. rewrite N.eqb_eq in *. lia.
  - intros [_ H]. destruct (N.le_gt_cases a b) as [|G]; [assumption|]. destruct (N.eq_dec b 0) as [->|].
    + specialize (H 0 0 None None ltac:(lia) ltac:(lia) eq_refl). inv H. rewrite N.eqb_eq in *. lia.
    + specialize (H (b - 1) 0 (Some 0) None ltac:(lia) ltac:(lia)). cbn in H. rewrite !N.sub_0_r in H.
      replace (0 <=? b - 1) with true in H by (symmetry; apply N.leb_le; lia).
      destruct (N.leb_spec 1 b), (N.leb_spec 1 a); try lia.
      rewrite N.leb_refl in H. specialize (H eq_refl). inv H. rewrite N.leb_le in *. lia.
  - intro H. split; [reflexivity|]. intros th tt _ [m|] _ _ E.
    + destruct (m <=? tt); [|discriminate]. inv E. f_equal. rewrite N.leb_le in *. lia.
    + inv E. f_equal. rewrite N.eqb_eq in *. lia.
  - intros [_ H]. destruct (N.le_gt_cases a b) as [|G]; [assumption|].
    specialize (H 0 (b * 512) None (Some 0) ltac:(lia) ltac:(lia)). cbn in H. rewrite !N.sub_0_r in H.
    replace (0 <=? b * 512) with true in H by (symmetry; apply N.leb_le; lia).
    rewrite N.leb_refl in H. specialize (H eq_refl). inv H. rewrite N.leb_le in *. lia.
Qed.
Print Assumptions C21_implied.

Theorem C21_implied_by_sequence : forall a s, rel_is_implied_by_sequence a s = true <->
  exists b, to_relative_lock_time s = Some b /\ rel_is_implied_by a b = true.
Proof.
  intros a s. unfold rel_is_implied_by_sequence, rel_from_sequence, rel_from_consensus.
  destruct (to_relative_lock_time s) as [b|]; split.
  - eauto.
  - intros (b' & E & I). inv E. exact I.
  - discriminate.
  - intros (b' & E & _). discriminate.
Qed.
Print Assumptions C21_implied_by_sequence.

(** Seconds convert to intervals of 512 seconds rounding down or up, and fail only when the rounded
    number does not fit 16 bits. *)
Theorem C21_seconds : forall s, u32 s ->
  (forall n, secs_floor s = Ok n <-> u16 n /\ to_seconds n <= s < to_seconds (n + 1)) /\
  (forall n, secs_ceil s = Ok n <-> u16 n /\ s <= to_seconds n /\ (n = 0 \/ to_seconds (n - 1) < s)) /\
  rel_from_secs_floor s = (match secs_floor s with Ok n => Ok (RTime n) | Err e => Err e end) /\
  rel_from_secs_ceil s = (match secs_ceil s with Ok n => Ok (RTime n) | Err e => Err e end) /\
  (forall q, seq_from_secs_floor s = Ok q <-> exists n, secs_floor s = Ok n /\ q = rel_to_sequence (RTime n)) /\
  (forall q, seq_from_secs_ceil s = Ok q <-> exists n, secs_ceil s = Ok n /\ q = rel_to_sequence (RTime n)).
Proof.
  intros s H. unfold u32 in H.
  split; [|split; [|split; [reflexivity|split; [reflexivity|]]]].
  - intro n. rewrite floor_spec by exact H. unfold u16, to_seconds. destruct (N.ltb_spec (s / 512) (2 ^ 16)); split; intro K; try discriminate; try lia.
    + inv K. lia.
    + f_equal; lia.
  - intro n. rewrite ceil_spec. unfold u16, to_seconds. destruct (N.ltb_spec ((s + 511) / 512) (2 ^ 16)); split; intro K; try discriminate; try lia.
    + inv K. lia.
    + f_equal; lia.
  - unfold seq_from_secs_floor, seq_from_secs_ceil, rel_to_sequence, seq_from_512. cbn [rel_to_consensus].
    split; intro q; [destruct (secs_floor s) as [n|e]|destruct (secs_ceil s) as [n|e]]; split; intro K;
      try discriminate; try (destruct K as (m & E & ->); inv E); try (inv K; exists n; rewrite N.lor_comm; auto); rewrite N.lor_comm; reflexivity.
Qed.
Print Assumptions C21_seconds.

(** Finality and replaceability of a sequence number (BIP125: below 0xfffffffe), and of a transaction. *)
Theorem C21_signals : forall s,
  (enables_absolute_lock_time s = true <-> s <> 2 ^ 32 - 1) /\ (seq_is_final s = true <-> s = 2 ^ 32 - 1) /\
  (is_rbf s = true <-> s < 2 ^ 32 - 2) /\
  (forall tx, is_explicitly_rbf tx = true <-> exists i, In i (tx_inputs tx) /\ ti_sequence i < 2 ^ 32 - 2) /\
  (forall tx, is_lock_time_enabled tx = true <-> exists i, In i (tx_inputs tx) /\ ti_sequence i <> 2 ^ 32 - 1) /\
  enables_absolute_lock_time ENABLE_LOCKTIME_NO_RBF = true /\ is_rbf ENABLE_LOCKTIME_NO_RBF = false /\
  enables_absolute_lock_time ENABLE_LOCKTIME_AND_RBF = true /\ is_rbf ENABLE_LOCKTIME_AND_RBF = true.
Proof.
  intro s. change (2 ^ 32 - 1) with 4294967295. change (2 ^ 32 - 2) with 4294967294.
  unfold seq_is_final, is_lock_time_enabled, is_explicitly_rbf, enables_lock_time, enables_absolute_lock_time, is_rbf,
    SEQ_MAX, ENABLE_LOCKTIME_NO_RBF, ENABLE_LOCKTIME_AND_RBF, MIN_NO_RBF. rewrite negb_involutive.
  split; [rewrite negb_true_iff; apply N.eqb_neq|]. split; [apply N.eqb_eq|]. split; [apply N.ltb_lt|].
  split; [|split; [|repeat split]].
  - intro tx. rewrite existsb_exists. split; intros (i & A & B); exists i; (split; [exact A|]).
    + rewrite N.ltb_lt in B. exact B.
    + rewrite N.ltb_lt. exact B.
  - intro tx. rewrite existsb_exists. split; intros (i & A & B); exists i; (split; [exact A|]).
    + rewrite negb_true_iff, N.eqb_neq in B. exact B.
    + rewrite negb_true_iff, N.eqb_neq. exact B.
Qed.
Print Assumptions C21_signals.

Example C21_nonvacuous : to_relative_lock_time 4194384 = Some (RTime 80) /\ to_relative_lock_time 2147483728 = None /\
  rel_is_satisfied_by (RTime 80) 800000 1700040960 (Some 799999) (Some 1700000000) = Ok true /\
  rel_is_satisfied_by (RTime 80) 800000 1700040959 (Some 799999) (Some 1700000000) = Ok false /\ rel_ok (RTime 80).
Proof. repeat split; vm_compute; reflexivity. Qed.

(** *** C40 *)
(** The median time past of 11 timestamps is their median, whatever their order. *)
Theorem C40_median : forall ts, length ts = 11%nat -> exists m, mtp_new ts = Ret m /\ median ts m /\
  (forall m', median ts m' -> m' = m) /\ (forall ts', Permutation ts ts' -> mtp_new ts' = Ret m) /\
  abs_mtp_new ts = Ret (if 500000000 <=? m then Ok m else Err (InvalidTime m)).
Proof.
  intros ts L. pose proof (Permutation_length (sort_perm ts)) as PL. unfold abs_mtp_new, mtp_new.
  destruct (nth_error (sort_unstable ts) 5) as [m|] eqn:E.
  - pose proof (mid_median ts m 5 L E) as M. exists m. split; [reflexivity|]. split; [exact M|].
    split; [intros m' M'; eapply median_unique; eauto|]. split; [|reflexivity].
    intros ts' P. replace (sort_unstable ts') with (sort_unstable ts); [rewrite E; reflexivity|].
    apply sorted_unique; [apply sort_sorted|apply sort_sorted|]. rewrite <- !sort_perm. exact P.
  - apply nth_error_None in E. lia.
Qed.
Print Assumptions C40_median.

(** A block locator asks for the tip, the ten blocks before it, then at doubling distances down to
    genesis, which is always included; it fails with the first error of the lookup. *)
Theorem C40_locator : forall H E (get : N -> result H E) tip, u32 tip -> exists hs,
  locator_heights tip hs /\ (forall hs', locator_heights tip hs' -> hs' = hs) /\ (length hs <= 43)%nat /\
  ((exists xs, Forall2 (fun h x => get h = Ok x) hs xs /\ locator_build get tip = Ret (Ok xs)) \/
   (exists a h b e, hs = a ++ h :: b /\ get h = Err e /\ Forall (fun y => exists x, get y = Ok x) a /\
      locator_build get tip = Ret (Err e))).
Proof.
  intros H E get tip Ht. destruct (build_spec H E get tip Ht) as (hs & A & L & B). exists hs. split; [exact A|].
  split; [intros hs' A'; eapply heights_unique; eauto|]. split; [exact L|]. rewrite B. destruct (mapR get hs) as [r|e] eqn:M.
  - left. exists r. split; [apply mapR_ok; exact M|reflexivity].
  - right. apply mapR_err in M. destruct M as (a & x & b & P & Q & R). exists a, x, b, e. auto.
Qed.
Print Assumptions C40_locator.

(** Height and interval arithmetic on u32: exact, reported or clamped as named, never wrapping. *)
Theorem C40_arithmetic : forall a b, u32 a -> u32 b ->
  (bh_checked_sub a b = if b <=? a then Some (a - b) else None) /\
  (bh_checked_add a b = if a + b <? 2 ^ 32 then Some (a + b) else None) /\
  bh_saturating_sub a b = N.max b a - b /\
  bh_saturating_add a b = N.min (a + b) (2 ^ 32 - 1) /\
  (bh_sub a b = if b <=? a then Ret (a - b) else Panic) /\
  (bh_add a b = if a + b <? 2 ^ 32 then Ret (a + b) else Panic) /\
  (interval_to_blocks a = if a <? 2 ^ 16 then Ok (blocks_to_interval a) else Err a) /\
  (u16 a -> secs_to_interval a = 512 * a /\ secs_floor (secs_to_interval a) = Ok a /\ secs_ceil (secs_to_interval a) = Ok a).
Proof.
  intros a b Ha Hb. unfold u32 in *. split; [reflexivity|]. split; [reflexivity|].
  split; [unfold bh_saturating_sub, sat_sub32; destruct (N.leb_spec b a); lia|].
  split; [unfold bh_saturating_add, sat_add32, U32M; destruct (N.ltb_spec (a + b) 4294967296); lia|].
  split; [reflexivity|]. split; [reflexivity|]. split; [reflexivity|]. intro Hu. unfold secs_to_interval, to_seconds. split; [lia|].
  unfold u16 in Hu. rewrite floor_spec by (unfold u32; lia). rewrite ceil_spec.
  replace (a * 512 / 512) with a by lia. replace ((a * 512 + 511) / 512) with a by lia.
  destruct (N.ltb_spec a (2 ^ 16)); [auto|lia].
Qed.
Print Assumptions C40_arithmetic.

Theorem C40_sum : forall l, interval_sum l = if fold_right N.add 0 l <? 2 ^ 32 then Ret (fold_right N.add 0 l) else Panic.
Proof. intro l. unfold interval_sum. rewrite interval_sum_acc by reflexivity. reflexivity. Qed.
Print Assumptions C40_sum.

Example C40_nonvacuous : mtp_new [9; 1; 8; 2; 7; 3; 6; 4; 5; 5; 5] = Ret 5 /\
  locator_build (fun h => Ok (E := unit) h) 30 = Ret (Ok [30; 29; 28; 27; 26; 25; 24; 23; 22; 21; 20; 19; 17; 13; 5; 0]).
Proof. split; reflexivity. Qed.

(** The two units exclude each other and no lock time has neither. *)
Theorem C20_units : forall n l, u32 n -> abs_from_consensus n = Ret l ->
  (abs_is_block_height l = true <-> n < 500000000) /\ (abs_is_block_time l = true <-> 500000000 <= n).
Proof.
  intros n l Hn E. destruct (proj1 C20_bijection n Hn) as (l' & E' & K & V & B). assert (l' = l) by congruence. subst l'. split; [exact B|].
  unfold abs_is_block_time. destruct (abs_is_block_height l); cbn [negb]; split; intro H; try discriminate; auto; [|].
  - destruct B as [B _]. specialize (B eq_refl). lia.
  - destruct (N.ltb_spec n 500000000) as [L|L]; [|exact L]. destruct B as [_ B]. specialize (B L). discriminate.
Qed.
Print Assumptions C20_units.
