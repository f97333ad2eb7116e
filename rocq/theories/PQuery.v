(** C77: what errors, versions and intervals say about ranges. *)
From Coq Require Import String.
From Verif Require Import Base MAmount SAmount MAmountText MText LText MLock MQuery.
Local Open Scope Z_scope.

(** * Amounts out of range *)
(** What is refused is refused for the reason given: too large or too small for the type, and never both. *)
Theorem C77_direction : forall e,
  (forall s, is_u64 s -> amount_from_sat s = Err e -> is_above_max e = true /\ is_below_min e = false /\ s > 21 * 10 ^ 14) /\
  (forall s, is_i64 s -> signed_from_sat s = Err e ->
     (is_above_max e = true <-> s > 21 * 10 ^ 14) /\ (is_below_min e = true <-> s < - 21 * 10 ^ 14)) /\
  (forall a, valid_signed a -> signed_to_unsigned a = Ret (Err e) -> is_below_min e = true /\ is_above_max e = false /\ a < 0).
Proof.
  intros e. unfold amount_from_sat, signed_from_sat, signed_to_unsigned, AMOUNT_MAX, SIGNED_MIN, is_above_max, is_below_min. repeat split.
  - destruct (Z.ltb_spec (21000000 * 100000000) s); [|discriminate]. injection H0 as <-. reflexivity.
  - destruct (Z.ltb_spec (21000000 * 100000000) s); [|discriminate]. injection H0 as <-. reflexivity.
  - destruct (Z.ltb_spec (21000000 * 100000000) s); [|discriminate]. lia.
  - intros X. destruct (Z.ltb_spec s (-21000000 * 100000000)); [injection H0 as <-; discriminate X|]. destruct (Z.ltb_spec (21000000 * 100000000) s); [lia|discriminate].
  - intros X. destruct (Z.ltb_spec s (-21000000 * 100000000)); [lia|]. destruct (Z.ltb_spec (21000000 * 100000000) s); [|discriminate]. injection H0 as <-. reflexivity.
  - intros X. destruct (Z.ltb_spec s (-21000000 * 100000000)); [lia|]. destruct (Z.ltb_spec (21000000 * 100000000) s); [|discriminate]. injection H0 as <-. discriminate X.
  - intros X. destruct (Z.ltb_spec s (-21000000 * 100000000)); [|lia]. injection H0 as <-. reflexivity.
  - destruct (Z.ltb_spec a 0); [injection H0 as <-; reflexivity|]. destruct (amount_from_sat a); discriminate.
  - destruct (Z.ltb_spec a 0); [injection H0 as <-; reflexivity|]. destruct (amount_from_sat a); discriminate.
  - destruct (Z.ltb_spec a 0); [assumption|]. destruct (amount_from_sat a); discriminate.
Qed.

(** The range an error gives as a hint holds every value of the type, but it is the range of the machine integer, not that of
    amounts: every value that was refused for being too large, or too small for a signed amount, lies inside it. *)
Theorem C77_valid_range : forall e s, (amount_from_sat s = Err e -> 0 <= s -> valid_range e = (0, 2 ^ 64 - 1)) /\
  (signed_from_sat s = Err e -> valid_range e = (- 2 ^ 63, 2 ^ 63 - 1)).
Proof.
  intros e s. unfold amount_from_sat, signed_from_sat, valid_range. split.
  - destruct (_ <? s); [|discriminate]. intros H _. injection H as <-. reflexivity.
  - destruct (s <? _); [|destruct (_ <? s); [|discriminate]]; intros H; injection H as <-; reflexivity.
Qed.
Theorem C77_valid_range_refuted : forall e s,
  (is_u64 s -> amount_from_sat s = Err e -> fst (valid_range e) <= s <= snd (valid_range e)) /\
  (is_i64 s -> signed_from_sat s = Err e -> fst (valid_range e) <= s <= snd (valid_range e)).
Proof.
  intros e s. destruct (C77_valid_range e s) as [A B]. split; intros R H.
  - unfold is_u64 in R. rewrite A by (auto; lia). cbn [fst snd]. lia.
  - unfold is_i64 in R. rewrite B by auto. cbn [fst snd]. lia.
Qed.
(** So is the message: it says that the amount exceeds a bound that no machine integer exceeds. *)
Theorem C77_message_refuted : forall e s, (is_u64 s -> amount_from_sat s = Err e ->
    range_message e = (lit "the amount is greater than 18446744073709551615")%list /\ s <= 18446744073709551615) /\
  (is_i64 s -> signed_from_sat s = Err e ->
    (s > 0 -> range_message e = (lit "the amount is greater than 9223372036854775807")%list /\ s <= 9223372036854775807) /\
    (s < 0 -> range_message e = (lit "the amount is less than -9223372036854775808")%list /\ s >= - 9223372036854775808)).
Proof.
  intros e s. unfold amount_from_sat, signed_from_sat, AMOUNT_MAX, SIGNED_MIN. split; intros R.
  - unfold is_u64 in R. destruct (_ <? s); [|discriminate]. intros H. injection H as <-. split; [vm_compute; reflexivity|lia].
  - unfold is_i64 in R. destruct (Z.ltb_spec s (-21000000 * 100000000)) as [L|L]; [|destruct (Z.ltb_spec (21000000 * 100000000) s) as [G|G]; [|discriminate]];
      intros H; injection H as <-; (split; [intros P|intros P]); try lia; (split; [vm_compute; reflexivity|lia]).
Qed.
Example C77_amount_ex : exists e, amount_from_sat 2100000000000001 = Err e /\ valid_range e = (0, 18446744073709551615) /\
  exists e', signed_from_sat (-2100000000000001) = Err e' /\ is_below_min e' = true /\ is_above_max e' = false.
Proof. eexists. split; [reflexivity|]. split; [reflexivity|]. eexists. split; [reflexivity|]. split; reflexivity. Qed.

Local Open Scope N_scope.
(** * Transaction versions: 1, 2 and 3 are standard, nothing else is. *)
Theorem C77_version : forall v, version_is_standard v = true <-> 1 <= v <= 3.
Proof. intros v. unfold version_is_standard, V_ONE, V_TWO, V_THREE. rewrite !orb_true_iff, !N.eqb_eq. lia. Qed.

(** * Intervals between median times *)
(** A coin confirmed when the median time past was [mined] and a chain whose median time past is [tip]: the age of the coin, rounded
    down, is the longest relative lock it satisfies; when it is too large for a lock, every lock is satisfied.  Rounded up,
    it is the shortest lock that is at least the age: that one is satisfied only if the age is an exact multiple of 512 seconds. *)
Theorem C77_interval : forall tip mined, tip < 2 ^ 32 -> mined <= tip -> exists age, mtp_checked_sub tip mined = Some age /\
  match to_relative_mtp_interval_floor age with
  | Ok k => k < 2 ^ 16 /\ forall n, n < 2 ^ 16 -> time_is_satisfied_by n tip (Some mined) = Ok (n <=? k)
  | Err a => a = age /\ forall n, n < 2 ^ 16 -> time_is_satisfied_by n tip (Some mined) = Ok true
  end /\
  match to_relative_mtp_interval_ceil age with
  | Ok k => k < 2 ^ 16 /\ (forall n, n < 2 ^ 16 -> (n < k -> time_is_satisfied_by n tip (Some mined) = Ok true) /\
                                                   (k < n -> time_is_satisfied_by n tip (Some mined) = Ok false)) /\
            time_is_satisfied_by k tip (Some mined) = Ok (age mod 512 =? 0)
  | Err a => a = age /\ forall n, n < 2 ^ 16 -> time_is_satisfied_by n tip (Some mined) = Ok true
  end.
Proof.
  intros tip mined T M. exists (tip - mined). unfold mtp_checked_sub, checked_sub32, time_is_satisfied_by, to_relative_mtp_interval_floor, to_relative_mtp_interval_ceil, secs_floor, secs_ceil, div_ceil32, to_seconds, checked_sub32, U16M.
  destruct (N.leb_spec mined tip); [|lia]. split; [reflexivity|]. set (age := tip - mined). assert (A : age < 2 ^ 32) by lia. clearbody age. clear T M H tip mined.
  pose proof (N.div_mod age 512 ltac:(discriminate)) as D. pose proof (N.mod_lt age 512 ltac:(discriminate)) as R. set (q := age / 512) in *. set (r := age mod 512) in *. clearbody q r.
  change (2 ^ 16) with 65536 in *. split.
  - destruct (N.leb_spec q (65536 - 1)).
    + rewrite N.mod_small by lia. split; [lia|]. intros n Hn. f_equal. destruct (N.leb_spec (n * 512) age), (N.leb_spec n q); auto; lia.
    + split; [reflexivity|]. intros n Hn. f_equal. apply N.leb_le. lia.
  - destruct (N.leb_spec age ((65536 - 1) * 512)).
    + destruct (N.eqb_spec r 0) as [Z|Z].
      * rewrite N.mod_small by lia. split; [lia|]. split; [intros n Hn; split; intros X; f_equal; [apply N.leb_le|apply N.leb_gt]; lia|]. f_equal. apply N.leb_le. lia.
      * rewrite N.mod_small by lia. split; [lia|]. split; [intros n Hn; split; intros X; f_equal; [apply N.leb_le|apply N.leb_gt]; lia|]. f_equal. apply N.leb_gt. lia.
    + split; [reflexivity|]. intros n Hn. f_equal. apply N.leb_le. lia.
Qed.
Example C77_interval_ex : to_relative_mtp_interval_floor 1000 = Ok 1 /\ to_relative_mtp_interval_ceil 1000 = Ok 2 /\
  time_is_satisfied_by 1 1500001000 (Some 1500000000) = Ok true /\ time_is_satisfied_by 2 1500001000 (Some 1500000000) = Ok false /\
  to_relative_mtp_interval_floor 33554432 = Err 33554432.
Proof. repeat split; reflexivity. Qed.
Print Assumptions C77_direction.
Print Assumptions C77_valid_range.
Print Assumptions C77_valid_range_refuted.
Print Assumptions C77_message_refuted.
Print Assumptions C77_version.
Print Assumptions C77_interval.
