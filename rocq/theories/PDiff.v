(** C70: the difficulty as a floating point number. *)
From Verif Require Import Base MTx MLock MU256 SU256 LU256 LU256P MPow LPow PPow MFloat SFloat LFloat MDiff SDiff LDiff.
Local Open Scope N_scope.

Lemma fval_units : forall m s, LDiff.fval (m, s) = units m s.
Proof. reflexivity. Qed.
(** ** Every target but zero gives a finite number, within 2^-51 of the exact ratio (relatively); zero panics. *)
Theorem C70_accurate : forall t max, u256_ok t -> u256_ok max ->
  (value t = 0 -> difficulty_float_with_max t max = Panic) /\
  (value t <> 0 -> exists m s, difficulty_float_with_max t max = Ret (Fin false m s) /\ double m s /\
    (Z.of_N (2 ^ 51) * away (value max) (value t) m s <= Z.of_N (value max * 2 ^ 1074))%Z).
Proof.
  intros t max W WM. apply ok_wf in W, WM. rewrite !value_val. split.
  - intro Z. unfold difficulty_float_with_max. cbv zeta. rewrite to_inner_id, zero_of, eqb_val, val_of, Z by (auto; apply wf_of; reflexivity). reflexivity.
  - intro NZ. destruct (difficulty_eq t max W WM NZ) as (m & s & E & D & Q). exists m, s. split; [exact E|]. split; [exact D|].
    pose proof (quotient_close (val max) (val t)) as C. rewrite Q, fval_units in C. unfold away. fold UNITS.
    specialize (C ltac:(lia) (val_lt _ WM) (val_lt _ W)). rewrite <- Z.abs_opp, Z.opp_sub_distr, Z.add_comm. exact C.
Qed.
(** ** If both targets have at most 53 significant bits, it is the f64 nearest to the ratio ... *)
Theorem C70_nearest : forall t max, u256_ok t -> u256_ok max -> value t <> 0 -> short (value t) -> short (value max) ->
  exists m s, difficulty_float_with_max t max = Ret (Fin false m s) /\ nearest_to (value max) (value t) m s.
Proof.
  intros t max W WM. apply ok_wf in W, WM. rewrite !value_val. intros NZ ST SM.
  destruct (difficulty_eq t max W WM NZ) as (m & s & E & D & Q). exists m, s. split; [exact E|]. split; [exact D|].
  unfold quotient in Q. rewrite !fl_short in Q by auto. pose proof UNITS_pos as UP.
  rewrite (rfin_ratio _ _ (val max * UNITS) (val t)) in Q by (try lia; apply N.mul_pos_pos; lia).
  intros m' s' D' NE. apply double_norm in D' as [NM _].
  assert (P : 0 < val t) by lia. destruct (strong _ _ _ _ m' s' P Q NM NE) as [X|(X & X2 & _)]; rewrite !offs_away; [left|right]; auto.
Qed.
(** ... and next to the whole number that [difficulty_with_max] gives, when that is below 2^53. *)
Theorem C70_whole : forall t max d, u256_ok t -> u256_ok max -> value t <> 0 -> short (value t) -> short (value max) ->
  difficulty_with_max t max = Ret d -> d < 2 ^ 53 - 1 ->
  exists m s, difficulty_float_with_max t max = Ret (Fin false m s) /\ d * 2 ^ 1074 <= units m s <= (d + 1) * 2 ^ 1074.
Proof.
  intros t max d W WM NZ ST SM E L. destruct (C25_difficulty t max W WM) as (_ & C & _). rewrite (C NZ) in E. injection E as E. clear C.
  assert (ED : d = value max / value t).
  { subst d. apply N.min_l. change (2 ^ 53 - 1) with 9007199254740991 in L. change (2 ^ 128 - 1) with 340282366920938463463374607431768211455 in *. lia. }
  clear E. apply ok_wf in W, WM. rewrite !value_val in *. destruct (difficulty_eq t max W WM NZ) as (m & s & E & D & Q). exists m, s. split; [exact E|].
  unfold quotient in Q. rewrite !fl_short in Q by auto. pose proof UNITS_pos as UP.
  rewrite (rfin_ratio _ _ (val max * UNITS) (val t)) in Q by (try lia; apply N.mul_pos_pos; lia).
  change (2 ^ 1074) with UNITS. rewrite <- fval_units, <- Q. assert (P : 0 < val t) by lia.
  assert (B : d * val t <= val max < (d + 1) * val t).
  { change (value t) with (val t) in ED. clear -ED NZ. revert ED NZ. generalize (val max) (val t). intros a b -> NZ. pose proof (N.div_mod' a b). pose proof (N.mod_lt a b NZ).
    rewrite N.mul_add_distr_r, N.mul_1_l, (N.mul_comm (a / b)). lia. }
  assert (S : forall k, k < 2 ^ 53 -> k * UNITS = LDiff.fval (rfin (k * UNITS) 1)).
  { intros k K. symmetry. apply rfin_short. exists k, 0. split; [rewrite N.pow_0_r; lia|exact K]. }
  change (2 ^ 53 - 1) with 9007199254740991 in L. change (2 ^ 53) with 9007199254740992 in S.
  rewrite (S d), (S (d + 1)) by lia. split; apply rfin_mono; try lia.
  - replace (d * UNITS * val t) with (d * val t * UNITS) by lia. rewrite N.mul_1_r. apply N.mul_le_mono_r. lia.
  - rewrite N.mul_1_r. replace ((d + 1) * UNITS * val t) with ((d + 1) * val t * UNITS) by lia. apply N.mul_le_mono_r. lia.
Qed.
(** ** A smaller target never looks easier, nor does a larger maximum. *)
Theorem C70_monotone : forall t max t' max' m s m' s', u256_ok t -> u256_ok max -> u256_ok t' -> u256_ok max' ->
  value t' <= value t -> value max <= value max' ->
  difficulty_float_with_max t max = Ret (Fin false m s) -> difficulty_float_with_max t' max' = Ret (Fin false m' s') ->
  units m s <= units m' s'.
Proof.
  intros t max t' max' m s m' s' W WM W' WM' L LM E E'.
  assert (NZ : forall t max x, u256_ok t -> u256_ok max -> difficulty_float_with_max t max = Ret x -> value t <> 0).
  { intros u v x A B X Z. destruct (C70_accurate u v A B) as [H _]. rewrite (H Z) in X. discriminate. }
  pose proof (NZ _ _ _ W WM E) as N1. pose proof (NZ _ _ _ W' WM' E') as N2. clear NZ. apply ok_wf in W, WM, W', WM'. rewrite !value_val in *.
  destruct (difficulty_eq t max W WM N1) as (a & b & X & _ & Q). rewrite X in E. injection E as -> ->.
  destruct (difficulty_eq t' max' W' WM' N2) as (a' & b' & X' & _ & Q'). rewrite X' in E'. injection E' as -> ->.
  rewrite <- !fval_units, <- Q, <- Q'. apply quotient_mono; auto using val_lt; lia.
Qed.
(** ** The easiest target has difficulty one, exactly. *)
Theorem C70_one : forall t, u256_ok t -> value t <> 0 -> difficulty_float_with_max t t = Ret one.
Proof.
  intros t W. apply ok_wf in W. rewrite value_val. intro NZ. destruct (difficulty_eq t t W W NZ) as (m & s & E & _ & Q). rewrite E. unfold quotient in Q.
  pose proof UNITS_pos. destruct (fl_bounds (val t)) as [B _]; [lia|now apply val_lt|].
  rewrite (rfin_ratio _ _ (2 ^ 52 * 2 ^ 1022 * 1) 1) in Q; [|lia|lia|rewrite !N.mul_1_r, N.mul_comm; reflexivity].
  rewrite rfin_self in Q; [injection Q as <- <-; reflexivity|lia|]. split; [reflexivity|right; discriminate].
Qed.

(** ** Headers: every target they can hold has 24 significant bits, and so have the limits of the networks. *)
Lemma compact_short : forall c t, from_compact c = Ret t -> u256_ok t /\ short (value t).
Proof.
  intros c t E. rewrite from_compact_val in E. injection E as <-. split; [apply ok_wf, wf_of, fval_lt|]. rewrite value_val, val_of.
  unfold LPow.fval. destruct (_ || _); [exists 0, 0; split; reflexivity|].
  exists (fmant c), (8 * (c / 2 ^ 24 - 3)). split; [f_equal; rewrite N.pow_mul_r; reflexivity|]. pose proof (fmant_lt c). change (2 ^ 24) with 16777216 in *. change (2 ^ 53) with 9007199254740992. lia.
Qed.
Theorem C70_header : forall h n t, header_target h = Ret t ->
  (value t = 0 -> header_difficulty_float h (params_new n) = Panic) /\
  (value t <> 0 -> exists m s, header_difficulty_float h (params_new n) = Ret (Fin false m s) /\
    nearest_to (value (p_max_attainable_target (params_new n))) (value t) m s).
Proof.
  intros h n t E. unfold header_difficulty_float. rewrite E. cbn [rbind]. unfold difficulty_float.
  destruct (C23_limits n) as (_ & c & _ & _ & _ & EM). apply compact_short in EM as [WM SM]. apply compact_short in E as [W S]. split.
  - now apply C70_accurate.
  - intro NZ. now apply C70_nearest.
Qed.

(** ** Examples: the numbers of the tests, and one that needs rounding *)
Definition f_int (v : N) : f64 := round_f64 false v 1.
Example C70_ex : forall n, In n [(0x1d00ffff, 1); (0x1c00ffff, 256); (0x1b00ffff, 65536)] ->
  rbind (from_compact (fst n)) (fun t => difficulty_float t (params_new Bitcoin)) = Ret (f_int (snd n)).
Proof. intros n [<-|[<-|[<-|[]]]]; vm_compute; reflexivity. Qed.
Example C70_ex_round : rbind (from_compact 0x1a00f3a2) (fun t => difficulty_float t (params_new Bitcoin)) = Ret (round_f64 false 17628585065897066 1000000000).
Proof. vm_compute. reflexivity. Qed.
Example C70_ex_hyp : u256_ok U_MAX /\ value U_MAX <> 0 /\ short (value (U 0 (2 ^ 90 * 3))) /\ u256_ok (U 0 (2 ^ 90 * 3)) /\ ~ short (2 ^ 53 + 1).
Proof.
  split; [split; reflexivity|]. split; [discriminate|]. split; [exists 3, 90; split; reflexivity|]. split; [split; reflexivity|].
  intros (w & z & E & L). destruct (N.eq_dec z 0) as [->|NZ]; [rewrite N.pow_0_r in E; lia|]. assert (X : N.even (2 ^ 53 + 1) = true) by (rewrite E; now apply even_pow; lia). discriminate.
Qed.
Print Assumptions C70_accurate. Print Assumptions C70_nearest. Print Assumptions C70_whole. Print Assumptions C70_monotone. Print Assumptions C70_one. Print Assumptions C70_header.
