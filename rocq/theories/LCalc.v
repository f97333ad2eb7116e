(** Lemmas for C65. *)
From Verif Require Import Base MAmount SAmount SCalc MCalc LAmount LFee.
From Coq Require Import Lia ZArith.
Local Open Scope Z_scope.

Ltac consts := change (2 ^ 64) with 18446744073709551616 in *; change (2 ^ 63) with 9223372036854775808 in *;
  change (- (9223372036854775808)) with (-9223372036854775808) in *;
  change U64_MAX with 18446744073709551615 in *; change AMOUNT_MAX with 2100000000000000 in *;
  change SIGNED_MIN with (-2100000000000000) in *; change SUPPLY with 2100000000000000 in *;
  change I64_MIN with (-9223372036854775808) in *; change I64_MAX with 9223372036854775807 in *.
Ltac rng := cbv [in_range mty scalar qty valid_or_error amount_from_sat signed_from_sat ok_opt rbind] in *; consts.
Ltac cases := repeat match goal with |- context [if ?c then _ else _] => destruct c eqn:? end.
Ltac fin := rng; cases; try reflexivity; try (exfalso; lia); try (f_equal; lia).

Lemma add_p_spec m x y : in_range (mty m) x = true -> in_range (mty m) y = true ->
  add_p m x y = Ret (if in_range (mty m) (x + y) then Valid (x + y) else Error OpAdd).
Proof.
  intros Hx Hy. destruct m; cbv [add_p signed_add amount_add signed_checked_add amount_checked_add i64_checked_add i64_in]; fin.
Qed.

Lemma sub_p_spec m x y : in_range (mty m) x = true -> in_range (mty m) y = true ->
  sub_p m x y = if in_range (mty m) (x - y) then Valid (x - y) else Error OpSub.
Proof.
  intros Hx Hy. destruct m; cbv [sub_p signed_sub amount_sub signed_checked_sub amount_checked_sub i64_checked_sub u64_checked_sub i64_in]; fin.
Qed.

Lemma mul_p_spec m x k : in_range (mty m) x = true -> in_range (scalar m) k = true ->
  mul_p m x k = if in_range (mty m) (x * k) then Valid (x * k) else Error OpMul.
Proof.
  intros Hx Hy. destruct m; cbv [mul_p signed_mul amount_mul signed_checked_mul amount_checked_mul i64_checked_mul u64_checked_mul i64_in].
  - fin.
  - assert (0 <= x * k) by (rng; nia). fin.
Qed.

Lemma quot_range m x k : in_range (mty m) x = true -> in_range (scalar m) k = true -> k <> 0 ->
  in_range (mty m) (Z.quot x k) = true.
Proof.
  intros Hx Hk Hz. pose proof (quot_abs x k Hz). destruct m; rng; [lia|].
  assert (0 <= x ÷ k) by (apply Z.quot_pos; lia). lia.
Qed.
Lemma rem_range m x k : in_range (mty m) x = true -> in_range (scalar m) k = true -> k <> 0 ->
  in_range (mty m) (Z.rem x k) = true.
Proof.
  intros Hx Hk Hz. pose proof (rem_abs x k Hz). destruct m; rng; [lia|].
  assert (0 <= Z.rem x k) by (apply Z.rem_nonneg; lia). lia.
Qed.

Lemma div_p_spec m x k : in_range (mty m) x = true -> in_range (scalar m) k = true ->
  div_p m x k = if k =? 0 then Error OpDiv else Valid (Z.quot x k).
Proof.
  intros Hx Hk. destruct (Z.eqb_spec k 0) as [->|Hz]; [destruct m; reflexivity|].
  pose proof (quot_range m x k Hx Hk Hz) as Q.
  destruct m; cbv [div_p signed_div amount_div signed_checked_div amount_checked_div i64_checked_div u64_checked_div].
  - fin.
  - rewrite Z.quot_div_nonneg in * by (rng; lia). fin.
Qed.
Lemma rem_p_spec m x k : in_range (mty m) x = true -> in_range (scalar m) k = true ->
  rem_p m x k = if k =? 0 then Error OpRem else Valid (Z.rem x k).
Proof.
  intros Hx Hk. destruct (Z.eqb_spec k 0) as [->|Hz]; [destruct m; reflexivity|].
  pose proof (rem_range m x k Hx Hk Hz) as Q.
  destruct m; cbv [rem_p signed_rem amount_rem signed_checked_rem amount_checked_rem i64_checked_rem u64_checked_rem].
  - fin.
  - rewrite Z.rem_mod_nonneg in * by (rng; lia). fin.
Qed.
Lemma m_ratio_spec m x y : in_range (mty m) x = true -> in_range (mty m) y = true ->
  m_ratio m x y = if y =? 0 then Error OpDiv else Valid (Z.quot x y).
Proof.
  intros Hx Hy. destruct (Z.eqb_spec y 0) as [->|Hz]; [destruct m; reflexivity|].
  destruct m; cbv [m_ratio i64_checked_div u64_checked_div].
  - fin.
  - rewrite Z.quot_div_nonneg by (rng; lia). fin.
Qed.
Lemma ratio_range m x y : in_range (mty m) x = true -> in_range (mty m) y = true -> y <> 0 ->
  in_range (scalar m) (Z.quot x y) = true.
Proof.
  intros Hx Hy Hz. pose proof (quot_abs x y Hz). destruct m; rng; [lia|].
  assert (0 <= x ÷ y) by (apply Z.quot_pos; lia). lia.
Qed.
Lemma div_nonzero_spec m x k : in_range (mty m) x = true -> in_range (scalar m) k = true -> k <> 0 ->
  m_div_nonzero_p m x k = Ret (Z.quot x k).
Proof.
  intros Hx Hk Hz. pose proof (quot_range m x k Hx Hk Hz) as Q.
  destruct m; cbv [m_div_nonzero_p signed_div_nonzero amount_div_nonzero].
  - fin.
  - rewrite Z.quot_div_nonneg in * by (rng; lia). fin.
Qed.
Lemma neg_spec m x : in_range (mty m) x = true -> m_neg_p m x = Ret (- x) /\ in_range TS (- x) = true.
Proof.
  intros Hx. split; [|destruct m; rng; lia].
  destruct m; cbv [m_neg_p amount_neg amount_to_signed signed_neg].
  - fin.
  - assert (E : wrap_i64 x = x). { unfold wrap_i64. rewrite Z.mod_small by (rng; lia). lia. }
    rewrite E. fin.
Qed.

Lemma cdiv_ceil n d : 0 <= n -> 0 < d -> u64_div_ceil n d = cdiv n d.
Proof.
  intros Hn Hd. apply (ceil_unique n d); [exact Hd | apply div_ceil_spec; assumption |].
  unfold is_ceil_div, cdiv. pose proof (Z.div_mod (- n) d ltac:(lia)). pose proof (Z.mod_pos_bound (- n) d Hd). nia.
Qed.
Lemma cdiv_nonneg n d : 0 <= n -> 0 < d -> 0 <= cdiv n d.
Proof. intros. rewrite <- cdiv_ceil by assumption. apply div_ceil_nonneg; assumption. Qed.
Lemma cdiv_le n d : 0 <= n -> 0 < d -> cdiv n d <= n.
Proof.
  intros Hn Hd. rewrite <- cdiv_ceil by assumption. pose proof (div_ceil_spec n d Hn Hd) as H. unfold is_ceil_div in H. nia.
Qed.

Lemma fee_spec r w : in_range TR r = true -> in_range TW w = true ->
  feerate_mul_by_weight r w = if in_range TA (fee_for r w) then Valid (fee_for r w) else Error OpMul.
Proof.
  intros Hr Hw. unfold feerate_mul_by_weight, feerate_to_kwu_ceil, fee_for, u64_checked_mul.
  assert (Hr0 : 0 <= r) by (rng; lia). assert (Hw0 : 0 <= w) by (rng; lia).
  rewrite cdiv_ceil by lia. set (k := cdiv r 4000). assert (Hk : 0 <= k) by (apply cdiv_nonneg; lia).
  assert (P : 0 <= k * w) by nia. set (p := k * w) in *. clearbody p. clear - P.
  assert (C : is_ceil_div p 1000 (cdiv p 1000)) by (rewrite <- cdiv_ceil by lia; apply div_ceil_spec; lia).
  unfold is_ceil_div in C. destruct (p <=? U64_MAX) eqn:E.
  - rewrite cdiv_ceil by lia. set (f := cdiv p 1000) in *. clearbody f. fin.
  - set (f := cdiv p 1000) in *. clearbody f. fin.
Qed.

Lemma divw_spec x w : in_range TA x = true -> in_range TW w = true ->
  amount_div_by_weight_floor x w =
  if w =? 0 then Error OpDiv else if in_range TA (4000 * (1000 * x / w)) then Valid (4000 * (1000 * x / w)) else Error OpMul.
Proof.
  intros Hx Hw. unfold amount_div_by_weight_floor, feerate_from_per_kwu, amount_checked_mul, u64_checked_mul, u64_checked_div.
  destruct (x * 1000 <=? U64_MAX) eqn:E; [|rng; exfalso; lia].
  destruct (Z.eqb_spec w 0) as [->|Hz]; [reflexivity|].
  replace (x * 1000) with (1000 * x) by lia.
  assert (Hq : 0 <= 1000 * x / w) by (apply Z.div_pos; rng; lia).
  set (q := 1000 * x / w) in *. clearbody q. fin.
Qed.

Lemma divr_spec x r : in_range TA x = true -> in_range TR r = true ->
  amount_div_by_fee_rate_floor x r = Ret (if r =? 0 then Error OpDiv else Valid (1000 * x / cdiv r 4000)).
Proof.
  intros Hx Hr. unfold amount_div_by_fee_rate_floor, u64_mul, feerate_to_kwu_ceil.
  destruct (x * 1000 <=? U64_MAX) eqn:E; [|rng; exfalso; lia]. cbn [rbind].
  assert (Hr0 : 0 <= r) by (rng; lia). rewrite cdiv_ceil by lia.
  assert (C : is_ceil_div r 4000 (cdiv r 4000)) by (rewrite <- cdiv_ceil by lia; apply div_ceil_spec; lia).
  unfold is_ceil_div in C. replace (x * 1000) with (1000 * x) by lia. unfold u64_checked_div, valid_or_error.
  set (k := cdiv r 4000) in *. clearbody k.
  destruct (Z.eqb_spec k 0), (Z.eqb_spec r 0); try reflexivity; exfalso; lia.
Qed.
Lemma divr_range x r : in_range TA x = true -> in_range TR r = true -> r <> 0 -> in_range TW (1000 * x / cdiv r 4000) = true.
Proof.
  intros Hx Hr Hz. assert (Hr0 : 0 <= r) by (rng; lia).
  assert (C : is_ceil_div r 4000 (cdiv r 4000)) by (rewrite <- cdiv_ceil by lia; apply div_ceil_spec; lia).
  unfold is_ceil_div in C. set (k := cdiv r 4000) in *. clearbody k.
  assert (0 <= 1000 * x / k) by (apply Z.div_pos; rng; lia).
  assert (1000 * x / k <= 1000 * x) by (apply Z.div_le_upper_bound; rng; nia). rng; lia.
Qed.

Lemma u64_range_div x y : 0 <= x < 2 ^ 64 -> 0 < y -> 0 <= x / y < 2 ^ 64.
Proof.
  intros Hx Hy. assert (0 <= x / y) by (apply Z.div_pos; lia).
  assert (x / y <= x) by (apply Z.div_le_upper_bound; nia). lia.
Qed.
Lemma u64_range_mod x y : 0 <= x < 2 ^ 64 -> 0 < y -> 0 <= x mod y < 2 ^ 64.
Proof.
  intros Hx Hy. pose proof (Z.mod_pos_bound x y Hy). assert (x mod y <= x) by (apply Z.mod_le; lia). lia.
Qed.

(** ** The invariant of a run: value in range, or an error satisfying [P], or a panic. *)
Definition inj (a : bool) (z : Z) : den a := match a with true => Valid z | false => z end.
Inductive Good (P : math_op -> Prop) (t : ty) : forall a, outcome -> rust (den a) -> Prop :=
| GV a z : in_range t z = true -> Good P t a (Value z) (Ret (inj a z))
| GF op : P op -> Good P t true Failed (Ret (Error op))
| GC a : Good P t a Crashed Panic.

Lemma Good_case P t a o r : Good P t a o r ->
  match a return rust (den a) -> Prop with
  | false => fun r => (exists z, o = Value z /\ r = Ret z /\ in_range t z = true) \/ (o = Crashed /\ r = Panic)
  | true => fun r => (exists z, o = Value z /\ r = Ret (Valid z) /\ in_range t z = true) \/
      (exists op, o = Failed /\ r = Ret (Error op) /\ P op) \/ (o = Crashed /\ r = Panic)
  end r.
Proof.
  intros H. destruct H as [a z Hz|op Hp|a].
  - destruct a; left; exists z; auto.
  - right; left. exists op; auto.
  - destruct a; auto.
Qed.
Definition Good_false P t o r := Good_case P t false o r.
Definition Good_true P t o r := Good_case P t true o r.

(** The reported operation. *)
Definition sign_of (op : math_op) : option sign :=
  match op with OpAdd => Some Plus | OpSub => Some Minus | OpMul => Some Times | OpDiv => Some Over | OpRem => Some Modulo | OpNeg => None end.
Definition blames {a t} (e : calc a t) (op : math_op) : Prop :=
  (exists s, sign_of op = Some s /\ In s (failing e)) /\ (is_div_by_zero op = true -> divides_by_zero e).

Ltac good H :=
  first [ apply Good_false in H; cbv beta iota in H; destruct H as [(? & -> & -> & ?)|(-> & ->)]
        | apply Good_true in H; cbv beta iota in H; destruct H as [(? & -> & -> & ?)|[(? & -> & -> & (? & ? & ?) & ?)|(-> & ->)]] ].

Ltac gen H e := generalize dependent (run e); generalize dependent (exact e); intros ? ? H.
Ltac start := unfold blames in *; cbn [run exact failing divides_by_zero].
Ltac simp := cbn [rbind with1 with2 when_failed app fit fit_or_crash nor_then nor_map_r nor_and_then nor_unwrap nor_unwrap_or
  m_add m_sub m_add_assign m_add_assign_p m_sub_assign m_sub_assign_p m_mul m_div m_rem m_div_nonzero m_neg add_pr add_rr
  rate_mul weight_mul amount_div_weight amount_div_rate q_add_assign q_add_assign_p q_sub_assign q_sub_assign_p] in *.
Ltac gv := first [apply (GV _ _ true); assumption | apply (GV _ _ false); assumption].
Ltac fl := apply GF; split;
  [ first [ eexists; split; [reflexivity | cbn [In]; tauto]
          | eexists; split; [eassumption | rewrite ?in_app_iff; cbn [In]; rewrite ?in_app_iff; tauto] ]
  | intros; first [discriminate | tauto | unfold is_zero in *; tauto ] ].
Ltac leaf := first [apply GC | gv | fl].

Lemma run_good : forall a t (e : calc a t), lits_ok e -> Good (blames e) t a (exact e) (run e).
Proof.
  intros a t e. induction e; intros W; cbn [lits_ok] in W.
  - cbn [run exact]. apply (GV _ _ false); assumption.
  - specialize (IHe W). start. gen H e. good H; simp; leaf.
  - specialize (IHe W). start. gen H e. good H; simp; leaf.
  - destruct W as [W1 W2]. specialize (IHe1 W1). specialize (IHe2 W2). start.
    gen H1 e1. gen H2 e2. good H1; good H2; simp; leaf.
  - destruct W as [W1 W2]. specialize (IHe1 W1). specialize (IHe2 W2). start.
    gen H1 e1. gen H2 e2. destruct a, b; good H1; good H2; simp; rewrite ?add_p_spec by assumption; try leaf.
    all: rewrite 1?(Z.add_comm x0 x); unfold fit; destruct (in_range _ (x + x0)) eqn:E; simp; leaf.
  - destruct W as [W1 W2]. specialize (IHe1 W1). specialize (IHe2 W2). start.
    gen H1 e1. gen H2 e2. destruct a, b; good H1; good H2; simp; rewrite ?sub_p_spec by assumption; try leaf.
    all: unfold fit; destruct (in_range _ (x - x0)) eqn:E; simp; leaf.
  - destruct W as [W1 W2]. specialize (IHe1 W1). specialize (IHe2 W2). start.
    gen H1 e1. gen H2 e2. destruct b; good H1; good H2; simp; rewrite ?add_p_spec by assumption; try leaf.
    all: unfold fit; destruct (in_range _ (x + x0)) eqn:E; simp; leaf.
  - destruct W as [W1 W2]. specialize (IHe1 W1). specialize (IHe2 W2). start.
    gen H1 e1. gen H2 e2. destruct b; good H1; good H2; simp; rewrite ?sub_p_spec by assumption; try leaf.
    all: unfold fit; destruct (in_range _ (x - x0)) eqn:E; simp; leaf.
  - destruct W as [W1 W2]. specialize (IHe1 W1). specialize (IHe2 W2). start.
    gen H1 e1. gen H2 e2. destruct a; good H1; good H2; simp; rewrite ?mul_p_spec by assumption; try leaf.
    all: unfold fit; destruct (in_range _ (x * x0)) eqn:E; simp; leaf.
  - destruct W as [W1 W2]. specialize (IHe1 W1). specialize (IHe2 W2). start.
    gen H1 e1. gen H2 e2. destruct a; good H1; good H2; simp; rewrite ?div_p_spec by assumption; try leaf.
    all: destruct (Z.eqb_spec x0 0) as [->|Hz]; [simp; leaf | pose proof (quot_range _ _ _ H H0 Hz); simp; leaf].
  - destruct W as [W1 W2]. specialize (IHe1 W1). specialize (IHe2 W2). start.
    gen H1 e1. gen H2 e2. destruct a; good H1; good H2; simp; rewrite ?rem_p_spec by assumption; try leaf.
    all: destruct (Z.eqb_spec x0 0) as [->|Hz]; [simp; leaf | pose proof (rem_range _ _ _ H H0 Hz); simp; leaf].
  - destruct W as [W1 W2]. specialize (IHe1 W1). specialize (IHe2 W2). start.
    gen H1 e1. gen H2 e2. good H1; good H2; simp; rewrite ?m_ratio_spec by assumption; try leaf.
    all: destruct (Z.eqb_spec x0 0) as [->|Hz]; [simp; leaf | pose proof (ratio_range _ _ _ H H0 Hz); simp; leaf].
  - destruct W as (W1 & W2 & W3). specialize (IHe W1). start.
    gen H1 e. destruct a; good H1; simp; try leaf; rewrite div_nonzero_spec by assumption; simp;
      pose proof (quot_range _ _ _ H W2 W3); leaf.
  - specialize (IHe W). start.
    gen H1 e. destruct a; good H1; simp; try leaf; destruct (neg_spec _ _ H) as [-> ?]; simp; leaf.
  - destruct W as [W1 W2]. specialize (IHe1 W1). specialize (IHe2 W2). start.
    gen H1 e1. gen H2 e2. destruct a, b, flip; good H1; good H2; simp; rewrite ?fee_spec by assumption; try leaf.
    all: unfold fit; destruct (in_range _ (fee_for x x0)) eqn:E; simp; leaf.
  - destruct W as [W1 W2]. specialize (IHe1 W1). specialize (IHe2 W2). start.
    gen H1 e1. gen H2 e2. destruct a, b; good H1; good H2; simp; rewrite ?divw_spec by assumption; try leaf.
    all: destruct (Z.eqb_spec x0 0) as [->|Hz]; [simp; leaf|].
    all: unfold fit; destruct (in_range TA (4000 * (1000 * x / x0))) eqn:E; simp; try leaf.
    all: assert (in_range TR (4000 * (1000 * x / x0)) = true) by (clear - E; revert E; generalize (4000 * (1000 * x / x0)); intros z E; rng; lia); leaf.
  - destruct W as [W1 W2]. specialize (IHe1 W1). specialize (IHe2 W2). start.
    gen H1 e1. gen H2 e2. destruct a, b; good H1; good H2; simp; rewrite ?divr_spec by assumption; try leaf.
    all: destruct (Z.eqb_spec x0 0) as [->|Hz]; [simp; leaf | pose proof (divr_range _ _ H H0 Hz); simp; leaf].
  - destruct W as [W1 W2]. specialize (IHe1 W1). specialize (IHe2 W2). start.
    gen H1 e1. gen H2 e2. good H1; good H2; simp; try leaf. unfold u64_add_p, fit_or_crash.
    destruct (in_range (qty q) (x + x0)) eqn:E; destruct (x + x0 <=? U64_MAX) eqn:F; try leaf; exfalso; destruct q; rng; lia.
  - destruct W as [W1 W2]. specialize (IHe1 W1). specialize (IHe2 W2). start.
    gen H1 e1. gen H2 e2. good H1; good H2; simp; try leaf. unfold u64_sub_p, fit_or_crash.
    destruct (in_range (qty q) (x - x0)) eqn:E; destruct (x0 <=? x) eqn:F; try leaf; exfalso; destruct q; rng; lia.
  - destruct W as (W1 & W2 & W3). specialize (IHe W1). start.
    gen H1 e. good H1; simp; try leaf. unfold u64_div_p. destruct (Z.eqb_spec k 0) as [|Hz]; [contradiction|].
    assert (in_range (qty q) (x / k) = true); [|leaf].
    pose proof (u64_range_div x k ltac:(destruct q; rng; lia) ltac:(rng; lia)). destruct q; rng; lia.
  - destruct W as [W1 W2]. specialize (IHe1 W1). specialize (IHe2 W2). start.
    gen H1 e1. gen H2 e2. destruct b; good H1; good H2; simp; try leaf; unfold u64_add_p, fit_or_crash;
    destruct (in_range (qty q) (x + x0)) eqn:E; destruct (x + x0 <=? U64_MAX) eqn:F; simp; try leaf; exfalso; destruct q; rng; lia.
  - destruct W as [W1 W2]. specialize (IHe1 W1). specialize (IHe2 W2). start.
    gen H1 e1. gen H2 e2. destruct b; good H1; good H2; simp; try leaf; unfold u64_sub_p, fit_or_crash;
    destruct (in_range (qty q) (x - x0)) eqn:E; destruct (x0 <=? x) eqn:F; simp; try leaf; exfalso; destruct q; rng; lia.
  - destruct W as [W1 W2]. specialize (IHe1 W1). specialize (IHe2 W2). start.
    gen H1 e1. gen H2 e2. good H1; good H2; simp; try leaf. unfold u64_mul, fit_or_crash.
    assert (0 <= x * x0) by (rng; nia).
    destruct (in_range TW (x * x0)) eqn:E; destruct (x * x0 <=? U64_MAX) eqn:F; try leaf; exfalso; rng; lia.
  - destruct W as [W1 W2]. specialize (IHe1 W1). specialize (IHe2 W2). start.
    gen H1 e1. gen H2 e2. good H1; good H2; simp; try leaf. unfold u64_div_p.
    destruct (Z.eqb_spec x0 0) as [|Hz]; [leaf|].
    assert (in_range TW (x / x0) = true); [|leaf].
    pose proof (u64_range_div x x0 ltac:(rng; lia) ltac:(rng; lia)). rng; lia.
  - destruct W as [W1 W2]. specialize (IHe1 W1). specialize (IHe2 W2). start.
    gen H1 e1. gen H2 e2. good H1; good H2; simp; try leaf. unfold u64_rem_p.
    destruct (Z.eqb_spec x0 0) as [|Hz]; [leaf|].
    assert (in_range TW (x mod x0) = true); [|leaf].
    pose proof (u64_range_mod x x0 ltac:(rng; lia) ltac:(rng; lia)). rng; lia.
  - destruct W as [W1 W2]. specialize (IHe1 W1). specialize (IHe2 W2). start.
    gen H1 e1. gen H2 e2. good H1; good H2; simp; try leaf. unfold u64_div_p.
    destruct (Z.eqb_spec x0 0) as [|Hz]; [leaf|].
    assert (in_range TU (x / x0) = true); [|leaf].
    pose proof (u64_range_div x x0 ltac:(rng; lia) ltac:(rng; lia)). rng; lia.
  - destruct W as [W1 W2]. specialize (IHe1 W1). specialize (IHe2 W2). start.
    gen H1 e1. gen H2 e2. good H1; good H2; simp; try leaf. unfold u64_rem_p.
    destruct (Z.eqb_spec x0 0) as [|Hz]; [leaf|].
    assert (in_range TW (x mod x0) = true); [|leaf].
    pose proof (u64_range_mod x x0 ltac:(rng; lia) ltac:(rng; lia)). rng; lia.
Qed.
