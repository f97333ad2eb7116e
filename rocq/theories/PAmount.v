(** C17 (amount arithmetic) and C19 (fees, fee rates, weights): property theorems. *)
From Verif Require Import Base MAmount SAmount MChain LAmount LFee.
Local Open Scope Z_scope.

(** C17.  Any chain of Amount operations never panics, returns a value iff every intermediate
    exact result is within 0..=21e14 and no division is by zero, and then that exact result. *)
Theorem C17_amount_chain_exact : forall c, chain_ok valid_amount is_u64 c ->
  exists r, run_amount c = Ret r /\ nor_ok r = exact 0 SUPPLY c.
Proof. exact run_amount_exact. Qed.
Print Assumptions C17_amount_chain_exact.

Example C17_chain_nonvacuous :
  let c := DivK (MulK (CSub 2100000000000000 (Add (Const 5) (Const 7))) 1) 4 in
  chain_ok valid_amount is_u64 c /\ exact 0 SUPPLY c = Some 524999999999997 /\
  exact 0 SUPPLY (AddC (Const 2100000000000000) 1) = None.
Proof. split; [|split; reflexivity]. cbn. unfold valid_amount, is_u64, SUPPLY. lia. Qed.

(** C17, signed amounts. *)
Theorem C17_signed_chain_exact : forall c, chain_ok valid_signed is_i64 c ->
  nor_ok (run_signed c) = exact (-SUPPLY) SUPPLY c.
Proof. exact run_signed_exact. Qed.
Print Assumptions C17_signed_chain_exact.

Example C17_signed_nonvacuous :
  let c := DivK (MulK (CSub 3 (Add (Const 5) (Const 7))) 100) (-7) in
  chain_ok valid_signed is_i64 c /\ exact (-SUPPLY) SUPPLY c = Some 128.
Proof. split; [|reflexivity]. cbn. unfold valid_signed, is_i64, SUPPLY. lia. Qed.

(** C17.  Summing an iterator of amounts is exact, and errs iff the total exceeds the supply. *)
Theorem C17_amount_sum_exact : forall l, Forall valid_amount l ->
  exists r, amount_sum l = Ret r /\ nor_ok r = within 0 SUPPLY (fold_left Z.add l 0).
Proof. intros l Hl. apply amount_sum_exact_gen; auto. unfold valid_amount, SUPPLY; lia. Qed.
Print Assumptions C17_amount_sum_exact.

Example C17_sum_nonvacuous : Forall valid_amount [1; 2; 2099999999999998] /\
  nor_ok (match amount_sum [1; 2; 2099999999999998] with Ret r => r | Panic => Error OpAdd end) = None.
Proof. split; [repeat constructor; unfold SUPPLY; lia | reflexivity]. Qed.

(** C17.  Constructors accept exactly the documented ranges. *)
Theorem C17_from_sat_range : forall s,
  (is_u64 s -> ((exists a, amount_from_sat s = Ok a) <-> valid_amount s) /\
               (forall a, amount_from_sat s = Ok a -> a = s)) /\
  (is_i64 s -> ((exists a, signed_from_sat s = Ok a) <-> valid_signed s) /\
               (forall a, signed_from_sat s = Ok a -> a = s)).
Proof.
  intros s. unfold amount_from_sat, signed_from_sat. split; intros Hs; split.
  - unf. split; [intros [a Ha]; destr_if; inv Ha; lia | intros; destr_if; [lia|eauto]].
  - intros a Ha; destr_if; inv Ha; auto.
  - unf. split; [intros [a Ha]; repeat destr_if; inv Ha; lia
                | intros; repeat destr_if; try lia; eauto].
  - intros a Ha; repeat destr_if; inv Ha; auto.
Qed.
Print Assumptions C17_from_sat_range.

(** C17.  The conversions between signed and unsigned amounts marked infallible never panic and
    are exact; subtraction through [signed_sub] never fails. *)
Theorem C17_conversions_total : forall a, valid_amount a ->
  amount_to_signed a = Ret a /\ signed_to_unsigned a = Ret (Ok a) /\ amount_neg a = Ret (- a).
Proof. exact conversions. Qed.
Print Assumptions C17_conversions_total.

Theorem C17_signed_conversions_total : forall a, valid_signed a ->
  signed_abs a = Ret (Z.abs a) /\ signed_unsigned_abs a = Ret (Z.abs a) /\
  signed_neg a = Ret (- a) /\
  (signed_to_unsigned a = if 0 <=? a then Ret (Ok a)
                          else Ret (Err {| is_signed := false; is_greater_than_max := false |})).
Proof. exact signed_conversions. Qed.
Print Assumptions C17_signed_conversions_total.

Theorem C17_signed_sub_total : forall a b, valid_amount a -> valid_amount b ->
  amount_signed_sub a b = Ret (a - b).
Proof. exact signed_sub_total. Qed.
Print Assumptions C17_signed_sub_total.

(** C17.  positive_sub is the exact difference when that difference and both operands are
    non-negative, and nothing otherwise. *)
Theorem C17_positive_sub : forall a b, valid_signed a -> valid_signed b ->
  signed_positive_sub a b = if (0 <=? a) && (0 <=? b) && (b <=? a) then Some (a - b) else None.
Proof. exact positive_sub_exact. Qed.
Print Assumptions C17_positive_sub.

Example C17_conversions_nonvacuous : valid_amount 2100000000000000 /\ valid_signed (-2100000000000000).
Proof. unfold valid_amount, valid_signed, SUPPLY; lia. Qed.

(** C19.  The fee computed from a rate (in satoshi per million vbytes) and a weight covers the
    exact fee rate*weight/4e6, and exceeds it by less than weight/1000 + 1 satoshi. *)
Theorem C19_fee_covers : forall r w f, is_u64 r -> is_u64 w ->
  feerate_mul_by_weight r w = Valid f ->
  valid_amount f /\ r * w <= 4000000 * f /\ 4000000 * f < r * w + 4000 * w + 4000000.
Proof. exact mul_by_weight_valid. Qed.
Print Assumptions C19_fee_covers.

Example C19_fee_nonvacuous : feerate_mul_by_weight 1000000 565 = Valid 142.
Proof. reflexivity. Qed.

(** C19.  For rates that are a whole number of satoshi per kilo weight unit the fee is the least
    amount covering the exact product. *)
Theorem C19_fee_least_for_kwu_rates : forall r k w f, is_u64 r -> is_u64 w -> r = 4000 * k ->
  feerate_mul_by_weight r w = Valid f -> is_ceil_div (r * w) 4000000 f.
Proof. exact mul_by_weight_exact. Qed.
Print Assumptions C19_fee_least_for_kwu_rates.

(** C19 finding: for other rates the fee is not least: a rate of 1 sat/MvB on 1,000,000 wu is
    charged 1000 sat where 1 sat suffices. *)
Theorem C19_fee_least_refuted : exists r w f, is_u64 r /\ is_u64 w /\
  feerate_mul_by_weight r w = Valid f /\ ~ is_ceil_div (r * w) 4000000 f.
Proof.
  exists 1, 1000000, 1000. unfold is_u64, is_ceil_div.
  split; [lia|]. split; [lia|]. split; [reflexivity|]. lia.
Qed.
Print Assumptions C19_fee_least_refuted.

(** C19.  It is an error exactly when the fee (with the rate rounded up to whole sat/kwu) exceeds
    the money supply: the u64 overflow test never rejects a representable fee. *)
Theorem C19_fee_error_iff : forall r w, is_u64 r -> is_u64 w ->
  ((exists op, feerate_mul_by_weight r w = Error op) <-> SUPPLY * 1000 < feerate_to_kwu_ceil r * w).
Proof. exact mul_by_weight_error_iff. Qed.
Print Assumptions C19_fee_error_iff.

Example C19_fee_error_nonvacuous : exists op, feerate_mul_by_weight U64_MAX U64_MAX = Error op.
Proof. eexists; reflexivity. Qed.

(** C19.  The fee is monotone in rate and weight. *)
Theorem C19_fee_monotone : forall r r' w w' f', is_u64 r -> is_u64 r' -> is_u64 w -> is_u64 w' ->
  r <= r' -> w <= w' -> feerate_mul_by_weight r' w' = Valid f' ->
  exists f, feerate_mul_by_weight r w = Valid f /\ f <= f'.
Proof. exact mul_by_weight_mono. Qed.
Print Assumptions C19_fee_monotone.

(** C19.  Dividing a fee by a rate with floor gives the largest weight whose fee is affordable. *)
Theorem C19_div_by_fee_rate_floor_largest : forall a r W, valid_amount a -> is_u64 r ->
  amount_div_by_fee_rate_floor a r = Ret (Valid W) ->
  is_u64 W /\
  forall w, is_u64 w ->
    ((exists f, feerate_mul_by_weight r w = Valid f /\ f <= a) <-> w <= W).
Proof. exact div_by_fee_rate_floor_galois. Qed.
Print Assumptions C19_div_by_fee_rate_floor_largest.

Theorem C19_div_by_fee_rate_total : forall a r, valid_amount a -> is_u64 r ->
  exists x, amount_div_by_fee_rate_floor a r = Ret x /\ ((exists op, x = Error op) <-> r = 0).
Proof. exact div_by_fee_rate_total. Qed.
Print Assumptions C19_div_by_fee_rate_total.

Theorem C19_div_by_fee_rate_ceil : forall a r W, valid_amount a -> is_u64 r ->
  amount_div_by_fee_rate_ceil a r = Ret (Valid W) ->
  is_u64 W /\
  forall w, is_u64 w -> W <= w -> forall f, feerate_mul_by_weight r w = Valid f -> a <= f.
Proof. exact div_by_fee_rate_ceil_spec. Qed.
Print Assumptions C19_div_by_fee_rate_ceil.

Example C19_div_nonvacuous :
  amount_div_by_fee_rate_floor 1000 8000 = Ret (Valid 500000) /\
  amount_div_by_fee_rate_ceil 1000 12000 = Ret (Valid 333334).
Proof. split; reflexivity. Qed.

(** C19.  Dividing a fee by a weight: floor rate never costs more than the fee, ceil rate never
    less, and each is the exact rounding to whole sat/kwu. *)
Theorem C19_div_by_weight_floor : forall a w r, valid_amount a -> is_u64 w ->
  amount_div_by_weight_floor a w = Valid r ->
  exists q, r = 4000 * q /\ is_floor_div (a * 1000) w q /\
    (forall f, feerate_mul_by_weight r w = Valid f -> f <= a).
Proof. exact div_by_weight_floor_spec. Qed.
Print Assumptions C19_div_by_weight_floor.

Theorem C19_div_by_weight_ceil : forall a w r, valid_amount a -> is_u64 w ->
  amount_div_by_weight_ceil a w = Valid r ->
  exists q, r = 4000 * q /\ is_ceil_div (a * 1000) w q /\
    (forall f, feerate_mul_by_weight r w = Valid f -> a <= f).
Proof. exact div_by_weight_ceil_spec. Qed.
Print Assumptions C19_div_by_weight_ceil.

Example C19_div_by_weight_nonvacuous :
  amount_div_by_weight_floor 329 381 = Valid (863 * 4000) /\
  amount_div_by_weight_ceil 329 381 = Valid (864 * 4000).
Proof. split; reflexivity. Qed.

(** C19.  Weight and fee-rate unit conversions round as named. *)
Theorem C19_weight_conversions : forall w, is_u64 w ->
  is_floor_div w 4 (weight_to_vb_floor w) /\ is_ceil_div w 4 (weight_to_vb_ceil w) /\
  is_floor_div w 1000 (weight_to_kwu_floor w) /\ is_ceil_div w 1000 (weight_to_kwu_ceil w) /\
  (forall v x, is_u64 v -> weight_from_vb v = Some x -> weight_to_vb_floor x = v /\ weight_to_vb_ceil x = v) /\
  (forall v, is_u64 v -> (weight_from_vb v = None <-> 2 ^ 64 <= 4 * v)).
Proof.
  intros w Hw. destruct (weight_conv w Hw) as (A & B & C & D & E & F).
  repeat (split; [assumption|]). intros v Hv. rewrite (F v Hv). unfold U64_MAX. lia.
Qed.
Print Assumptions C19_weight_conversions.

Theorem C19_feerate_conversions : forall r, is_u64 r ->
  is_floor_div r 4000 (feerate_to_kwu_floor r) /\ is_ceil_div r 4000 (feerate_to_kwu_ceil r) /\
  is_floor_div r 1000000 (feerate_to_vb_floor r) /\ is_ceil_div r 1000000 (feerate_to_vb_ceil r) /\
  is_floor_div r 1000 (feerate_to_kvb_floor r) /\ is_ceil_div r 1000 (feerate_to_kvb_ceil r).
Proof. exact feerate_conv. Qed.
Print Assumptions C19_feerate_conversions.

Theorem C19_feerate_u32_roundtrip : forall x, 0 <= x < 2 ^ 32 ->
  exists k v b,
  feerate_from_sat_per_kwu x = Ret k /\ feerate_to_kwu_floor k = x /\ feerate_to_kwu_ceil k = x /\
  feerate_from_sat_per_vb x = Ret v /\ feerate_to_vb_floor v = x /\ feerate_to_vb_ceil v = x /\
  feerate_from_sat_per_kvb x = Ret b /\ feerate_to_kvb_floor b = x /\ feerate_to_kvb_ceil b = x.
Proof. exact feerate_from_u32. Qed.
Print Assumptions C19_feerate_u32_roundtrip.

(** C17.  The constructors from small integers, and division by a nonzero integer, never panic and are exact. *)
Theorem C17_small_constructors :
  (forall s, 0 <= s < 2 ^ 32 -> amount_from_sat_u32 s = Ret s) /\
  (forall b, 0 <= b < 2 ^ 16 -> amount_from_btc_u16 b = Ret (b * 100000000)) /\
  (forall a k, valid_amount a -> 1 <= k < 2 ^ 64 -> exists q, amount_div_nonzero a k = Ret q /\ is_floor_div a k q /\ valid_amount q).
Proof.
  unfold amount_from_sat_u32, amount_from_btc_u16, amount_div_nonzero, amount_from_sat. split; [|split].
  - intros s H. unf. destr_if; auto. lia.
  - intros b H. unf. destr_if; auto. lia.
  - intros a k A K. exists (a / k). pose proof (Z.div_pos a k). pose proof (Z.div_le_upper_bound a k a). unf. 
    pose proof (Z.mul_div_le a k). pose proof (Z.mul_succ_div_gt a k). destr_if; [nia|]. split; auto. unfold is_floor_div. split; nia.
Qed.
Print Assumptions C17_small_constructors.

(** C19.  Fee rates from an amount per unit: an amount per virtual byte is exactly a million times as many satoshi per
    million virtual bytes, and alike; it is an error exactly when that number exceeds the money supply. *)
Theorem C19_feerate_from_per : forall a, valid_amount a ->
  (forall f k, In (f, k) [(feerate_from_per_kwu, 4000); (feerate_from_per_vb, 1000000); (feerate_from_per_kvb, 1000)] ->
     (forall r, f a = Valid r <-> r = a * k /\ a * k <= SUPPLY) /\
     ((exists op, f a = Error op) <-> SUPPLY < a * k)) .
Proof.
  intros a A f k I. unfold feerate_from_per_kwu, feerate_from_per_vb, feerate_from_per_kvb in I. 
  assert (X : f = (fun a => valid_or_error (amount_checked_mul a k) OpMul) /\ 0 < k <= 1000000).
  { destruct I as [E|[E|[E|[]]]]; inversion E; subst; (split; [reflexivity|lia]). }
  destruct X as [-> K]. cbv beta.
  assert (E : valid_or_error (amount_checked_mul a k) OpMul = if a * k <=? SUPPLY then Valid (a * k) else Error OpMul).
  { unfold amount_checked_mul, u64_checked_mul, valid_or_error, ok_opt, amount_from_sat. unf. repeat destr_if; try reflexivity; lia. }
  rewrite E. destruct (Z.leb_spec (a * k) SUPPLY) as [L|L].
  - split. { intros r. split; [intros H; inversion H; auto|intros [-> _]; auto]. } split; [intros [op H]; discriminate|lia].
  - split. { intros r. split; [discriminate|lia]. } split; [auto|]. intros _. now exists OpMul.
Qed.
Print Assumptions C19_feerate_from_per.

(** C19.  Checked fee-rate arithmetic and weights from kilo weight units: the exact result when it is a 64-bit value. *)
Theorem C19_rate_arithmetic : forall a b, is_u64 a -> is_u64 b ->
  feerate_checked_add a b = within 0 (2 ^ 64 - 1) (a + b) /\
  feerate_checked_sub a b = within 0 (2 ^ 64 - 1) (a - b) /\
  feerate_checked_mul a b = within 0 (2 ^ 64 - 1) (a * b) /\
  (b = 0 -> feerate_checked_div a b = None) /\ (b <> 0 -> exists q, feerate_checked_div a b = Some q /\ is_floor_div a b q) /\
  weight_from_kwu a = within 0 (2 ^ 64 - 1) (a * 1000).
Proof.
  intros a b A B. unfold feerate_checked_add, feerate_checked_sub, feerate_checked_mul, feerate_checked_div, weight_from_kwu,
    u64_checked_add, u64_checked_sub, u64_checked_mul, u64_checked_div, within. unf.
  split; [|split; [|split; [|split; [|split]]]].
  - repeat destr_if; try reflexivity; lia.
  - repeat destr_if; try reflexivity; lia.
  - assert (0 <= a * b) by nia. repeat destr_if; try reflexivity; lia.
  - intros ->. reflexivity.
  - intros NB. destruct (b =? 0) eqn:E; [lia|]. exists (a / b). split; auto. pose proof (Z.mul_div_le a b). pose proof (Z.mul_succ_div_gt a b).
    unfold is_floor_div. split; nia.
  - repeat destr_if; try reflexivity; lia.
Qed.
Print Assumptions C19_rate_arithmetic.
Example C19_rate_nonvacuous : feerate_from_per_vb 5 = Valid 5000000 /\ feerate_checked_sub 3 4 = None /\ weight_from_kwu 7 = Some 7000.
Proof. repeat split. Qed.
