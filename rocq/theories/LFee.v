From Verif Require Import Base MAmount SAmount MChain LAmount.
Local Open Scope Z_scope.

Lemma div_ceil_spec : forall a b, 0 <= a -> 0 < b -> is_ceil_div a b (u64_div_ceil a b).
Proof.
  intros a b Ha Hb. unfold is_ceil_div, u64_div_ceil.
  pose proof (Z.div_mod a b). pose proof (Z.mod_pos_bound a b Hb).
  destruct (0 <? a mod b) eqn:E; nia.
Qed.

Lemma floor_spec : forall a b, 0 < b -> is_floor_div a b (a / b).
Proof.
  intros a b Hb. unfold is_floor_div.
  pose proof (Z.div_mod a b). pose proof (Z.mod_pos_bound a b Hb). nia.
Qed.

Lemma ceil_unique : forall a b x y, 0 < b -> is_ceil_div a b x -> is_ceil_div a b y -> x = y.
Proof. unfold is_ceil_div; intros. nia. Qed.

Lemma div_ceil_mono : forall a a' b, 0 <= a <= a' -> 0 < b -> u64_div_ceil a b <= u64_div_ceil a' b.
Proof.
  intros a a' b Ha Hb.
  pose proof (div_ceil_spec a b ltac:(lia) Hb) as H1.
  pose proof (div_ceil_spec a' b ltac:(lia) Hb) as H2. unfold is_ceil_div in *. nia.
Qed.

Lemma div_ceil_nonneg : forall a b, 0 <= a -> 0 < b -> 0 <= u64_div_ceil a b.
Proof.
  intros a b Ha Hb. pose proof (div_ceil_spec a b Ha Hb) as H. unfold is_ceil_div in H. nia.
Qed.

Lemma mul_by_weight_char : forall r w, is_u64 r -> is_u64 w ->
  let k := u64_div_ceil r 4000 in
  let f := u64_div_ceil (k * w) 1000 in
  feerate_mul_by_weight r w = if f <=? SUPPLY then Valid f else Error OpMul.
Proof.
  intros r w Hr Hw k f. unfold feerate_mul_by_weight, u64_checked_mul, feerate_to_kwu_ceil.
  fold k. assert (Hk : 0 <= k) by (apply div_ceil_nonneg; unf; lia).
  assert (Hf : is_ceil_div (k * w) 1000 f) by (apply div_ceil_spec; unf; nia).
  unfold amount_from_sat.
  destruct (k * w <=? U64_MAX) eqn:E.
  - fold f. unfold AMOUNT_MAX. unf. repeat destr_if; try lia; auto.
  - unfold is_ceil_div in Hf. unf. destr_if; try lia; auto.
Qed.

Lemma mul_by_weight_valid : forall r w f, is_u64 r -> is_u64 w ->
  feerate_mul_by_weight r w = Valid f ->
  valid_amount f /\ r * w <= 4000000 * f /\ 4000000 * f < r * w + 4000 * w + 4000000.
Proof.
  intros r w f Hr Hw H. rewrite mul_by_weight_char in H by auto.
  pose proof (div_ceil_spec r 4000 ltac:(unf; lia) ltac:(lia)) as H1.
  pose proof (div_ceil_nonneg r 4000 ltac:(unf; lia) ltac:(lia)) as H1'.
  set (k := u64_div_ceil r 4000) in *.
  assert (Hkw : 0 <= k * w) by (unf; nia).
  pose proof (div_ceil_spec (k * w) 1000 Hkw ltac:(lia)) as H2.
  pose proof (div_ceil_nonneg (k * w) 1000 Hkw ltac:(lia)) as H2'.
  destr_if; inv H. unfold is_ceil_div in *. split; [unf; lia|]. unf. nia.
Qed.

Lemma mul_by_weight_exact : forall r k w f, is_u64 r -> is_u64 w -> r = 4000 * k ->
  feerate_mul_by_weight r w = Valid f -> is_ceil_div (r * w) 4000000 f.
Proof.
  intros r k w f Hr Hw Ek H. rewrite mul_by_weight_char in H by auto.
  assert (E : u64_div_ceil r 4000 = k).
  { apply (ceil_unique r 4000); [lia| |].
    - apply div_ceil_spec; unf; lia.
    - unfold is_ceil_div; lia. }
  rewrite E in H. destr_if; inv H.
  pose proof (div_ceil_spec (k * w) 1000 ltac:(unf; nia) ltac:(lia)).
  unfold is_ceil_div in *. nia.
Qed.

Lemma mul_by_weight_error_iff : forall r w, is_u64 r -> is_u64 w ->
  ((exists op, feerate_mul_by_weight r w = Error op) <->
   SUPPLY * 1000 < u64_div_ceil r 4000 * w).
Proof.
  intros r w Hr Hw. rewrite mul_by_weight_char by auto.
  assert (Hk : 0 <= u64_div_ceil r 4000) by (apply div_ceil_nonneg; unf; lia).
  pose proof (div_ceil_spec (u64_div_ceil r 4000 * w) 1000 ltac:(unf; nia) ltac:(lia)) as H.
  unfold is_ceil_div in H. destr_if; split; intro G.
  - destruct G; discriminate.
  - nia.
  - nia.
  - eauto.
Qed.

Lemma mul_by_weight_mono : forall r r' w w' f', is_u64 r -> is_u64 r' -> is_u64 w -> is_u64 w' ->
  r <= r' -> w <= w' -> feerate_mul_by_weight r' w' = Valid f' ->
  exists f, feerate_mul_by_weight r w = Valid f /\ f <= f'.
Proof.
  intros r r' w w' f' Hr Hr' Hw Hw' Lr Lw H.
  rewrite mul_by_weight_char in * by auto.
  assert (u64_div_ceil r 4000 <= u64_div_ceil r' 4000) by (apply div_ceil_mono; unf; lia).
  assert (0 <= u64_div_ceil r 4000) by (apply div_ceil_nonneg; unf; lia).
  assert (u64_div_ceil (u64_div_ceil r 4000 * w) 1000 <= u64_div_ceil (u64_div_ceil r' 4000 * w') 1000).
  { apply div_ceil_mono; [|lia]. unf. nia. }
  repeat destr_if; inv H; try lia. eauto.
Qed.

Lemma div_by_fee_rate_floor_galois : forall a r W, valid_amount a -> is_u64 r ->
  amount_div_by_fee_rate_floor a r = Ret (Valid W) ->
  is_u64 W /\
  forall w, is_u64 w ->
    ((exists f, feerate_mul_by_weight r w = Valid f /\ f <= a) <-> w <= W).
Proof.
  intros a r W Ha Hr H. unfold amount_div_by_fee_rate_floor, u64_mul in H.
  destruct (a * 1000 <=? U64_MAX) eqn:E; [|discriminate]. cbn [rbind] in H.
  unfold u64_checked_div, feerate_to_kwu_ceil in H. set (k := u64_div_ceil r 4000) in *.
  destruct (k =? 0) eqn:Ek; cbn in H; [discriminate|]. inv H.
  assert (Hk : 0 <= k) by (apply div_ceil_nonneg; unf; lia).
  pose proof (floor_spec (a * 1000) k ltac:(lia)) as HW. unfold is_floor_div in HW.
  assert (0 <= a * 1000 / k) by (apply Z.div_pos; unf; lia).
  split. { unf. split; [lia|]. nia. }
  intros w Hw. rewrite mul_by_weight_char by auto. fold k.
  pose proof (div_ceil_spec (k * w) 1000 ltac:(unf; nia) ltac:(lia)) as Hf. unfold is_ceil_div in Hf.
  split.
  - intros (f & Hf1 & Hf2). destr_if; inv Hf1. nia.
  - intros L. assert (u64_div_ceil (k * w) 1000 <= a) by nia.
    destr_if; [eauto|]. unf. lia.
Qed.

Lemma div_by_fee_rate_total : forall a r, valid_amount a -> is_u64 r ->
  exists x, amount_div_by_fee_rate_floor a r = Ret x /\
  ((exists op, x = Error op) <-> r = 0).
Proof.
  intros a r Ha Hr. unfold amount_div_by_fee_rate_floor, u64_mul.
  destruct (a * 1000 <=? U64_MAX) eqn:E; [|unf; lia]. cbn [rbind].
  eexists; split; [reflexivity|].
  unfold u64_checked_div, feerate_to_kwu_ceil.
  pose proof (div_ceil_spec r 4000 ltac:(unf; lia) ltac:(lia)) as H. unfold is_ceil_div in H.
  destr_if; cbn; split; intro G; eauto; try lia; try (destruct G; discriminate); unf; lia.
Qed.

Lemma div_by_fee_rate_ceil_spec : forall a r W, valid_amount a -> is_u64 r ->
  amount_div_by_fee_rate_ceil a r = Ret (Valid W) ->
  is_u64 W /\
  forall w, is_u64 w -> W <= w ->
    forall f, feerate_mul_by_weight r w = Valid f -> a <= f.
Proof.
  intros a r W Ha Hr H. unfold amount_div_by_fee_rate_ceil, u64_mul in H.
  unfold feerate_to_kwu_ceil in H. set (k := u64_div_ceil r 4000) in *.
  destruct (k =? 0) eqn:Ek; [discriminate|].
  destruct (a * 1000 <=? U64_MAX) eqn:E; [|discriminate]. cbn [rbind] in H. inv H.
  assert (Hk : 0 <= k) by (apply div_ceil_nonneg; unf; lia).
  pose proof (div_ceil_spec (a * 1000) k ltac:(unf; lia) ltac:(lia)) as HW. unfold is_ceil_div in HW.
  pose proof (div_ceil_nonneg (a * 1000) k ltac:(unf; lia) ltac:(lia)) as HW0.
  split. { unf. split; [lia|]. nia. }
  intros w Hw L f Hf. rewrite mul_by_weight_char in Hf by auto. fold k in Hf.
  pose proof (div_ceil_spec (k * w) 1000 ltac:(unf; nia) ltac:(lia)) as Hc. unfold is_ceil_div in Hc.
  destr_if; inv Hf. nia.
Qed.

Lemma from_per_kwu_valid : forall a r, valid_amount a -> feerate_from_per_kwu a = Valid r ->
  r = 4000 * a /\ valid_amount r.
Proof.
  intros a r Ha H. unfold feerate_from_per_kwu, amount_checked_mul, u64_checked_mul, amount_from_sat in H.
  repeat destr_if; cbn in H; inv H. unf. lia.
Qed.

Lemma div_by_weight_floor_spec : forall a w r, valid_amount a -> is_u64 w ->
  amount_div_by_weight_floor a w = Valid r ->
  exists q, r = 4000 * q /\ is_floor_div (a * 1000) w q /\
    (forall f, feerate_mul_by_weight r w = Valid f -> f <= a).
Proof.
  intros a w r Ha Hw H. unfold amount_div_by_weight_floor, u64_checked_mul, u64_checked_div, amount_from_sat in H.
  destruct (a * 1000 <=? U64_MAX) eqn:E; [|discriminate].
  destruct (w =? 0) eqn:E0; [discriminate|].
  destruct (AMOUNT_MAX <? a * 1000 / w) eqn:E1; [discriminate|].
  pose proof (floor_spec (a * 1000) w ltac:(unf; lia)) as Hq.
  assert (0 <= a * 1000 / w) by (apply Z.div_pos; unf; lia).
  apply from_per_kwu_valid in H as [-> Hr]; [|unf; lia].
  exists (a * 1000 / w). split; [reflexivity|]. split; [exact Hq|].
  intros f Hf. apply (mul_by_weight_exact _ (a * 1000 / w)) in Hf; auto; [|unf; lia].
  unfold is_floor_div, is_ceil_div in *. nia.
Qed.

Lemma div_by_weight_ceil_spec : forall a w r, valid_amount a -> is_u64 w ->
  amount_div_by_weight_ceil a w = Valid r ->
  exists q, r = 4000 * q /\ is_ceil_div (a * 1000) w q /\
    (forall f, feerate_mul_by_weight r w = Valid f -> a <= f).
Proof.
  intros a w r Ha Hw H. unfold amount_div_by_weight_ceil, u64_checked_mul, amount_from_sat in H.
  destruct (w =? 0) eqn:E0; [discriminate|].
  destruct (a * 1000 <=? U64_MAX) eqn:E; [|discriminate].
  destruct (AMOUNT_MAX <? u64_div_ceil (a * 1000) w) eqn:E1; [discriminate|].
  pose proof (div_ceil_spec (a * 1000) w ltac:(unf; lia) ltac:(unf; lia)) as Hq.
  pose proof (div_ceil_nonneg (a * 1000) w ltac:(unf; lia) ltac:(unf; lia)) as Hq0.
  apply from_per_kwu_valid in H as [-> Hr]; [|unf; lia].
  exists (u64_div_ceil (a * 1000) w). split; [reflexivity|]. split; [exact Hq|].
  intros f Hf. apply (mul_by_weight_exact _ (u64_div_ceil (a * 1000) w)) in Hf; auto; [|unf; lia].
  unfold is_ceil_div in *. nia.
Qed.

Lemma amount_sum_exact_gen : forall l acc, Forall valid_amount l -> valid_amount acc ->
  exists r, fold_left (fun a x => rbind a (fun r => nor_add r (Valid x))) l (Ret (Valid acc)) = Ret r /\
  nor_ok r = within 0 SUPPLY (fold_left Z.add l acc).
Proof.
  induction l as [|x l IH]; intros acc Hl Hacc; cbn [fold_left].
  - exists (Valid acc). split; auto. rewrite within_id; auto.
  - inv Hl. cbn [rbind nor_add]. rewrite amount_add_spec by auto.
    destruct (within 0 SUPPLY (acc + x)) eqn:E; cbn [valid_or_error].
    + apply within_some in E as [-> ?]. apply IH; auto.
    + assert (Hbad : forall l op, fold_left (fun a x => rbind a (fun r => nor_add r (Valid x))) l
          (Ret (@Error Z op)) = Ret (@Error Z (match l with [] => op | _ => OpAdd end))).
      { clear. induction l; intros; cbn [fold_left rbind nor_add]; auto. rewrite IHl.
        destruct l; auto. }
      rewrite Hbad. eexists; split; [reflexivity|]. cbn [nor_ok].
      assert (Hm : forall l a, Forall valid_amount l -> a <= fold_left Z.add l a).
      { clear. induction l; intros b Hl; cbn [fold_left]; [lia|]. inv Hl.
        specialize (IHl (b + a) H2). unf. lia. }
      specialize (Hm l (acc + x) H2). unfold within in *. unf.
      destruct ((0 <=? acc + x) && (acc + x <=? 2100000000000000)) eqn:E2; [discriminate|].
      destr_if; auto. lia.
Qed.

Lemma wrap_i64_small : forall a, valid_amount a -> wrap_i64 a = a.
Proof. intros. unfold wrap_i64. unf. rewrite Z.mod_small by lia. lia. Qed.

Lemma conversions : forall a, valid_amount a ->
  amount_to_signed a = Ret a /\
  signed_to_unsigned a = Ret (Ok a) /\
  amount_neg a = Ret (- a).
Proof.
  intros a Ha.
  assert (S : amount_to_signed a = Ret a).
  { unfold amount_to_signed. rewrite wrap_i64_small by auto. unfold signed_from_sat. unf.
    repeat destr_if; try lia; auto. }
  split; [exact S|]. split.
  - unfold signed_to_unsigned, amount_from_sat. unf. repeat destr_if; try lia; auto.
  - unfold amount_neg. rewrite S. cbn [rbind]. unfold signed_neg, signed_from_sat. unf.
    repeat destr_if; try lia; auto.
Qed.

Lemma signed_conversions : forall a, valid_signed a ->
  signed_abs a = Ret (Z.abs a) /\
  signed_unsigned_abs a = Ret (Z.abs a) /\
  signed_neg a = Ret (- a) /\
  (signed_to_unsigned a = if 0 <=? a then Ret (Ok a)
                          else Ret (Err {| is_signed := false; is_greater_than_max := false |})).
Proof.
  intros a Ha.
  assert (S : signed_abs a = Ret (Z.abs a)).
  { unfold signed_abs, signed_from_sat. unf. repeat destr_if; try lia; auto. }
  split; [exact S|]. split; [|split].
  - unfold signed_unsigned_abs. rewrite S. cbn [rbind].
    unfold signed_to_unsigned, amount_from_sat. unf. repeat destr_if; try lia; auto.
  - unfold signed_neg, signed_from_sat. unf. repeat destr_if; try lia; auto.
  - unfold signed_to_unsigned, amount_from_sat. unf. repeat destr_if; try lia; auto.
Qed.

Lemma signed_sub_total : forall a b, valid_amount a -> valid_amount b ->
  amount_signed_sub a b = Ret (a - b).
Proof.
  intros a b Ha Hb. unfold amount_signed_sub.
  destruct (conversions a Ha) as [-> _]. destruct (conversions b Hb) as [-> _]. cbn [rbind].
  rewrite signed_sub_spec by (unf; lia). rewrite within_id by (unf; lia). reflexivity.
Qed.

Lemma weight_conv : forall w, is_u64 w ->
  is_floor_div w 4 (weight_to_vb_floor w) /\ is_ceil_div w 4 (weight_to_vb_ceil w) /\
  is_floor_div w 1000 (weight_to_kwu_floor w) /\ is_ceil_div w 1000 (weight_to_kwu_ceil w) /\
  (forall v x, is_u64 v -> weight_from_vb v = Some x -> weight_to_vb_floor x = v /\ weight_to_vb_ceil x = v) /\
  (forall v, is_u64 v -> (weight_from_vb v = None <-> U64_MAX < 4 * v)).
Proof.
  intros w Hw.
  split; [apply floor_spec; lia|]. split; [apply div_ceil_spec; unfold WITNESS_SCALE_FACTOR; unf; lia|].
  split; [apply floor_spec; lia|]. split; [apply div_ceil_spec; unf; lia|].
  split.
  - intros v x Hv H. unfold weight_from_vb, u64_checked_mul, WITNESS_SCALE_FACTOR in H.
    destr_if; inv H. split.
    + unfold weight_to_vb_floor, WITNESS_SCALE_FACTOR. apply Z.div_mul. lia.
    + unfold weight_to_vb_ceil, WITNESS_SCALE_FACTOR. apply (ceil_unique (v * 4) 4); [lia| |].
      * apply div_ceil_spec; unf; lia.
      * unfold is_ceil_div. lia.
  - intros v Hv. unfold weight_from_vb, u64_checked_mul, WITNESS_SCALE_FACTOR.
    destr_if; split; intros; try discriminate; auto; lia.
Qed.

Lemma feerate_conv : forall r, is_u64 r ->
  is_floor_div r 4000 (feerate_to_kwu_floor r) /\ is_ceil_div r 4000 (feerate_to_kwu_ceil r) /\
  is_floor_div r 1000000 (feerate_to_vb_floor r) /\ is_ceil_div r 1000000 (feerate_to_vb_ceil r) /\
  is_floor_div r 1000 (feerate_to_kvb_floor r) /\ is_ceil_div r 1000 (feerate_to_kvb_ceil r).
Proof.
  intros r Hr. repeat split; first [apply floor_spec; lia | apply div_ceil_spec; unf; lia].
Qed.

Lemma feerate_from_u32 : forall x, 0 <= x < 2 ^ 32 ->
  exists k v b,
  feerate_from_sat_per_kwu x = Ret k /\ feerate_to_kwu_floor k = x /\ feerate_to_kwu_ceil k = x /\
  feerate_from_sat_per_vb x = Ret v /\ feerate_to_vb_floor v = x /\ feerate_to_vb_ceil v = x /\
  feerate_from_sat_per_kvb x = Ret b /\ feerate_to_kvb_floor b = x /\ feerate_to_kvb_ceil b = x.
Proof.
  intros x Hx. exists (x * 4000), (x * 1000000), (x * 1000).
  assert (C : forall d, 0 < d -> u64_div_ceil (x * d) d = x).
  { intros d Hd. apply (ceil_unique (x * d) d); [lia| |].
    - apply div_ceil_spec; nia.
    - unfold is_ceil_div. nia. }
  unfold feerate_from_sat_per_kwu, feerate_from_sat_per_vb, feerate_from_sat_per_kvb, u64_mul,
    feerate_to_kwu_floor, feerate_to_kwu_ceil, feerate_to_vb_floor, feerate_to_vb_ceil,
    feerate_to_kvb_floor, feerate_to_kvb_ceil.
  rewrite !C by lia. rewrite !Z.div_mul by lia. unf.
  replace (x * 4000 <=? 18446744073709551615) with true by lia.
  replace (x * 1000000 <=? 18446744073709551615) with true by lia.
  replace (x * 1000 <=? 18446744073709551615) with true by lia.
  repeat split.
Qed.
