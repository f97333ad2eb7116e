From Verif Require Import Base MAmount SAmount MChain.
Local Open Scope Z_scope.

Ltac unf := unfold i64_in, within, valid_amount, valid_signed, is_u64, is_i64, SUPPLY,
  AMOUNT_MAX, SIGNED_MIN, U64_MAX, I64_MAX, I64_MIN in *.

Lemma within_some : forall lo hi x y, within lo hi x = Some y -> y = x /\ lo <= x <= hi.
Proof. unfold within; intros. destr_if; inv H. lia. Qed.

Lemma exact_range : forall lo hi c x, exact lo hi c = Some x -> lo <= x <= hi.
Proof.
  intros lo hi c x H.
  assert (W : forall z, within lo hi z = Some x -> lo <= x <= hi)
    by (intros z Hz; apply within_some in Hz as [-> ?]; auto).
  destruct c; cbn [exact] in H;
    repeat match type of H with
    | context [match exact ?a ?b ?d with _ => _ end] => destruct (exact a b d) eqn:?; try discriminate
    | context [match within ?a ?b ?d with Some _ => _ | None => _ end] =>
        destruct (within a b d) eqn:?; try discriminate
    | context [if ?b then _ else _] => destruct b eqn:?; try discriminate
    end; eauto.
Qed.

Lemma amount_add_spec : forall a b, valid_amount a -> valid_amount b ->
  amount_add a b = Ret (valid_or_error (within 0 SUPPLY (a + b)) OpAdd).
Proof.
  intros a b Ha Hb. unfold amount_add, amount_checked_add, amount_from_sat.
  unf. repeat destr_if; simpl; try lia; auto.
Qed.

Lemma amount_sub_spec : forall a b, valid_amount a -> valid_amount b ->
  amount_sub a b = valid_or_error (within 0 SUPPLY (a - b)) OpSub.
Proof.
  intros a b Ha Hb. unfold amount_sub, amount_checked_sub, u64_checked_sub, amount_from_sat.
  unf. repeat destr_if; simpl; try lia; auto.
Qed.

Lemma amount_mul_spec : forall a k, valid_amount a -> is_u64 k ->
  amount_mul a k = valid_or_error (within 0 SUPPLY (a * k)) OpMul.
Proof.
  intros a k Ha Hk. unfold amount_mul, amount_checked_mul, u64_checked_mul, amount_from_sat.
  unf. assert (0 <= a * k) by nia. repeat destr_if; simpl; try lia; auto.
Qed.

Lemma amount_div_spec : forall a k, valid_amount a -> is_u64 k ->
  amount_div a k = valid_or_error (if k =? 0 then None else within 0 SUPPLY (Z.quot a k)) OpDiv.
Proof.
  intros a k Ha Hk. unfold amount_div, amount_checked_div, u64_checked_div, amount_from_sat.
  unf. destruct (k =? 0) eqn:E; [reflexivity|].
  rewrite Z.quot_div_nonneg by lia.
  assert (0 <= a / k <= a).
  { split; [apply Z.div_pos; lia|]. apply Z.div_le_upper_bound; nia. }
  repeat destr_if; simpl; try lia; auto.
Qed.

Lemma amount_rem_spec : forall a k, valid_amount a -> is_u64 k ->
  amount_rem a k = valid_or_error (if k =? 0 then None else within 0 SUPPLY (Z.rem a k)) OpRem.
Proof.
  intros a k Ha Hk. unfold amount_rem, amount_checked_rem, u64_checked_rem, amount_from_sat.
  unf. destruct (k =? 0) eqn:E; [reflexivity|].
  rewrite Z.rem_mod_nonneg by lia.
  assert (0 <= a mod k <= a).
  { pose proof (Z.mod_pos_bound a k). pose proof (Z.mod_le a k). lia. }
  repeat destr_if; simpl; try lia; auto.
Qed.

Lemma signed_add_spec : forall a b, valid_signed a -> valid_signed b ->
  signed_add a b = valid_or_error (within (-SUPPLY) SUPPLY (a + b)) OpAdd.
Proof.
  intros a b Ha Hb. unfold signed_add, signed_checked_add, i64_checked_add, signed_from_sat.
  unf. repeat destr_if; simpl; try lia; auto.
Qed.

Lemma signed_sub_spec : forall a b, valid_signed a -> valid_signed b ->
  signed_sub a b = valid_or_error (within (-SUPPLY) SUPPLY (a - b)) OpSub.
Proof.
  intros a b Ha Hb. unfold signed_sub, signed_checked_sub, i64_checked_sub, signed_from_sat.
  unf. repeat destr_if; simpl; try lia; auto.
Qed.

Lemma signed_mul_spec : forall a k, valid_signed a -> is_i64 k ->
  signed_mul a k = valid_or_error (within (-SUPPLY) SUPPLY (a * k)) OpMul.
Proof.
  intros a k Ha Hk. unfold signed_mul, signed_checked_mul, i64_checked_mul, signed_from_sat.
  unf. generalize (a * k); intro p. repeat destr_if; simpl; try lia; auto.
Qed.

Lemma quot_abs : forall a k, k <> 0 -> Z.abs (Z.quot a k) <= Z.abs a.
Proof.
  intros. rewrite <- Z.quot_abs by auto.
  rewrite Z.quot_div_nonneg by lia. apply Z.div_le_upper_bound; nia.
Qed.

Lemma rem_abs : forall a k, k <> 0 -> Z.abs (Z.rem a k) <= Z.abs a.
Proof.
  intros. rewrite <- Z.rem_abs by auto. rewrite Z.rem_mod_nonneg by lia.
  apply Z.mod_le; lia.
Qed.

Lemma signed_div_spec : forall a k, valid_signed a -> is_i64 k ->
  signed_div a k = valid_or_error (if k =? 0 then None else within (-SUPPLY) SUPPLY (Z.quot a k)) OpDiv.
Proof.
  intros a k Ha Hk. unfold signed_div, signed_checked_div, i64_checked_div, signed_from_sat.
  unf. destruct (k =? 0) eqn:E; [reflexivity|].
  pose proof (quot_abs a k ltac:(lia)) as Q. revert Q. generalize (Z.quot a k). intros q Q.
  replace (a =? -9223372036854775808) with false by lia. cbn [orb andb].
  repeat destr_if; simpl; try lia; auto.
Qed.

Lemma signed_rem_spec : forall a k, valid_signed a -> is_i64 k ->
  signed_rem a k = valid_or_error (if k =? 0 then None else within (-SUPPLY) SUPPLY (Z.rem a k)) OpRem.
Proof.
  intros a k Ha Hk. unfold signed_rem, signed_checked_rem, i64_checked_rem, signed_from_sat.
  unf. destruct (k =? 0) eqn:E; [reflexivity|].
  pose proof (rem_abs a k ltac:(lia)) as Q. revert Q. generalize (Z.rem a k). intros q Q.
  replace (a =? -9223372036854775808) with false by lia. cbn [orb andb].
  repeat destr_if; simpl; try lia; auto.
Qed.

Lemma within_id : forall lo hi x, lo <= x <= hi -> within lo hi x = Some x.
Proof. intros; unfold within. replace ((lo <=? x) && (x <=? hi)) with true by lia. auto. Qed.

Lemma nor_ok_valid : forall A (o : option A) op, nor_ok (valid_or_error o op) = o.
Proof. destruct o; reflexivity. Qed.

Lemma run_amount_exact : forall c, chain_ok valid_amount is_u64 c ->
  exists r, run_amount c = Ret r /\ nor_ok r = exact 0 SUPPLY c.
Proof.
  induction c; cbn [chain_ok]; intros H; cbn [run_amount exact];
    repeat match goal with H : _ /\ _ |- _ => destruct H end;
    try (destruct IHc as (r1 & E1 & X1); [assumption|]);
    try (destruct IHc1 as (r1 & E1 & X1); [assumption|];
         destruct IHc2 as (r2 & E2 & X2); [assumption|]);
    try rewrite E1; try rewrite E2; cbn [rbind];
    try rewrite <- X1; try rewrite <- X2.
  all: repeat match goal with
    | r : num_op_result Z |- _ => destruct r
    | X : nor_ok (Valid _) = exact _ _ _ |- _ =>
        cbn [nor_ok] in X; symmetry in X; apply exact_range in X
    end; cbn [nor_ok nor_and_then nor_add nor_sub];
    try (eexists; split; [reflexivity|]; cbn [nor_ok];
         repeat match goal with |- context [if ?b then _ else _] => destruct b end; reflexivity).
  all: repeat match goal with
    | H : valid_amount ?a |- context [within 0 SUPPLY ?a] => rewrite (within_id 0 SUPPLY a H)
    end.
  all: first [ rewrite amount_add_spec by assumption | rewrite amount_sub_spec by assumption
    | rewrite amount_mul_spec by assumption | rewrite amount_div_spec by assumption
    | rewrite amount_rem_spec by assumption | idtac ];
    eexists; split; try reflexivity; try apply nor_ok_valid.
Qed.

Lemma run_signed_exact : forall c, chain_ok valid_signed is_i64 c ->
  nor_ok (run_signed c) = exact (-SUPPLY) SUPPLY c.
Proof.
  induction c; cbn [chain_ok]; intros H; cbn [run_signed exact];
    repeat match goal with H : _ /\ _ |- _ => destruct H end;
    try (specialize (IHc ltac:(assumption)); rewrite <- IHc; destruct (run_signed c));
    try (specialize (IHc1 ltac:(assumption)); rewrite <- IHc1; destruct (run_signed c1));
    try (specialize (IHc2 ltac:(assumption)); rewrite <- IHc2; destruct (run_signed c2)).
  all: cbn [nor_ok nor_and_then nor_sadd nor_ssub];
    try (repeat match goal with |- context [if ?b then _ else _] => destruct b end; reflexivity).
  all: repeat match goal with
    | X : nor_ok (Valid _) = exact _ _ _ |- _ =>
        cbn [nor_ok] in X; symmetry in X; apply exact_range in X
    end.
  all: repeat match goal with
    | H : valid_signed ?a |- context [within (-SUPPLY) SUPPLY ?a] => rewrite (within_id (-SUPPLY) SUPPLY a H)
    end.
  all: first [ rewrite signed_add_spec by assumption | rewrite signed_sub_spec by assumption
    | rewrite signed_mul_spec by assumption | rewrite signed_div_spec by assumption
    | rewrite signed_rem_spec by assumption | idtac ];
    try reflexivity; try apply nor_ok_valid.
Qed.

Lemma positive_sub_exact : forall a b, valid_signed a -> valid_signed b ->
  signed_positive_sub a b = if (0 <=? a) && (0 <=? b) && (b <=? a) then Some (a - b) else None.
Proof.
  intros a b Ha Hb. unfold signed_positive_sub, signed_checked_sub, i64_checked_sub, signed_from_sat.
  unf.
  destruct (Z.ltb_spec a 0), (Z.leb_spec 0 a); try lia; cbn [orb andb]; [reflexivity|].
  destruct (Z.ltb_spec b 0), (Z.leb_spec 0 b); try lia; cbn [orb andb]; [reflexivity|].
  destruct (Z.ltb_spec a b), (Z.leb_spec b a); try lia; [reflexivity|].
  repeat destr_if; simpl; try lia; auto.
Qed.
