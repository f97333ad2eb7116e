(** C48: dust limits and effective values. *)
From Verif Require Import Base MAmount SAmount LAmount LFee MDec MWitness MTx SWire LWire MTxSize LPredict MScript SScript LScript LScript4 PScript MSpend SSpend LSpend.
Local Open Scope N_scope.

(** The cheapest output that is not dust carries exactly Bitcoin Core's threshold at 3000 sat/kvB. *)
Theorem C48_dust : forall s, lenN s < 2 ^ 32 -> exists o size, txout_minimal_non_dust s = Ret o /\ to_script o = s /\
  spend_size o size /\ to_amount o = dust_threshold 3000 size.
Proof.
  intros s L. destruct (spend_size_of 0 s) as (size & SS & E).
  assert (B : size <= 2 ^ 33).
  { assert (EL : lenN (script_encode s) <= 9 + lenN s).
    { rewrite wire_bytes_eq. unfold wire_bytes. rewrite lenN_app. unfold wire_compact. repeat (match goal with |- context [if ?c then _ else _] => destruct c end); rewrite ?lenN_cons, ?lenN_le_bytes, ?lenN_nil; lia. }
    destruct (is_op_return s); [lia|]. destruct (is_witness_program s); change (107 / 4)%Z with 26%Z in E; lia. }
  unfold txout_minimal_non_dust, minimal_non_dust, minimal_non_dust_internal. rewrite E. unfold DUST_RELAY_TX_FEE, u64_checked_mul.
  destruct (Z.leb_spec (3000 * Z.of_N size) U64_MAX) as [U|U]; [|unfold U64_MAX in U; lia].
  assert (Q : (3000 * Z.of_N size / 1000 = 3 * Z.of_N size)%Z) by (symmetry; apply Z.div_unique with 0%Z; lia). rewrite Q.
  unfold amount_from_sat. destruct (Z.ltb_spec AMOUNT_MAX (3 * Z.of_N size)) as [X|_]; [unfold AMOUNT_MAX in X; lia|]. cbn [ok_opt rbind].
  eexists _, size. split; [reflexivity|]. cbn [to_script to_amount]. split; [reflexivity|]. split.
  - eapply spend_size_amount, SS.
  - unfold dust_threshold. assert (3000 * size / 1000 = 3 * size) as -> by (symmetry; apply N.div_unique with 0; lia). lia.
Qed.
(** At any other rate: the threshold with the rate rounded up to whole satoshi per 1000 vbytes, or
    nothing when an intermediate number or the threshold is out of range. *)
Theorem C48_dust_custom : forall s (rate : Z) k, SAmount.is_u64 rate -> lenN s < 2 ^ 32 -> is_ceil_div rate 1000 (Z.of_N k) ->
  exists size, spend_size {| to_amount := 0; to_script := s |} size /\
  (txout_minimal_non_dust_custom s rate =
   if (k * size <? 2 ^ 64) && (dust_threshold k size <=? 2100000000000000)
   then Some {| to_amount := dust_threshold k size; to_script := s |} else None).
Proof.
  intros s rate k R L K. destruct (spend_size_of 0 s) as (size & SS & E). exists size. split; [exact SS|].
  unfold txout_minimal_non_dust_custom, minimal_non_dust_custom, minimal_non_dust_internal. rewrite E.
  assert (feerate_to_kvb_ceil rate = Z.of_N k) as ->.
  { unfold feerate_to_kvb_ceil. apply (ceil_unique rate 1000); [lia| |exact K]. apply div_ceil_spec; [apply R|lia]. }
  unfold u64_checked_mul, dust_threshold. rewrite <- N2Z.inj_mul.
  destruct (Z.leb_spec (Z.of_N (k * size)) U64_MAX) as [U|U], (N.ltb_spec (k * size) (2 ^ 64)) as [V|V]; unfold U64_MAX in U; try lia; [|reflexivity].
  cbn [andb]. change 1000%Z with (Z.of_N 1000). rewrite <- N2Z.inj_div. unfold amount_from_sat, AMOUNT_MAX. change (21000000 * 100000000)%Z with 2100000000000000%Z.
  generalize (k * size / 1000). intro q.
  destruct (Z.ltb_spec 2100000000000000 (Z.of_N q)), (N.leb_spec q 2100000000000000); try lia; cbn [ok_opt]; [reflexivity|]. now rewrite N2Z.id.
Qed.
Example C48_dust_ex :
  txout_minimal_non_dust (t_p2pkh (repeat 0 20)) = Ret {| to_amount := 546; to_script := t_p2pkh (repeat 0 20) |} /\
  txout_minimal_non_dust (t_witness 0 (repeat 0 20)) = Ret {| to_amount := 294; to_script := t_witness 0 (repeat 0 20) |} /\
  txout_minimal_non_dust [106; 0] = Ret {| to_amount := 0; to_script := [106; 0] |}.
Proof. repeat split; vm_compute; reflexivity. Qed.

(** The effective value of an output is its value less the fee for the input that spends it, with
    the fee enough for the rate (and less than one more sat/kwu and one more satoshi); when that fee
    is over the money supply, less the supply. *)
Theorem C48_effective_value : forall (rate : Z) p (value : Z), SAmount.is_u64 rate -> valid_amount value ->
  4 * iwp_script p + iwp_witness p < 2 ^ 32 ->
  let weight := Z.of_N (160 + 4 * iwp_script p + iwp_witness p) in
  exists fee, effective_value rate p value = Ret (value - fee)%Z /\ valid_amount fee /\
    ((rate * weight <= 4000000 * fee < rate * weight + 4000 * weight + 4000000)%Z \/
     (fee = SUPPLY /\ exists k, is_ceil_div rate 4000 k /\ SUPPLY * 1000 < k * weight)%Z).
Proof.
  intros rate p value R V L weight. unfold effective_value, iwp_total_weight, iwp_witness_weight.
  unfold u32c. destruct (N.leb_spec (iwp_script p * 4 + iwp_witness p) U32_MAX) as [_|X]; [|change U32_MAX with (2 ^ 32 - 1) in X; lia]. cbn [rbind].
  unfold usz. match goal with |- context [if ?c then _ else _] => destruct c eqn:C end; [|apply N.ltb_ge in C; exfalso; revert C; change USIZE with (2 ^ 64); change (2 ^ 64) with 18446744073709551616; change (2 ^ 32) with 4294967296 in L; lia].
  cbn [rbind]. assert (Z.of_N (160 + (iwp_script p * 4 + iwp_witness p)) = weight) as -> by (unfold weight; lia).
  assert (W : SAmount.is_u64 weight) by (unfold SAmount.is_u64, weight; lia).
  unfold feerate_to_fee. destruct (feerate_mul_by_weight rate weight) as [f|op] eqn:F.
  - destruct (mul_by_weight_valid rate weight f R W F) as (VF & A & B). exists f. split; [now apply signed_sub_total|]. split; [auto|]. left. lia.
  - exists SUPPLY. assert (VS : valid_amount SUPPLY) by (unfold valid_amount, SUPPLY; lia). split; [apply (signed_sub_total value SUPPLY); auto|]. split; [auto|]. right. split; [reflexivity|].
    exists (u64_div_ceil rate 4000). split; [apply div_ceil_spec; [apply R|lia]|]. apply (mul_by_weight_error_iff rate weight R W). eauto.
Qed.
Example C48_effective_value_ex : effective_value 1000000 (iwp_from_slice 0 [72; 33]) 100000 = Ret 99932%Z.
Proof. vm_compute. reflexivity. Qed.
(** With a prediction too large for 32 bits of weight there is no effective value: it panics. *)
Theorem C48_effective_value_refuted : exists len, effective_value 1000000 (iwp_from_slice len []) 100000 = Panic.
Proof. exists (2 ^ 31). vm_compute. reflexivity. Qed.

Print Assumptions C48_dust.
Print Assumptions C48_dust_custom.
Print Assumptions C48_effective_value.
Print Assumptions C48_effective_value_refuted.
