(** C22: 256-bit integers are exact arithmetic modulo 2^256. *)
From Coq Require Import String.
From Verif Require Import Base MText SText LText MU256 SU256 LU256 LU256T LU256F LU256P.
Local Open Scope N_scope.

(** Addition: the sum modulo 2^256, the flag set exactly when the sum does not fit.  The operator
    [+] panics exactly then. *)
Theorem C22_add : forall a b, u256_ok a -> u256_ok b ->
  is (fst (overflowing_add a b)) ((value a + value b) mod 2 ^ 256) /\
  (snd (overflowing_add a b) = true <-> 2 ^ 256 <= value a + value b) /\
  is (wrapping_add a b) ((value a + value b) mod 2 ^ 256) /\
  (u_add a b = Panic <-> 2 ^ 256 <= value a + value b) /\
  (forall r, u_add a b = Ret r -> is r (value a + value b)).
Proof.
  intros a b A B. apply ok_wf in A, B. unfold wrapping_add, u_add. rewrite !value_val, add_val, W256_pow by auto. cbn [fst snd].
  split; [apply is_mod|]. split; [apply N.leb_le|]. split; [apply is_mod|].
  destruct (N.leb_spec (2 ^ 256) (val a + val b)) as [L|L]; split; try tauto; try discriminate.
  - split; [discriminate|]. intro. exfalso. apply (N.lt_irrefl (2 ^ 256)). now apply N.le_lt_trans with (val a + val b).
  - intros r H. inv H. rewrite N.mod_small by auto. now apply is_of.
Qed.

(** Subtraction: the difference modulo 2^256, the flag set exactly when it would be negative. *)
Theorem C22_sub : forall a b, u256_ok a -> u256_ok b ->
  is (fst (overflowing_sub a b)) ((value a + (2 ^ 256 - value b)) mod 2 ^ 256) /\
  (snd (overflowing_sub a b) = true <-> value a < value b) /\
  is (wrapping_sub a b) ((value a + (2 ^ 256 - value b)) mod 2 ^ 256) /\
  (u_sub a b = Panic <-> value a < value b) /\
  (forall r, u_sub a b = Ret r -> is r (value a - value b)).
Proof.
  intros a b A B. apply ok_wf in A, B. unfold wrapping_sub, u_sub. rewrite !value_val, sub_val, W256_pow by auto. cbn [fst snd].
  split; [apply is_mod|]. split; [apply N.ltb_lt|]. split; [apply is_mod|].
  destruct (N.ltb_spec (val a) (val b)) as [L|L]; split; try tauto; try discriminate.
  - split; [discriminate|]. intro. exfalso. apply (N.lt_irrefl (val a)). now apply N.lt_le_trans with (val b).
  - intros r H. assert (r = of_val ((val a + (2 ^ 256 - val b)) mod 2 ^ 256)) as -> by congruence. pose proof (val_lt a A) as LA. pose proof (val_lt b B) as LB. rewrite <- W256_pow.
    assert (E : (val a + (W256 - val b)) mod W256 = val a - val b).
    { symmetry. apply N.mod_unique with 1; [lia|]. lia. }
    rewrite E. apply is_of. rewrite <- W256_pow. lia.
Qed.

(** Multiplication by a 64-bit and by a 256-bit number. *)
Theorem C22_mul : forall a b, u256_ok a -> u256_ok b ->
  (exists r o, overflowing_mul a b = Ret (r, o) /\ is r ((value a * value b) mod 2 ^ 256) /\
     (o = true <-> 2 ^ 256 <= value a * value b)) /\
  (u_mul a b = Panic <-> 2 ^ 256 <= value a * value b) /\
  (forall r, u_mul a b = Ret r -> is r (value a * value b)).
Proof.
  intros a b A B. apply ok_wf in A, B. unfold u_mul. rewrite !value_val, mul_val, W256_pow by auto. cbn [rbind].
  split; [eexists _, _; split; [reflexivity|]; split; [apply is_mod|apply N.leb_le]|].
  destruct (N.leb_spec (2 ^ 256) (val a * val b)) as [L|L]; split; try tauto; try discriminate.
  - split; [discriminate|]. intro. exfalso. apply (N.lt_irrefl (2 ^ 256)). now apply N.le_lt_trans with (val a * val b).
  - intros r H. inv H. rewrite N.mod_small by auto. now apply is_of.
Qed.
Theorem C22_mul_u64 : forall a m, u256_ok a -> m < 2 ^ 64 ->
  exists r o, mul_u64 a m = Ret (r, o) /\ is r ((value a * m) mod 2 ^ 256) /\ (o = true <-> 2 ^ 256 <= value a * m).
Proof.
  intros a m A M. apply ok_wf in A. rewrite <- W64_pow in M. rewrite value_val, mul_u64_val, W256_pow by auto.
  eexists _, _; split; [reflexivity|]; split; [apply is_mod|apply N.leb_le].
Qed.

(** Division with remainder: quotient and remainder of the integers; panics exactly on zero. *)
Theorem C22_div : forall a b, u256_ok a -> u256_ok b -> value b <> 0 ->
  (exists q r, div_rem a b = Ret (q, r) /\ is q (value a / value b) /\ is r (value a mod value b)) /\
  (exists q, u_div a b = Ret q /\ is q (value a / value b)) /\
  (exists r, u_rem a b = Ret r /\ is r (value a mod value b)).
Proof.
  intros a b A B NZ. pose proof (ok_lt a A) as LA. pose proof (ok_lt b B) as LB. apply ok_wf in A, B. rewrite !value_val in *.
  assert (Q : val a / val b < 2 ^ 256) by (apply N.le_lt_trans with (val a); auto; now apply div_le_self).
  assert (R : val a mod val b < 2 ^ 256) by (apply N.lt_trans with (val b); auto; now apply N.mod_lt).
  unfold u_div, u_rem. rewrite div_rem_val by auto. cbn [rbind].
  split; [exists (of_val (val a / val b)), (of_val (val a mod val b)); auto using is_of|].
  split; eexists; split; try reflexivity; now apply is_of.
Qed.
Theorem C22_div_zero : forall a b, u256_ok a -> is b 0 -> div_rem a b = Panic /\ u_div a b = Panic /\ u_rem a b = Panic.
Proof.
  intros a b A B. apply is_eq in B. subst b. assert (E : div_rem a (of_val 0) = Panic) by reflexivity.
  unfold u_div, u_rem. now rewrite E.
Qed.

(** Shifts (the amount is taken modulo 256), increment, complement. *)
Theorem C22_shift : forall a s, u256_ok a ->
  (exists r, wrapping_shl a s = Ret r /\ is r ((value a * 2 ^ (s mod 256)) mod 2 ^ 256)) /\
  (exists r, wrapping_shr a s = Ret r /\ is r (value a / 2 ^ (s mod 256))).
Proof.
  intros a s A. pose proof (ok_lt a A) as LA. apply ok_wf in A. rewrite value_val in *.
  assert (S : s mod 256 < 256) by (apply N.mod_lt; discriminate).
  assert (E1 : wrapping_shl a s = wrapping_shl a (s mod 256)) by (unfold wrapping_shl; now rewrite N.mod_mod by discriminate).
  assert (E2 : wrapping_shr a s = wrapping_shr a (s mod 256)) by (unfold wrapping_shr; now rewrite N.mod_mod by discriminate).
  rewrite E1, E2, shl_val, shr_val, W256_pow by auto. split; eexists; split; try reflexivity; [apply is_mod|].
  apply is_of. rewrite <- W256_pow in *. now apply div_lt256.
Qed.
Theorem C22_inc_not : forall a, u256_ok a ->
  is (wrapping_inc a) ((value a + 1) mod 2 ^ 256) /\ is (u_not a) (2 ^ 256 - 1 - value a).
Proof.
  intros a A. pose proof (ok_lt a A) as LA. apply ok_wf in A. rewrite value_val in *. rewrite inc_val, not_val, W256_pow by auto.
  split; [apply is_mod|]. apply is_of. revert LA. generalize (2 ^ 256). intros; lia.
Qed.

(** Comparison, equality and the number of bits. *)
Theorem C22_order : forall a b, u256_ok a -> u256_ok b ->
  (u_ltb a b = true <-> value a < value b) /\ (u_leb a b = true <-> value a <= value b) /\
  (u_eqb a b = true <-> value a = value b) /\ (value a = value b -> a = b).
Proof.
  intros a b A B. apply ok_wf in A, B. rewrite !value_val, ltb_val, leb_val, eqb_val by auto.
  rewrite N.ltb_lt, N.leb_le, N.eqb_eq. repeat split; auto. now apply val_inj.
Qed.
Theorem C22_bits : forall a, u256_ok a ->
  bits a <= 256 /\ value a < 2 ^ bits a /\ (value a <> 0 -> 2 ^ (bits a - 1) <= value a) /\ (value a = 0 -> bits a = 0).
Proof.
  intros a A. pose proof (ok_lt a A) as LA. apply ok_wf in A. rewrite value_val, bits_val in * by auto.
  split; [now apply size_lt|]. split; [apply size_bound|]. split; [apply size_le|]. intros ->. reflexivity.
Qed.
Theorem C22_tests : forall a, u256_ok a ->
  (is_zero a = true <-> value a = 0) /\ (is_one a = true <-> value a = 1) /\ (is_max a = true <-> value a = 2 ^ 256 - 1) /\
  low_u32 a = value a mod 2 ^ 32 /\ low_u64 a = value a mod 2 ^ 64 /\ saturating_to_u128 a = N.min (value a) (2 ^ 128 - 1).
Proof.
  intros a A. apply ok_wf in A. rewrite value_val, is_zero_val, is_one_val, is_max_val, low_u32_of, low_u64_val, sat128_val by auto.
  rewrite !N.eqb_eq, W256_pow, W64_pow, W128_pow. repeat split; auto.
Qed.
Theorem C22_constants : is U_ZERO 0 /\ is U_ONE 1 /\ is U_MAX (2 ^ 256 - 1) /\ (forall x, x < 2 ^ 128 -> is (u_from x) x).
Proof.
  split; [apply (is_of 0); reflexivity|]. split; [apply (is_of 1); reflexivity|]. split; [rewrite max_of, W256_pow; apply is_of; reflexivity|].
  intros x H. rewrite <- W128_pow in H. rewrite from_of by auto. apply is_of. apply N.lt_trans with W128; auto. reflexivity.
Qed.

(** Bytes, little and big endian: 32 of them, the digits of the value in base 256, and back. *)
Theorem C22_bytes : forall a, u256_ok a ->
  to_le_bytes a = le_bytes 32 (value a) /\ to_be_bytes a = rev (le_bytes 32 (value a)) /\
  from_le_bytes (to_le_bytes a) = a /\ from_be_bytes (to_be_bytes a) = a.
Proof.
  intros a A. apply ok_wf in A. rewrite value_val. split; [now apply to_le_val|]. split; [now apply to_be_val|].
  pose proof (val_lt a A) as LA. destruct (to_be_ok a A) as [OK LN]. split.
  - rewrite to_le_val by auto. rewrite from_le_of by (auto using le_bytes_ok, le_bytes_length).
    rewrite le_val_bytes by exact LA. now apply of_val_val.
  - rewrite from_be_of by auto. rewrite be_bytes_val by auto. now apply of_val_val.
Qed.
Theorem C22_from_bytes : forall b, bytes_ok b -> length b = 32%nat ->
  is (from_le_bytes b) (le_val b) /\ is (from_be_bytes b) (le_val (rev b)) /\
  to_le_bytes (from_le_bytes b) = b /\ to_be_bytes (from_be_bytes b) = b.
Proof.
  intros b OK L. assert (OKR : bytes_ok (rev b)) by (unfold bytes_ok; now apply Forall_rev).
  assert (LR : length (rev b) = 32%nat) by now rewrite rev_length.
  pose proof (bytes_val_lt b OK L) as V1. pose proof (bytes_val_lt (rev b) OKR LR) as V2.
  rewrite from_le_of, from_be_of by auto. split; [apply is_of; rewrite <- W256_pow; auto|]. split; [apply is_of; rewrite <- W256_pow; auto|].
  rewrite to_le_val, to_be_val by (apply wf_of; auto). rewrite !val_of. split.
  - rewrite <- L. now apply le_bytes_val.
  - unfold be_bytes, be_val. rewrite <- LR. rewrite le_bytes_val by auto. apply rev_involutive.
Qed.

(** Decimal, binary, octal: the shortest numeral of the value.  Hex: 64 digits of the value. *)
Theorem C22_decimal : forall a, u256_ok a ->
  exists s, u_display a = Ret s /\ numeral digit10 10 s (value a) /\ shortest s (value a).
Proof.
  intros a A. apply ok_wf in A. rewrite value_val. exists (fmt_u (val a)). split; [now apply display_ok|].
  destruct (fmt_u_canonical (val a)) as (X & Y & Z). split; auto. split; auto.
Qed.
Theorem C22_binary_octal : forall a, u256_ok a ->
  (exists s, u_binary a = Ret s /\ numeral (digit_upto 2) 2 s (value a) /\ shortest s (value a)) /\
  (exists s, u_octal a = Ret s /\ numeral (digit_upto 8) 8 s (value a) /\ shortest s (value a)).
Proof.
  intros a A. apply ok_wf in A. rewrite value_val. split.
  - destruct (radix_text_ok 1 256 a) as (t & E & N1 & Z1 & H1); auto; try discriminate. exists t. split; [exact E|]. split; [exact N1|]. split; auto.
  - destruct (radix_text_ok 3 86 a) as (t & E & N1 & Z1 & H1); auto; try discriminate. exists t. split; [exact E|]. split; [exact N1|]. split; auto.
Qed.
Theorem C22_hex : forall up a, u256_ok a ->
  numeral digit16 16 (u_hex up false a) (value a) /\ length (u_hex up false a) = 64%nat /\
  u_hex up true a = lit "0x" ++ u_hex up false a /\
  hex_u256_unprefixed (u_hex up false a) = Ok (value a) /\ hex_u256_prefixed (u_hex up true a) = Ok (value a).
Proof.
  intros up a A. apply ok_wf in A. rewrite value_val. split; [now apply hex_print_numeral|]. split.
  { unfold u_hex. cbn [app]. destruct (to_be_ok a A) as [OK LN]. rewrite (hex_of_length _ _ (hex_bytes_of up _ OK)), LN. reflexivity. }
  split; [reflexivity|]. split; [now apply hex_print_unprefixed|now apply hex_print_prefixed].
Qed.

(** Parsing a decimal numeral of any length gives the number, or the overflow error exactly when it
    is 2^256 or more; printing parses back; parsing never panics. *)
Theorem C22_parse : forall s n, numeral digit10 10 s n ->
  (n < 2 ^ 256 -> exists u, u_from_str s = Ret (Ok u) /\ is u n) /\
  (2 ^ 256 <= n -> u_from_str s = Ret (Err UOverflow)).
Proof.
  intros s n H. rewrite (from_str_digits s n H), W256_pow. destruct (N.ltb_spec n (2 ^ 256)) as [L|L]; split; intro X; auto.
  - eexists; split; [reflexivity|]. now apply is_of.
  - exfalso. apply (N.lt_irrefl n). now apply N.lt_le_trans with (2 ^ 256).
  - exfalso. apply (N.lt_irrefl n). now apply N.lt_le_trans with (2 ^ 256).
Qed.
Theorem C22_parse_print : forall a s, u256_ok a -> u_display a = Ret s -> u_from_str s = Ret (Ok a).
Proof.
  intros a s A H. apply ok_wf in A. rewrite display_ok in H by auto. inv H. apply from_str_noplus.
  - intro I. destruct (fmt_u_canonical (val a)) as (X & _). apply (numeral_in _ _ _ _ _ X) in I as [d D]. unfold digit10 in D. lia.
  - split; auto. apply fmt_u_canonical.
Qed.
Theorem C22_parse_exact : forall s u, ~ In 43 s -> u_from_str s = Ret (Ok u) -> numeral digit10 10 s (value u) /\ u256_ok u.
Proof. intros s u NP H. apply from_str_noplus in H as [W NU]; [|auto]. rewrite value_val. split; [exact NU|]. now apply ok_wf. Qed.
Theorem C22_parse_total : forall s, u_from_str s <> Panic.
Proof. intro s. destruct (from_str_total s) as (r & -> & _). discriminate. Qed.
(** Without the condition on the plus sign the claim is false: text is parsed 38 characters at a
    time and each piece may have its own plus sign. *)
Theorem C22_parse_exact_refuted : exists s u, u_from_str s = Ret (Ok u) /\ ~ (exists n, numeral digit10 10 s n) /\
  ~ (exists t n, s = 43 :: t /\ numeral digit10 10 t n).
Proof.
  exists (lit "1+0000000000000000000000000000000000007"). eexists. split; [vm_compute; reflexivity|]. split.
  - intros (n & H). assert (I : In 43 (lit "1+0000000000000000000000000000000000007")) by (right; now left).
    apply (numeral_in _ _ _ _ _ H) in I as [d D]. unfold digit10 in D. lia.
  - intros (t & n & E & _). discriminate.
Qed.

(** Conversion to a double is correctly rounded: no double is nearer, and a tie goes to the even one. *)
Theorem C22_to_f64 : forall a, u256_ok a -> exists b, to_f64_bits a = Ret b /\ f64_finite b /\
  forall b', f64_finite b' ->
    (distance (f64_units b) (value a * 2 ^ 1074) <= distance (f64_units b') (value a * 2 ^ 1074))%Z /\
    (distance (f64_units b) (value a * 2 ^ 1074) = distance (f64_units b') (value a * 2 ^ 1074) -> b' <> b -> N.even b = true).
Proof.
  intros a A. apply ok_wf in A. rewrite value_val. destruct (to_f64_nearest a A) as (b & E & F & H). exists b. auto.
Qed.

(** The hypotheses are met, and by interesting values. *)
Example C22_nonvacuous :
  let a := U 5 7 in let b := U (2 ^ 128 - 1) 3 in
  u256_ok a /\ u256_ok b /\ snd (overflowing_add a b) = true /\ fst (overflowing_add a b) = U 4 10 /\
  snd (overflowing_sub a b) = true /\
  (exists r, overflowing_mul a b = Ret (r, true)) /\ (exists r, overflowing_mul a (U 0 11) = Ret (r, false)) /\
  div_rem b a = Ret (U 0 68056473384187692692674921486353642290, U 3 204169420152563078078024764459060926885) /\
  u_display (U 1 0) = Ret (lit "340282366920938463463374607431768211456") /\
  u_from_str (lit "340282366920938463463374607431768211457") = Ret (Ok (U 1 1)) /\
  u_from_str (lit "115792089237316195423570985008687907853269984665640564039457584007913129639936") = Ret (Err UOverflow) /\
  to_f64_bits (U 1 0) = Ret 0x47F0000000000000.
Proof.
  cbv zeta. split; [split; reflexivity|]. split; [split; reflexivity|].
  repeat match goal with |- _ /\ _ => split end; try (vm_compute; reflexivity); eexists; vm_compute; reflexivity.
Qed.

Print Assumptions C22_add.
Print Assumptions C22_sub.
Print Assumptions C22_mul.
Print Assumptions C22_mul_u64.
Print Assumptions C22_div.
Print Assumptions C22_div_zero.
Print Assumptions C22_shift.
Print Assumptions C22_inc_not.
Print Assumptions C22_order.
Print Assumptions C22_bits.
Print Assumptions C22_tests.
Print Assumptions C22_constants.
Print Assumptions C22_bytes.
Print Assumptions C22_from_bytes.
Print Assumptions C22_decimal.
Print Assumptions C22_binary_octal.
Print Assumptions C22_hex.
Print Assumptions C22_parse.
Print Assumptions C22_parse_print.
Print Assumptions C22_parse_exact.
Print Assumptions C22_parse_total.
Print Assumptions C22_parse_exact_refuted.
Print Assumptions C22_to_f64.
