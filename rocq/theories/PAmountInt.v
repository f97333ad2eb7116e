(** C17: amounts from small integers, and signs. *)
From Verif Require Import Base MAmount SAmount LAmount PAmount MAmountInt.
Local Open Scope Z_scope.

(** The constructors that take a small integer accept every value of its type, keep it, and never panic. *)
Theorem C17_small_integers : forall n,
  (0 <= n < 2 ^ 32 -> amount_from_sat_u32 n = Ret n /\ valid_amount n) /\
  (0 <= n < 2 ^ 16 -> amount_from_btc_u16 n = Ret (n * 100000000) /\ valid_amount (n * 100000000)) /\
  (- 2 ^ 31 <= n < 2 ^ 31 -> signed_from_sat_i32 n = Ret n /\ valid_signed n) /\
  (- 2 ^ 15 <= n < 2 ^ 15 -> signed_from_btc_i16 n = Ret (n * 100000000) /\ valid_signed (n * 100000000)).
Proof.
  intro n. change (2 ^ 32) with 4294967296. change (2 ^ 31) with 2147483648. change (2 ^ 16) with 65536. change (2 ^ 15) with 32768.
  assert (S : forall s, valid_signed s -> signed_from_sat s = Ok s).
  { intros s [A B]. unfold signed_from_sat, SIGNED_MIN, AMOUNT_MAX. unfold SUPPLY in *.
    destruct (Z.ltb_spec s (-21000000 * 100000000)); [lia|]. destruct (Z.ltb_spec (21000000 * 100000000) s); [lia|reflexivity]. }
  assert (U : forall s, valid_amount s -> amount_from_sat s = Ok s).
  { intros s [A B]. unfold amount_from_sat, AMOUNT_MAX. unfold SUPPLY in *. destruct (Z.ltb_spec (21000000 * 100000000) s); [lia|reflexivity]. }
  split; [|split; [|split]]; intro R.
  - assert (V : valid_amount n) by (unfold valid_amount, SUPPLY; lia). unfold amount_from_sat_u32. rewrite (U n V). auto.
  - assert (V : valid_amount (n * 100000000)) by (unfold valid_amount, SUPPLY; lia). unfold amount_from_btc_u16. rewrite (U _ V). auto.
  - assert (V : valid_signed n) by (unfold valid_signed, SUPPLY; lia). unfold signed_from_sat_i32. rewrite (S n V). auto.
  - assert (V : valid_signed (n * 100000000)) by (unfold valid_signed, SUPPLY; lia). unfold signed_from_btc_i16. cbv zeta. rewrite (S _ V).
    destruct (Z.leb_spec (-9223372036854775808) (n * 100000000)); [|lia]. destruct (Z.leb_spec (n * 100000000) 9223372036854775807); [auto|lia].
Qed.
Print Assumptions C17_small_integers.
(** An amount is its sign times its absolute value, and the three ways to ask for the sign agree. *)
Theorem C17_sign : forall a, valid_signed a ->
  (exists m, signed_unsigned_abs a = Ret m /\ signed_signum a * m = a) /\
  (signed_signum a = 0 <-> a = 0) /\ (signed_signum a = 1 <-> 0 < a) /\ (signed_signum a = -1 <-> a < 0) /\
  (signed_is_positive a = true <-> 0 < a) /\ (signed_is_negative a = true <-> a < 0) /\
  (exists n, signed_neg a = Ret n /\ signed_signum n = - signed_signum a).
Proof.
  intros a V. destruct (C17_signed_conversions_total a V) as (_ & A & N1 & _).
  assert (K : signed_signum a = Z.sgn a /\ forall b, signed_signum b = Z.sgn b).
  { assert (G : forall b, signed_signum b = Z.sgn b) by (intro b; unfold signed_signum; destruct (Z.ltb_spec b 0); [lia|]; destruct (Z.eqb_spec b 0); lia). auto. }
  destruct K as [K G]. rewrite K. split; [exists (Z.abs a); split; [exact A|lia]|].
  unfold signed_is_positive, signed_is_negative. split; [lia|]. split; [lia|]. split; [lia|]. split; [lia|]. split; [lia|].
  exists (- a). split; [exact N1|]. rewrite G. lia.
Qed.
Print Assumptions C17_sign.
Example C17_small_ex : signed_from_btc_i16 (-32768) = Ret (-3276800000000) /\ signed_from_sat_i32 (-2147483648) = Ret (-2147483648) /\
  valid_signed (-7) /\ signed_signum (-7) = -1.
Proof. unfold valid_signed, SUPPLY. repeat split; lia. Qed.
