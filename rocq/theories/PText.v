(** C37 integer parsing; C44 hash and outpoint text. *)
From Coq Require Import String.
From Verif Require Import Base MWitness MAmount MTx MLock SLock MText SText LText.
Local Open Scope N_scope.

(** Decimal parsing accepts exactly the numerals of numbers in the type's range, with an optional
    sign, and returns that number; every integer type. *)
Theorem C37_decimal : forall t s z, 1 <= i_bits t ->
  (int_from_str t s = Ok z <-> int_text digit10 10 (i_signed t) s z /\ int_range t z).
Proof. exact int_ok. Qed.

(** A numeral denotes at most one number. *)
Theorem C37_unambiguous : forall s n n',
  (numeral digit10 10 s n -> numeral digit10 10 s n' -> n = n') /\
  (numeral digit16 16 s n -> numeral digit16 16 s n' -> n = n').
Proof. intros; split; apply numeral_fun; [apply digit10_inj|apply digit16_inj]. Qed.

(** The error repeats the input and the type, and its kind is right: a prefix of the digits is
    already out of range, or some character is no digit, or the text is empty. *)
Theorem C37_decimal_error : forall t s e, int_from_str t s = Err e ->
  pe_input e = s /\ pe_bits e = i_bits t /\ pe_signed e = i_signed t /\
  match pe_source e with
  | IEmpty => s = []
  | IInvalidDigit => exists c, In c s /\ forall d, ~ digit10 c d
  | IPosOverflow => exists p q n, (s = p ++ q \/ s = 43 :: p ++ q) /\ numeral digit10 10 p n /\ i_hi t < n
  | INegOverflow => i_signed t = true /\ exists p q n, s = 45 :: p ++ q /\ numeral digit10 10 p n /\ i_lo t < n
  end.
Proof.
  intros t s e H. unfold int_from_str in H. destruct (from_str_radix _ _ _ _ _) as [|k] eqn:E; [discriminate|].
  inv H. cbn. repeat split; auto. apply (radix_err 10 digit10) in E; [|exact good10].
  destruct E as [[-> ->]|[[-> X]|[[-> [X|(u & -> & X)]]|[-> [Y (u & -> & X)]]]]]; auto.
  - destruct X as (p & q & n & -> & N1 & L). exists p, q, n. auto.
  - destruct X as (p & q & n & -> & N1 & L). exists p, q, n. auto.
  - split; auto. destruct X as (p & q & n & -> & N1 & L). exists p, q, n. auto.
Qed.

(** Printing then parsing gives the number back, and the printed text is the shortest. *)
Theorem C37_decimal_round_trip : forall t z, 1 <= i_bits t -> int_range t z -> int_from_str t (fmt_i z) = Ok z.
Proof.
  intros t z B R. apply int_ok; auto. split; auto. apply fmt_i_text.
  unfold int_range in R. destruct (i_signed t); [auto|right; lia].
Qed.
Theorem C37_printed : forall n s, canonical s n <-> s = fmt_u n.
Proof. intros n s. split; [apply fmt_u_unique|intros ->; apply fmt_u_canonical]. Qed.

(** Hex parsing of u16, u32, u64 and u128: exactly the hex numerals (either case, optional plus) in
    range, after the prefix the function asks for. *)
Theorem C37_hex : forall bits s n,
  (hex_prefixed bits s = Ok n <->
   exists p t, hex_prefix p /\ s = p ++ t /\ int_text digit16 16 false t (Z.of_N n) /\ n < 2 ^ bits) /\
  (hex_unprefixed bits s = Ok n <->
   (forall p t, hex_prefix p -> s <> p ++ t) /\ int_text digit16 16 false s (Z.of_N n) /\ n < 2 ^ bits) /\
  (hex_any bits s = Ok n <-> hex_prefixed bits s = Ok n \/ hex_unprefixed bits s = Ok n).
Proof.
  intros bits s n.
  assert (A : hex_prefixed bits s = Ok n <->
   exists p t, hex_prefix p /\ s = p ++ t /\ int_text digit16 16 false t (Z.of_N n) /\ n < 2 ^ bits).
  { unfold hex_prefixed. split.
    - destruct (hex_remove_prefix s) as [t|] eqn:E; [|discriminate].
      apply remove_prefix_ok in E as (p & HP & ->). destruct (hex_unchecked bits t) eqn:U; [|discriminate].
      intro H; inv H. apply hex_unchecked_ok in U as [T L]. exists p, t. auto.
    - intros (p & t & HP & -> & T & L). rewrite (proj2 (remove_prefix_ok (p ++ t) t)) by eauto.
      rewrite (proj2 (hex_unchecked_ok bits t n)); auto. }
  assert (B : hex_unprefixed bits s = Ok n <->
   (forall p t, hex_prefix p -> s <> p ++ t) /\ int_text digit16 16 false s (Z.of_N n) /\ n < 2 ^ bits).
  { unfold hex_unprefixed. split.
    - destruct (hex_check_unprefixed s) as [t|] eqn:E; [|discriminate].
      apply check_unprefixed_ok in E as (-> & H). destruct (hex_unchecked bits t) eqn:U; [|discriminate].
      intro X; inv X. apply hex_unchecked_ok in U as [T L]. auto.
    - intros (H & T & L). rewrite (proj2 (check_unprefixed_ok s s)) by auto.
      rewrite (proj2 (hex_unchecked_ok bits s n)); auto. }
  split; [exact A|]. split; [exact B|]. rewrite A, B. unfold hex_any. rewrite hex_unchecked_ok.
  destruct (optional_prefix s) as [(p & HP & E)|[E H]].
  - split.
    + intros [T L]. left. exists p, (hex_remove_optional_prefix s). auto.
    + intros [(p' & t & HP' & E' & T & L)|(H & _)].
      * replace (hex_remove_optional_prefix s) with t; auto. rewrite E in E'.
        destruct HP as [->| ->], HP' as [->| ->]; inv E'; auto.
      * exfalso. now apply (H p (hex_remove_optional_prefix s)).
  - rewrite E. split; [tauto|]. intros [(p & t & HP & E' & _)|X]; [exfalso; now apply (H p t)|tauto].
Qed.

(** At most one of the prefixed and unprefixed parsers accepts a text. *)
Theorem C37_hex_exclusive : forall bits s n m, hex_prefixed bits s = Ok n -> hex_unprefixed bits s <> Ok m.
Proof.
  intros bits s n m H X. apply C37_hex in H as (p & t & HP & -> & _). apply C37_hex in X as (Y & _).
  now apply (Y p t).
Qed.

(** Hex printing in either case reads back, with the prefix it is printed with under [#]. *)
Theorem C37_hex_round_trip : forall bits upper n p, n < 2 ^ bits -> hex_prefix p ->
  hex_unprefixed bits (fmt_x upper n) = Ok n /\ hex_prefixed bits (p ++ fmt_x upper n) = Ok n.
Proof.
  intros bits u n p L HP. pose proof (fmt_x_numeral u n) as N1. split.
  - apply C37_hex. repeat split; auto; [|now constructor].
    intros q t HQ E. rewrite E in N1.
    assert (I : exists c, In c (q ++ t) /\ (c = 120 \/ c = 88)).
    { destruct HQ as [->| ->]; eexists; (split; [right; left; reflexivity|auto]). }
    destruct I as (c & I & C). destruct (numeral_in _ _ _ _ _ N1 I) as [d D].
    unfold digit16, digit10 in D. lia.
  - apply C37_hex. exists p, (fmt_x u n). repeat split; auto. now constructor.
Qed.

(** 256-bit hex (Work and Target): without a plus sign, exactly the hex numerals below 2^256. *)
Theorem C37_hex256 : forall s n, ~ In 43 s ->
  (hex_u256_prefixed s = Ok n <->
   exists p t, hex_prefix p /\ s = p ++ t /\ numeral digit16 16 t n /\ n < 2 ^ 256) /\
  (hex_u256_unprefixed s = Ok n <->
   (forall p t, hex_prefix p -> s <> p ++ t) /\ numeral digit16 16 s n /\ n < 2 ^ 256).
Proof.
  intros s n NP. split.
  - unfold hex_u256_prefixed. split.
    + destruct (hex_remove_prefix s) as [t|] eqn:E; [|discriminate].
      apply remove_prefix_ok in E as (p & HP & ->). destruct (hex_u256_unchecked t) eqn:U; [|discriminate].
      intro H. assert (a = n) by congruence. subst a. clear H.
      apply hex256_ok in U as [T L]; [exists p, t; auto|]. intro X. apply NP, in_or_app. auto.
    + intros (p & t & HP & -> & T & L). rewrite (proj2 (remove_prefix_ok (p ++ t) t)) by eauto.
      rewrite (proj2 (hex256_ok t n ltac:(intro X; apply NP, in_or_app; auto))); auto.
  - unfold hex_u256_unprefixed. split.
    + destruct (hex_check_unprefixed s) as [t|] eqn:E; [|discriminate].
      apply check_unprefixed_ok in E as (-> & H). destruct (hex_u256_unchecked t) eqn:U; [|discriminate].
      intro X. assert (a = n) by congruence. subst a. clear X. apply hex256_ok in U as [T L]; auto.
    + intros (H & T & L). rewrite (proj2 (check_unprefixed_ok s s)) by auto.
      rewrite (proj2 (hex256_ok s n NP)); auto.
Qed.
(** With a plus sign it accepts texts that are no numerals at all: the sign may stand before the
    last 31 digits. *)
Theorem C37_hex256_plus_refuted : exists s n, hex_u256_unprefixed s = Ok n /\
  ~ exists z, int_text digit16 16 false s z.
Proof.
  exists (49 :: 43 :: repeat 48 31), (2 ^ 128). split; [vm_compute; reflexivity|].
  intros (z & H).
  assert (X : forall m, ~ numeral digit16 16 (49 :: 43 :: repeat 48 31) m).
  { intros m N1. destruct (numeral_in _ _ _ _ 43 N1) as [d D]; [now right; left|]. unfold digit16, digit10 in D. lia. }
  inv H; try discriminate. now apply (X n).
Qed.

(** Lock times, heights and median times from text. *)
Theorem C37_lock_time : forall s l,
  (lock_time_from_str s = Ret (Ok l) <-> abs_ok l /\ int_text digit10 10 false s (Z.of_N (abs_to_consensus l))) /\
  (height_from_str s = Ok (abs_to_consensus l) /\ (exists h, l = ABlocks h) <->
   abs_ok l /\ (exists h, l = ABlocks h) /\ int_text digit10 10 true s (Z.of_N (abs_to_consensus l))) /\
  (mtp_from_str s = Ok (abs_to_consensus l) /\ (exists t, l = ASeconds t) <->
   abs_ok l /\ (exists t, l = ASeconds t) /\ int_text digit10 10 true s (Z.of_N (abs_to_consensus l))).
Proof.
  intros s l. split; [|split].
  - unfold lock_time_from_str. split.
    + destruct (int_from_str U32t s) as [z|] eqn:E; [|discriminate].
      apply int_ok in E as [T R]; [|cbn; lia]. unfold int_range in R. cbn [U32t i_signed i_bits] in R, T.
      unfold abs_from_consensus, height_from_u32, mtp_from_u32, is_block_height, is_block_time, LOCK_TIME_THRESHOLD.
      destruct (N.ltb_spec (Z.to_N z) 500000000) as [B|B]; cbn [expect rbind].
      * intro H. inv H. cbn [abs_ok abs_to_consensus]. rewrite Z2N.id by lia. split; auto.
      * destruct (N.leb_spec 500000000 (Z.to_N z)); [|lia]. cbn [expect rbind].
        intro H1. inv H1. cbn [abs_ok abs_to_consensus]. unfold mtp_ok. rewrite Z2N.id by lia. split; auto. lia.
    + intros [A T]. assert (R : abs_to_consensus l < 2 ^ 32) by (destruct l; cbn in *; unfold height_ok, mtp_ok in *; lia).
      rewrite (proj2 (int_ok U32t s (Z.of_N (abs_to_consensus l)) ltac:(cbn; lia))).
      2:{ split; auto. unfold int_range. cbn [U32t i_signed i_bits]. lia. }
      rewrite N2Z.id. unfold abs_from_consensus, height_from_u32, mtp_from_u32, is_block_height, is_block_time, LOCK_TIME_THRESHOLD.
      destruct l as [h|t]; cbn [abs_to_consensus abs_ok] in *; unfold height_ok, mtp_ok in *.
      * destruct (N.ltb_spec h 500000000); [reflexivity|lia].
      * destruct (N.ltb_spec t 500000000); [lia|]. destruct (N.leb_spec 500000000 t); [reflexivity|lia].
  - unfold height_from_str. rewrite height_parse.
    2:{ unfold height_from_u32. intros n m. destr_if; [intro H; now inv H|discriminate]. }
    unfold height_from_u32, is_block_height, LOCK_TIME_THRESHOLD. split.
    + intros ((T & L & F) & (h & ->)). cbn [abs_to_consensus abs_ok] in *. unfold height_ok.
      destruct (N.ltb_spec h 500000000); [|discriminate]. repeat split; eauto.
    + intros (A & (h & ->) & T). cbn [abs_to_consensus abs_ok] in *. unfold height_ok in A.
      destruct (N.ltb_spec h 500000000); [|lia]. repeat split; eauto. lia.
  - unfold mtp_from_str. rewrite height_parse.
    2:{ unfold mtp_from_u32. intros n m. destr_if; [intro H; now inv H|discriminate]. }
    unfold mtp_from_u32, is_block_time, LOCK_TIME_THRESHOLD. split.
    + intros ((T & L & F) & (h & ->)). cbn [abs_to_consensus abs_ok] in *. unfold mtp_ok.
      destruct (N.leb_spec 500000000 h); [|discriminate]. repeat split; eauto.
    + intros (A & (h & ->) & T). cbn [abs_to_consensus abs_ok] in *. unfold mtp_ok in A.
      destruct (N.leb_spec 500000000 h); [|lia]. repeat split; eauto; lia.
Qed.
(** ... and from hex: the number written, refused when it is of the other unit. *)
Theorem C37_lock_time_hex : forall s n,
  (hex_prefixed 32 s = Ok n -> exists l, lock_time_from_hex s = Ret (Ok l) /\ abs_ok l /\ abs_to_consensus l = n) /\
  (hex_unprefixed 32 s = Ok n -> exists l, lock_time_from_unprefixed_hex s = Ret (Ok l) /\ abs_ok l /\ abs_to_consensus l = n) /\
  (lock_from_hex height_from_u32 s = Ok n <-> hex_prefixed 32 s = Ok n /\ height_ok n) /\
  (lock_from_hex mtp_from_u32 s = Ok n <-> hex_prefixed 32 s = Ok n /\ mtp_ok n) /\
  (lock_from_unprefixed_hex height_from_u32 s = Ok n <-> hex_unprefixed 32 s = Ok n /\ height_ok n) /\
  (lock_from_unprefixed_hex mtp_from_u32 s = Ok n <-> hex_unprefixed 32 s = Ok n /\ mtp_ok n).
Proof.
  intros s n.
  assert (C : forall m, m < 2 ^ 32 -> exists l, abs_from_consensus m = Ret l /\ abs_ok l /\ abs_to_consensus l = m).
  { intros m L. unfold abs_from_consensus, height_from_u32, mtp_from_u32, is_block_height, is_block_time, LOCK_TIME_THRESHOLD.
    destruct (N.ltb_spec m 500000000); cbn [expect rbind]; [exists (ABlocks m); auto|].
    destruct (N.leb_spec 500000000 m); [|lia]. exists (ASeconds m). cbn [expect rbind abs_ok]. unfold mtp_ok. auto. }
  assert (BP : forall m, hex_prefixed 32 s = Ok m -> m < 2 ^ 32).
  { intros m H. apply C37_hex in H as (p & t & _ & _ & _ & L). exact L. }
  assert (BU : forall m, hex_unprefixed 32 s = Ok m -> m < 2 ^ 32).
  { intros m H. apply C37_hex in H as (_ & _ & L). exact L. }
  unfold lock_time_from_hex, lock_time_from_unprefixed_hex, lock_from_hex, lock_from_unprefixed_hex,
    height_from_u32, mtp_from_u32, is_block_height, is_block_time, LOCK_TIME_THRESHOLD, height_ok, mtp_ok.
  split; [|split].
  - intro H. rewrite H. destruct (C n (BP n H)) as (l & -> & A & B). cbn [rbind]. eauto.
  - intro H. rewrite H. destruct (C n (BU n H)) as (l & -> & A & B). cbn [rbind]. eauto.
  - destruct (hex_prefixed 32 s) as [m|]; destruct (hex_unprefixed 32 s) as [m'|];
    try (pose proof (BP m eq_refl)); try (pose proof (BU m' eq_refl));
    split; [|split; [|split]| |split; [|split]| |split; [|split]| |split; [|split]];
    repeat match goal with |- context [if ?c then _ else _] => destruct c eqn:? end;
    split; intro X;
      repeat match goal with Y : _ /\ _ |- _ => destruct Y | Y : Ok _ = Ok _ |- _ => injection Y as Y; subst | Y : Err _ = Ok _ |- _ => discriminate Y end;
      try (split; [reflexivity|lia]); try reflexivity; try lia.
Qed.

(** ** C44 *)
(** A hash prints as hex and reads back, in both cases and both directions. *)
Theorem C44_hash_round_trip : forall len backward upper h, bytes_ok h -> lenN h = len ->
  hash_from_str len backward (hash_display backward upper h) = Ok h.
Proof.
  intros len bw u h B L. apply hash_from_str_ok. split; auto. unfold hash_display. apply hex_bytes_of.
  destruct bw; auto. apply Forall_rev. exact B.
Qed.
(** Parsing accepts exactly the texts that spell a hash of the right length (reversed when the type
    displays backward), and what it accepts is the lower-case display up to letter case. *)
Theorem C44_hash : forall len backward s h,
  (hash_from_str len backward s = Ok h <-> lenN h = len /\ hex_of s (if backward then rev h else h)) /\
  (hash_from_str len backward s = Ok h -> map lower s = hash_display backward false h /\ bytes_ok h).
Proof.
  intros len bw s h. split; [apply hash_from_str_ok|]. intro H. apply hash_from_str_ok in H as [L H]. split.
  - unfold hash_display. now apply lower_hex.
  - apply hex_of_bytes in H. destruct bw; auto. apply Forall_rev in H. now rewrite rev_involutive in H.
Qed.
(** OutPoint: display then parse is the identity. *)
Theorem C44_outpoint_round_trip : forall o, lenN (op_txid o) = 32 -> bytes_ok (op_txid o) -> op_vout o < 2 ^ 32 ->
  outpoint_from_str (outpoint_display o) = Ok o.
Proof.
  intros o L B V. apply outpoint_from_str_ok. exists (hash_display true false (op_txid o)).
  repeat split; auto. unfold hash_display. apply hex_bytes_of. apply Forall_rev. exact B.
Qed.
(** ... and parsing accepts no other spelling, apart from the case of the hex letters: no leading
    zero, no plus sign, nothing before or after. *)
Theorem C44_outpoint : forall s o, outpoint_from_str s = Ok o ->
  map lower s = outpoint_display o /\ lenN (op_txid o) = 32 /\ bytes_ok (op_txid o) /\ op_vout o < 2 ^ 32.
Proof.
  intros s o H. apply outpoint_from_str_ok in H as (h & -> & HX & L & V). repeat split; auto.
  - rewrite map_app. cbn [map]. unfold outpoint_display, hash_display. rewrite (lower_hex _ _ HX). f_equal.
    cbn [app]. f_equal.
    pose proof (proj1 (fmt_u_canonical (op_vout o))) as N1.
    rewrite <- (map_id (fmt_u (op_vout o))) at 2. apply map_ext_in. intros c I.
    destruct (numeral_in _ _ _ _ _ N1 I) as [d [A ->]]. unfold lower. destruct (N.leb_spec 65 (48 + d)); [lia|]. reflexivity.
  - apply hex_of_bytes in HX. apply Forall_rev in HX. now rewrite rev_involutive in HX.
Qed.

(** Non-vacuity *)
Example C37_nonvacuous :
  int_from_str U32t (lit "4294967295") = Ok 4294967295%Z /\
  int_from_str U32t (lit "4294967296") = Err {| pe_input := lit "4294967296"; pe_bits := 32; pe_signed := false; pe_source := IPosOverflow |} /\
  int_from_str I64t (lit "-9223372036854775808") = Ok (-9223372036854775808)%Z /\
  hex_prefixed 16 (lit "0XfFfF") = Ok 65535 /\ hex_unprefixed 16 (lit "0xff") = Err (ContainsPrefix (lit "0xff")) /\
  hex_u256_prefixed (lit "0x00000000ffff0000000000000000000000000000000000000000000000000000") = Ok (65535 * 2 ^ 208) /\
  lock_time_from_str (lit "500000000") = Ret (Ok (ASeconds 500000000)) /\ height_from_str (lit "-1") = Err (LpConversion (-1)).
Proof. vm_compute. repeat split. Qed.
Example C44_nonvacuous :
  let o := {| op_txid := 1 :: repeat 0 30 ++ [255]; op_vout := 42 |} in
  lenN (op_txid o) = 32 /\ bytes_ok (op_txid o) /\ outpoint_from_str (outpoint_display o) = Ok o /\
  parse_vout (lit "042") = Err OpVoutNotCanonical /\ parse_vout (lit "+42") = Err OpVoutNotCanonical.
Proof.
  vm_compute. repeat split; auto.
  repeat (constructor; [reflexivity|]); constructor.
Qed.

Print Assumptions C37_decimal.
Print Assumptions C37_unambiguous.
Print Assumptions C37_decimal_error.
Print Assumptions C37_decimal_round_trip.
Print Assumptions C37_printed.
Print Assumptions C37_hex.
Print Assumptions C37_hex_exclusive.
Print Assumptions C37_hex_round_trip.
Print Assumptions C37_hex256.
Print Assumptions C37_hex256_plus_refuted.
Print Assumptions C37_lock_time.
Print Assumptions C37_lock_time_hex.
Print Assumptions C44_hash_round_trip.
Print Assumptions C44_hash.
Print Assumptions C44_outpoint_round_trip.
Print Assumptions C44_outpoint.

(** Heights, intervals, times and the other wrapped integers are read as the integers they wrap. *)
Theorem C37_wrapper : forall t s z, 1 <= i_bits t -> (wrapper_from_str t s = Ok z <-> int_text digit10 10 (i_signed t) s z /\ int_range t z).
Proof. exact C37_decimal. Qed.
Print Assumptions C37_wrapper.
