(** C18 amount text.  [MAX] is 21 million bitcoin in satoshi. *)
From Coq Require Import String.
From Verif Require Import Base MAmount MText SText LText MAmountText SAmountText LAmountText.
Local Open Scope N_scope.

(** Parsing an [Amount] in a denomination succeeds exactly on texts of at most 50 bytes that write a
    decimal number of units no finer than a satoshi and no larger than 21 million bitcoin, and
    returns that number of satoshi. *)
Theorem C18_parse : forall s d a,
  amount_from_str_in s d = Ret (Ok a) <->
  str_len s <= 50 /\ exists v, amount_text d s v /\ v <= 2100000000000000 /\ a = Z.of_N v.
Proof. exact amount_parse_iff. Qed.
(** The same for [SignedAmount], with an optional minus sign. *)
Theorem C18_parse_signed : forall s d a,
  signed_from_str_in s d = Ret (Ok a) <->
  str_len s <= 50 /\ signed_text d s a /\ (Z.abs a <= 2100000000000000)%Z.
Proof. exact signed_parse_iff. Qed.
(** A text denotes at most one amount. *)
Theorem C18_unambiguous : forall d s, (forall v w, amount_text d s v -> amount_text d s w -> v = w) /\
  (forall a b, signed_text d s a -> signed_text d s b -> a = b).
Proof.
  intros d s. split; [apply amount_fun|]. intros a b A B. apply signed_text_value in A as (v & V & ->).
  apply signed_text_value in B as (w & W & ->). congruence.
Qed.
(** Well-formed texts of amounts out of range are refused as out of range, and the error says on
    which side; for [Amount] every minus sign is, even in front of zero.  Nothing panics. *)
Theorem C18_out_of_range : forall d s v, str_len s <= 50 -> amount_text d s v ->
  (2100000000000000 < v ->
     amount_from_str_in s d = Ret (Err (PaOutOfRange {| is_signed := false; is_greater_than_max := true |})) /\
     signed_from_str_in s d = Ret (Err (PaOutOfRange {| is_signed := true; is_greater_than_max := true |}))) /\
  (str_len (45 :: s) <= 50 ->
     amount_from_str_in (45 :: s) d = Ret (Err (PaOutOfRange {| is_signed := false; is_greater_than_max := false |})) /\
     (2100000000000000 < v ->
        signed_from_str_in (45 :: s) d = Ret (Err (PaOutOfRange {| is_signed := true; is_greater_than_max := false |})))).
Proof.
  intros d s v L T. pose proof (amount_text_head _ _ _ T) as NG. apply avalue_spec in T. split.
  - intro G. pose proof (amount_parse s d L) as A. pose proof (signed_parse s d L) as B.
    rewrite (body_pos s NG), NG, T in A, B. unfold MAXSAT in *.
    destruct (N.leb_spec v 2100000000000000); [lia|]. auto.
  - intro L2. pose proof (amount_parse _ d L2) as A. pose proof (signed_parse _ d L2) as B.
    cbn [body isneg] in A, B. change (45 =? 45) with true in A, B. cbv iota in A, B. rewrite T in A, B.
    split; auto. intro G. unfold MAXSAT in *. destruct (N.leb_spec v 2100000000000000); [lia|]. auto.
Qed.
Theorem C18_total : forall s d,
  (exists r, amount_from_str_in s d = Ret r) /\ (exists r, signed_from_str_in s d = Ret r) /\
  (50 < str_len s -> amount_from_str_in s d = Ret (Err (PaInputTooLarge (str_len s))) /\
                     signed_from_str_in s d = Ret (Err (PaInputTooLarge (str_len s)))).
Proof.
  intros s d. split; [apply amount_total|]. split; [apply signed_total|]. intro H.
  unfold amount_from_str_in, signed_from_str_in. rewrite parse_too_large by auto. split; reflexivity.
Qed.

(** Denominations: exactly the documented names are accepted; the ambiguous capitals are reported as
    such, and every other text as unknown. *)
Theorem C18_denomination : forall u,
  (forall d, denom_from_str u = Ok d <-> denom_name d u) /\
  (forall e, denom_from_str u = Err e <-> (forall d, ~ denom_name d u) /\
     ((confusing u /\ e = PossiblyConfusing u) \/ (~ confusing u /\ e = UnknownDenom u))) /\
  (forall d, denom_from_str (denom_str d) = Ok d).
Proof. intro u. split; [apply denom_ok|]. split; [apply denom_err_ok|apply denom_self]. Qed.
(** Parsing text with a denomination: split at the first space, or before the first letter. *)
Theorem C18_with_denomination : forall letter s a,
  (amount_from_str_with_denomination letter s = Ret (Ok a) <->
   exists t u d, split_text letter s t u /\ denom_name d u /\ amount_from_str_in t d = Ret (Ok a)) /\
  (signed_from_str_with_denomination letter s = Ret (Ok a) <->
   exists t u d, split_text letter s t u /\ denom_name d u /\ signed_from_str_in t d = Ret (Ok a)).
Proof. intros. split; apply with_den_ok. Qed.
(** FromStr: the same, and without a denomination only zero is accepted. *)
Theorem C18_from_str : forall letter s a,
  (amount_from_str letter s = Ret (Ok a) <->
   (exists t u d, split_text letter s t u /\ denom_name d u /\ amount_from_str_in t d = Ret (Ok a)) \/
   ((forall t u, ~ split_text letter s t u) /\ a = 0%Z /\ str_len s <= 50 /\ amount_text Satoshi s 0)) /\
  (signed_from_str letter s = Ret (Ok a) <->
   (exists t u d, split_text letter s t u /\ denom_name d u /\ signed_from_str_in t d = Ret (Ok a)) \/
   ((forall t u, ~ split_text letter s t u) /\ a = 0%Z /\ str_len s <= 50 /\ signed_text Satoshi s 0)).
Proof.
  intros letter s a. split.
  - unfold amount_from_str. rewrite from_str_ok by apply amount_total. rewrite amount_parse_iff.
    apply or_iff_compat_l. apply and_iff_compat_l. apply and_iff_compat_l. apply and_iff_compat_l. split.
    + intros (v & T & _ & E). assert (v = 0) as -> by lia. exact T.
    + intro T. exists 0. repeat split; auto; unfold MAXSAT; lia.
  - unfold signed_from_str. rewrite from_str_ok by apply signed_total. rewrite signed_parse_iff.
    apply or_iff_compat_l. apply and_iff_compat_l. apply and_iff_compat_l. apply and_iff_compat_l.
    split; [tauto|]. split; [auto|lia].
Qed.

(** Formatting, with every combination of width, fill, alignment, precision, sign and zero-padding
    flags: the number shown is the amount rounded half up to the requested decimals (all of them,
    and no more than needed, if none were requested), padded to the requested width. *)
Theorem C18_format : forall a neg d show o, a < 2 ^ 63 -> unwrap_or (o_precision o) 0 < 2 ^ 63 ->
  exists t out, fmt_satoshi_in a neg d show o = Ret out /\ shown (places d) a (o_precision o) t /\
    padded o (sign_of neg (o_sign_plus o)) t (unit_of show d) out.
Proof. exact fmt_ok. Qed.
(** What the printing methods pass to it. *)
Theorem C18_display : forall a d o,
  ((0 <= a <= 2100000000000000)%Z ->
     display_fmt (amount_display_in a d) o = fmt_satoshi_in (Z.to_N a) false d false o /\
     amount_display a o = fmt_satoshi_in (Z.to_N a) false Bitcoin true o /\
     display_fmt (amount_display_dynamic a) o =
       fmt_satoshi_in (Z.to_N a) false (if (100000000 <=? a)%Z then Bitcoin else Satoshi) true o) /\
  ((Z.abs a <= 2100000000000000)%Z ->
     rbind (signed_display_in a d) (fun x => display_fmt x o) = fmt_satoshi_in (Z.to_N (Z.abs a)) (a <? 0)%Z d false o /\
     signed_display a o = fmt_satoshi_in (Z.to_N (Z.abs a)) (a <? 0)%Z Bitcoin true o /\
     rbind (signed_display_dynamic a) (fun x => display_fmt x o) =
       fmt_satoshi_in (Z.to_N (Z.abs a)) (a <? 0)%Z (if (100000000 <=? Z.abs a)%Z then Bitcoin else Satoshi) true o).
Proof.
  intros a d o. split; intro R.
  - repeat split. unfold display_fmt, amount_display_dynamic, ONE_BTC. cbn [d_style d_abs d_negative].
    destruct (N.leb_spec 100000000 (Z.to_N a)), (Z.leb_spec 100000000 a); try lia; reflexivity.
  - unfold signed_display, signed_display_in, signed_display_dynamic. rewrite abs_range by auto. cbn [rbind].
    repeat split. unfold display_fmt, ONE_BTC. cbn [d_style d_abs d_negative].
    destruct (N.leb_spec 100000000 (Z.to_N (Z.abs a))), (Z.leb_spec 100000000 (Z.abs a)); try lia; reflexivity.
Qed.

(** Round trips: every amount, every denomination, with and without the denomination in the text. *)
Theorem C18_round_trip : forall a d, (0 <= a <= 2100000000000000)%Z ->
  exists t, amount_to_string_in a d = Ret t /\ amount_from_str_in t d = Ret (Ok a).
Proof.
  intros a d R. destruct (amount_fmt a d false R) as (t & E & P & _). cbn [unit_of] in E. rewrite app_nil_r in E. eauto.
Qed.
Theorem C18_round_trip_signed : forall a d, (Z.abs a <= 2100000000000000)%Z ->
  exists t, signed_to_string_in a d = Ret t /\ signed_from_str_in t d = Ret (Ok a).
Proof.
  intros a d R. destruct (signed_fmt a d false R) as (t & E & P & _). cbn [unit_of] in E. rewrite app_nil_r in E.
  exists t. split; auto. unfold signed_to_string_in, signed_display_in. rewrite abs_range by auto. exact E.
Qed.
Theorem C18_round_trip_denomination : forall letter a d,
  ((0 <= a <= 2100000000000000)%Z ->
     exists t, amount_to_string_with_denomination a d = Ret t /\
       amount_from_str_with_denomination letter t = Ret (Ok a) /\ amount_from_str letter t = Ret (Ok a)) /\
  ((Z.abs a <= 2100000000000000)%Z ->
     exists t, signed_to_string_with_denomination a d = Ret t /\
       signed_from_str_with_denomination letter t = Ret (Ok a) /\ signed_from_str letter t = Ret (Ok a)).
Proof.
  intros letter a d. split; intro R.
  - destruct (amount_fmt a d true R) as (t & E & P & NI). exists (t ++ 32 :: denom_str d). split; [exact E|].
    now apply from_str_den.
  - destruct (signed_fmt a d true R) as (t & E & P & NI). exists (t ++ 32 :: denom_str d). split.
    + unfold signed_to_string_with_denomination, signed_display_in. rewrite abs_range by auto. exact E.
    + now apply from_str_den.
Qed.
(** Display (in bitcoin) and dynamic display parse back with FromStr. *)
Theorem C18_round_trip_display : forall letter a,
  ((0 <= a <= 2100000000000000)%Z ->
     (exists t, amount_display a default_options = Ret t /\ amount_from_str letter t = Ret (Ok a)) /\
     (exists t, display_fmt (amount_display_dynamic a) default_options = Ret t /\ amount_from_str letter t = Ret (Ok a))) /\
  ((Z.abs a <= 2100000000000000)%Z ->
     (exists t, signed_display a default_options = Ret t /\ signed_from_str letter t = Ret (Ok a)) /\
     (exists t, rbind (signed_display_dynamic a) (fun x => display_fmt x default_options) = Ret t /\
                signed_from_str letter t = Ret (Ok a))).
Proof.
  intros letter a. split; intro R.
  - destruct (C18_round_trip_denomination letter a Bitcoin) as [B _]. destruct (B R) as (t & E & _ & P).
    split; [eauto|]. destruct (C18_display a Bitcoin default_options) as [D _]. destruct (D R) as (_ & _ & ->).
    destruct (C18_round_trip_denomination letter a (if (100000000 <=? a)%Z then Bitcoin else Satoshi)) as [B' _].
    destruct (B' R) as (t' & E' & _ & P'). exists t'. split; auto.
  - destruct (C18_round_trip_denomination letter a Bitcoin) as [_ B]. destruct (B R) as (t & E & _ & P).
    split; [eauto|]. destruct (C18_display a Bitcoin default_options) as [_ D]. destruct (D R) as (_ & _ & ->).
    destruct (C18_round_trip_denomination letter a (if (100000000 <=? Z.abs a)%Z then Bitcoin else Satoshi)) as [_ B'].
    destruct (B' R) as (t' & E' & _ & P'). exists t'. split; auto.
    unfold signed_to_string_with_denomination, signed_display_in in E'. rewrite abs_range in E' by auto. exact E'.
Qed.

(** A text without a single digit is accepted: a lone point is zero bitcoin. *)
Theorem C18_needs_digit_refuted : exists s, amount_from_str_in s Bitcoin = Ret (Ok 0%Z) /\
  forall c, In c s -> ~ (48 <= c <= 57).
Proof. exists (lit "."). split; [reflexivity|]. intros c [<-|[]] [A _]. now apply A. Qed.

(** Concrete cases. *)
Example C18_nonvacuous :
  amount_from_str_in (lit "1_000.00000001") Bitcoin = Ret (Ok 100000000001%Z) /\
  signed_from_str_in (lit "-0.5") MilliBitcoin = Ret (Ok (-50000)%Z) /\
  amount_from_str_in (lit "12.00") Satoshi = Ret (Ok 12%Z) /\
  amount_from_str_in (lit "0.000000001") Bitcoin = Ret (Err (PaTooPrecise 10)) /\
  amount_to_string_in 123456789 Bitcoin = Ret (lit "1.23456789") /\
  amount_display 150000000 default_options = Ret (lit "1.5 BTC") /\
  fmt_satoshi_in 123456789 true Bitcoin true
    {| o_fill := 42; o_align := Some ACenter; o_width := Some 15; o_precision := Some 2; o_sign_plus := false; o_zero_pad := false |}
    = Ret (lit "***-1.23 BTC***") /\
  amount_from_str (fun c => (65 <=? c) && (c <=? 122)) (lit "1.5BTC") = Ret (Ok 150000000%Z) /\
  amount_from_str (fun c => (65 <=? c) && (c <=? 122)) (lit "3") = Ret (Err PMissingDenomination) /\
  denom_from_str (lit "MBTC") = Err (PossiblyConfusing (lit "MBTC")).
Proof. vm_compute. repeat split; reflexivity. Qed.
Print Assumptions C18_parse.
Print Assumptions C18_parse_signed.
Print Assumptions C18_unambiguous.
Print Assumptions C18_out_of_range.
Print Assumptions C18_total.
Print Assumptions C18_denomination.
Print Assumptions C18_with_denomination.
Print Assumptions C18_from_str.
Print Assumptions C18_format.
Print Assumptions C18_display.
Print Assumptions C18_round_trip.
Print Assumptions C18_round_trip_signed.
Print Assumptions C18_round_trip_denomination.
Print Assumptions C18_round_trip_display.
Print Assumptions C18_needs_digit_refuted.
