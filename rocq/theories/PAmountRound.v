(** C18: amounts printed with fewer decimals read back as the amount rounded. *)
From Coq Require Import String.
From Verif Require Import Base MAmount MText SText LText MAmountText SAmountText LAmountText PAmountText.
Local Open Scope N_scope.

(** the format specification "{:.k}" *)
Definition decimals (k : N) : options :=
  {| o_fill := 32; o_align := None; o_width := None; o_precision := Some k; o_sign_plus := false; o_zero_pad := false |}.

Lemma round_max : forall k a r, k <= 8 -> a <= 2100000000000000 -> round_half_up k a r -> r <= 2100000000000000.
Proof.
  intros k a r K A (q & -> & H1 & _).
  assert (C : k = 0 \/ k = 1 \/ k = 2 \/ k = 3 \/ k = 4 \/ k = 5 \/ k = 6 \/ k = 7 \/ k = 8) by lia.
  destruct C as [->|[->|[->|[->|[->|[->|[->|[->| ->]]]]]]]];
    match type of H1 with context[10 ^ ?x] => let v := eval vm_compute in (10 ^ x) in change (10 ^ x) with v in * end; lia.
Qed.
Lemma shown_round : forall d k a t, k <= places d -> a <= 2100000000000000 -> shown (places d) a (Some k) t ->
  exists r, rounded (places d) a (Some k) r /\ r <= 2100000000000000 /\ amount_text d t r /\ str_len t <= 40 /\ ~ In 32 t /\ t <> [].
Proof.
  intros d k a t K A (r & ip & n & fp & m & RO & C & D & -> & E & L).
  assert (P8 : places d <= 8) by (destruct d; cbn [places]; lia).
  assert (R : r <= 2100000000000000).
  { destruct RO as [R1 R2]. destruct (N.ltb_spec k (places d)) as [X|X]; [apply (round_max (places d - k) a); [lia|exact A|now apply R1]|rewrite R2; auto]. }
  exists r. split; [exact RO|]. split; [exact R|].
  assert (LF : lenN fp <= places d) by lia.
  assert (V : r = n * 10 ^ places d + m * 10 ^ (places d - lenN fp)).
  { pose proof (pow10_pos (lenN fp)). apply N.mul_cancel_r with (p := 10 ^ lenN fp); [lia|]. rewrite E.
    rewrite !N.mul_add_distr_r. f_equal; [ring|]. rewrite <- N.mul_assoc, <- N.pow_add_r. f_equal. f_equal. lia. }
  destruct C as (NU & CZ & CN).
  assert (DI : digits_or_empty ip n) by now right.
  assert (NE : ip <> []) by now apply numeral_nonempty in NU.
  set (t := ip ++ (match fp with [] => [] | _ => 46 :: fp end)).
  assert (IN : forall c, In c t -> isdig c = true \/ c = 46).
  { intros c I. unfold t in I. apply in_app_iff in I as [I|I]; [left; eapply digits_nodot; eauto|].
    destruct fp as [|x fp]; [destruct I|]. destruct I as [<-|I]; [auto|left; exact (digits_nodot _ _ _ D I)]. }
  assert (N95 : ~ In 95 t) by (intro I; apply IN in I as [I|I]; discriminate).
  assert (N32 : ~ In 32 t) by (intro I; apply IN in I as [I|I]; discriminate).
  assert (NT : t <> []) by (unfold t; destruct ip; [congruence|discriminate]).
  split.
  - assert (DT : decimal_text (places d) t r).
    { destruct (no_underscore t N95) as [U W]. split; auto. split; auto. rewrite W. exists ip, fp, n, m.
      split; [|auto]. unfold t. destruct fp; [right; split; auto; now rewrite app_nil_r|left; auto]. }
    destruct d; try exact DT. cbn [amount_text places] in *. exists t, []. split; [now left|].
    assert (fp = []) by (destruct fp; auto; rewrite lenN_cons in LF; lia). subst fp.
    split; [|auto]. unfold t. rewrite app_nil_r. intro I. apply (digits_nodot _ _ _ DI) in I. discriminate.
  - split; [|auto]. rewrite ascii_len.
    + assert (n < 10 ^ 20).
      { change (10 ^ 20) with 100000000000000000000. pose proof (pow10_pos (places d)). nia. }
      assert (ip = fmt_u n) by (apply fmt_u_unique; repeat split; auto). subst ip.
      pose proof (fmt_u_len n 20 H ltac:(lia)). unfold t. rewrite lenN_app. destruct fp; [rewrite lenN_nil; lia|].
      rewrite lenN_cons. lia.
    + apply forallb_forall. intros c I. destruct (IN c I) as [X| ->]; [unfold isdig in X; lia|reflexivity].
Qed.
Lemma fmt_round : forall a neg d k, k <= places d -> a <= 2100000000000000 -> exists t r,
  fmt_satoshi_in a neg d false (decimals k) = Ret ((if neg then [45] else []) ++ t) /\
  rounded (places d) a (Some k) r /\ r <= 2100000000000000 /\ amount_text d t r /\ str_len t <= 40.
Proof.
  intros a neg d k K A. assert (P8 : places d <= 8) by (destruct d; cbn [places]; lia).
  destruct (C18_format a neg d false (decimals k)) as (t & out & E & SH & PD).
  { change (2 ^ 63) with 9223372036854775808. lia. }
  { cbn [decimals o_precision unwrap_or]. change (2 ^ 63) with 9223372036854775808. lia. }
  cbn [decimals o_precision o_sign_plus] in *. apply shown_round in SH as (r & R1 & R2 & R3 & R4 & _); auto. exists t, r.
  split; [|auto]. rewrite E. f_equal. unfold padded, decimals, unwrap_or, o_zero_pad, o_width, o_align, o_fill, sign_of, unit_of in PD.
  rewrite N.sub_0_l, N.sub_diag in PD. unfold times in PD. cbn [N.to_nat repeat app] in PD. rewrite !app_nil_r in PD.
  rewrite PD. destruct neg; reflexivity.
Qed.

(** Printed with [k] decimals, no more than the denomination has, an amount reads back as the nearest multiple of the last
    printed decimal, halves away from zero; a full number of decimals gives the amount itself. *)
Theorem C18_rounded : forall a d k, k <= places d ->
  ((0 <= a <= 2100000000000000)%Z -> exists t r, display_fmt (amount_display_in a d) (decimals k) = Ret t /\
     amount_from_str_in t d = Ret (Ok (Z.of_N r)) /\ round_half_up (places d - k) (Z.to_N a) r) /\
  ((Z.abs a <= 2100000000000000)%Z -> exists t r, rbind (signed_display_in a d) (fun x => display_fmt x (decimals k)) = Ret t /\
     signed_from_str_in t d = Ret (Ok (Z.sgn a * Z.of_N r)%Z) /\ round_half_up (places d - k) (Z.to_N (Z.abs a)) r).
Proof.
  assert (RR : forall p k a r, k <= p -> rounded p a (Some k) r -> round_half_up (p - k) a r).
  { intros p k a r L [R1 R2]. destruct (N.ltb_spec k p) as [X|X]; [now apply R1|]. rewrite (R2 X). assert (p - k = 0) as -> by lia.
    change (10 ^ 0) with 1. exists a. change (10 ^ 0) with 1. lia. }
  intros a d k K. destruct (C18_display a d (decimals k)) as [D1 D2]. split; intro R.
  - destruct (D1 R) as [-> _]. destruct (fmt_round (Z.to_N a) false d k K) as (t & r & E & R1 & R2 & R3 & R4); [lia|].
    exists t, r. split; [exact E|]. split; [|now apply RR]. apply amount_parse_iff. split; [lia|]. exists r. unfold MAXSAT. auto.
  - destruct (D2 R) as [-> _]. destruct (fmt_round (Z.to_N (Z.abs a)) (a <? 0)%Z d k K) as (t & r & E & R1 & R2 & R3 & R4); [lia|].
    exists ((if (a <? 0)%Z then [45] else []) ++ t), r. split; [exact E|]. split; [|now apply RR].
    apply RR in R1; [|exact K]. apply signed_parse_iff. split.
    + destruct (a <? 0)%Z; cbn [app]; [rewrite str_len_cons; change (char_len 45) with 1|]; lia.
    + assert (Z0 : a = 0%Z -> r = 0).
      { intros ->. destruct R1 as (q & -> & H1 & _). pose proof (pow10_pos (places d - k)). cbn [Z.abs Z.to_N] in H1. destruct q; [reflexivity|nia]. }
      split; [|destruct (Z.sgn_spec a) as [[_ ->]|[[_ ->]|[_ ->]]]; lia].
      destruct (Z.ltb_spec a 0); [right|left].
      * exists t, r. repeat split; auto. rewrite Z.sgn_neg by assumption. lia.
      * exists r. split; [exact R3|]. destruct (Z.eq_dec a 0) as [X|X]; [rewrite (Z0 X); lia|]. rewrite Z.sgn_pos by lia. lia.
Qed.
Print Assumptions C18_rounded.
(** More decimals than the denomination has do not read back, even though they are all zeros; and a negative amount may print as
    a negative zero. *)
Theorem C18_rounded_refuted :
  (exists t, display_fmt (amount_display_in 100000000 Bitcoin) (decimals 9) = Ret t /\ amount_from_str_in t Bitcoin = Ret (Err (PaTooPrecise 10))) /\
  (exists t, rbind (signed_display_in (-1) Bitcoin) (fun x => display_fmt x (decimals 0)) = Ret t /\ t = lit "-0" /\ signed_from_str_in t Bitcoin = Ret (Ok 0%Z)).
Proof.
  split; [exists (lit "1.000000000")|exists (lit "-0")].
  - split; vm_compute; reflexivity.
  - split; [|split]; vm_compute; reflexivity.
Qed.
Print Assumptions C18_rounded_refuted.
Example C18_rounded_ex : display_fmt (amount_display_in 123456789 Bitcoin) (decimals 2) = Ret (lit "1.23") /\
  display_fmt (amount_display_in 99500000 Bitcoin) (decimals 2) = Ret (lit "1.00") /\ amount_from_str_in (lit "1.00") Bitcoin = Ret (Ok 100000000%Z).
Proof. repeat split; vm_compute; reflexivity. Qed.
