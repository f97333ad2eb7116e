(** C18: what the errors of parsing an amount say about the text. *)
From Coq Require Import String.
From Verif Require Import Base MAmount MText SText LText MAmountText SAmountText LAmountText.
Local Open Scope N_scope.

(** In [s] the character [c] comes after [pre], whose UTF-8 form has [p] bytes. *)
Definition at_byte (s : str) (p : N) (pre : str) (c : N) : Prop := exists post, s = pre ++ c :: post /\ str_len pre = p.
Definition digit (c : N) : Prop := 48 <= c <= 57.

Lemma str_len_app : forall a b, str_len (a ++ b) = str_len a + str_len b.
Proof. induction a as [|c a IH]; intro b; [reflexivity|]. cbn [app]. rewrite !str_len_cons, IH. lia. Qed.
Lemma before_prefix : forall c s, exists t, s = before c s ++ t.
Proof. intros c s. induction s as [|x s [t IH]]; [exists []; reflexivity|]. cbn [before]. destruct (x =? c); [exists (x :: s); reflexivity|]. exists t. cbn [app]. congruence. Qed.
Lemma find_idx_some : forall p s i j, find_idx p i s = Some j -> exists pre c post, s = pre ++ c :: post /\ p c = true /\ j = i + str_len pre.
Proof.
  induction s as [|c s IH]; intros i j E; [discriminate|]. cbn [find_idx] in E. destruct (p c) eqn:P; [injection E as <-; exists [], c, s; split; [reflexivity|]; split; [exact P|]; cbn; lia|].
  destruct (IH _ _ E) as (pre & c' & post & -> & Pc & ->). exists (c :: pre), c', post. split; [reflexivity|]. split; [exact Pc|]. rewrite str_len_cons. lia.
Qed.
Definition said (neg : bool) (s : str) (i : N) (dec us : bool) (e : inner_err) : Prop :=
  let n := if neg then 1 else 0 in
  match e with
  | Overflow b => b = neg
  | InvalidCharacter c p => exists pre post, s = pre ++ c :: post /\ p = i + str_len pre + n /\ ~ digit c /\ c <> 95 /\ (c = 46 -> dec = true \/ In 46 pre)
  | BadPosition c p => c = 95 /\ exists pre post, s = pre ++ 95 :: post /\ p = i + str_len pre + n /\ ((i = 0 /\ pre = []) \/ (us = true /\ pre = []) \/ exists pre', pre = pre' ++ [95])
  | TooPrecise p => exists pre c post, s = pre ++ c :: post /\ p = i + str_len pre + n /\ digit c /\ (dec = true \/ In 46 pre)
  | _ => False
  end.
Lemma said_cons : forall neg c s i dec us dec' us' e, char_len c <> 0 -> (dec' = true -> dec = true \/ c = 46) -> (us' = true -> c = 95) -> said neg s (i + char_len c) dec' us' e -> said neg (c :: s) i dec us e.
Proof.
  intros neg c s i dec us dec' us' e Nz D U H. destruct e as [b|p|b|n|c0 p|c0 p]; cbn [said] in *; auto.
  - destruct H as (pre & c1 & post & -> & -> & Dg & X). exists (c :: pre), c1, post. rewrite str_len_cons. split; [reflexivity|]. split; [lia|]. split; [exact Dg|]. destruct X as [X|X]; [|right; right; exact X]. destruct (D X) as [Y| ->]; [auto|]. right. left. reflexivity.
  - destruct H as (pre & post & -> & -> & A & B & X). exists (c :: pre), post. rewrite str_len_cons. split; [reflexivity|]. split; [lia|]. split; [exact A|]. split; [exact B|]. intro Z. destruct (X Z) as [Y|Y]; [|right; right; exact Y]. destruct (D Y) as [W| ->]; [auto|]. right. left. reflexivity.
  - destruct H as (-> & pre & post & -> & -> & X). split; [reflexivity|]. exists (c :: pre), post. rewrite str_len_cons. split; [reflexivity|]. split; [lia|]. right. right. destruct X as [[Z _]|[[Z ->]|(pre' & ->)]]; [lia|exists []; cbn [app]; now rewrite (U Z)|exists (c :: pre'); reflexivity].
Qed.
Lemma char_len_pos : forall c, char_len c <> 0.
Proof. intro c. unfold char_len. repeat match goal with |- context [if ?b then _ else _] => destruct b end; lia. Qed.
Lemma parse_loop_said : forall neg md s i dec us value e, parse_loop neg md s i dec us value = Err e -> said neg s i (match dec with Some _ => true | None => false end) us e.
Proof.
  intros neg md. induction s as [|c s IH]; intros i dec us value e E; cbn [parse_loop] in E; [discriminate|].
  destruct ((48 <=? c) && (c <=? 57)) eqn:Dg.
  - destruct (i64_checked_mul 10 value) as [v1|]; [|injection E as <-; reflexivity]. destruct (i64_checked_add v1 (Z.of_N (c - 48))) as [v2|]; [|injection E as <-; reflexivity].
    destruct dec as [d|].
    + destruct (d <? md)%Z.
      * apply IH in E. refine (said_cons _ _ _ _ _ _ _ _ _ (char_len_pos c) _ _ E); [auto|discriminate].
      * injection E as <-. cbn [said]. exists [], c, s. split; [reflexivity|]. split; [cbn; destruct neg; lia|]. split; [unfold digit; lia|auto].
    + apply IH in E. refine (said_cons _ _ _ _ _ _ _ _ _ (char_len_pos c) _ _ E); [discriminate|discriminate].
  - destruct (N.eqb_spec c 95) as [->|N95].
    + destruct (N.eqb_spec i 0) as [->|Ni]; [injection E as <-; cbn [said]; split; [reflexivity|]; exists [], s; split; [reflexivity|]; split; [cbn; destruct neg; lia|auto]|].
      destruct us; [injection E as <-; cbn [said]; split; [reflexivity|]; exists [], s; split; [reflexivity|]; split; [cbn; destruct neg; lia|auto]|].
      apply IH in E. refine (said_cons _ _ _ _ _ _ _ _ _ (char_len_pos 95) _ _ E); auto.
    + destruct (N.eqb_spec c 46) as [->|N46].
      * destruct dec as [d|]; [injection E as <-; cbn [said]; exists [], s; split; [reflexivity|]; split; [cbn; destruct neg; lia|]; split; [unfold digit; lia|]; split; [discriminate|auto]|].
        destruct (md <=? 0)%Z; [discriminate|]. apply IH in E. refine (said_cons _ _ _ _ _ _ _ _ _ (char_len_pos 46) _ _ E); [auto|discriminate].
      * injection E as <-. cbn [said]. exists [], s. split; [reflexivity|]. split; [cbn; destruct neg; lia|]. split; [unfold digit; lia|]. split; [exact N95|]. intro Z. contradiction.
Qed.
Lemma parse_tail_said : forall neg md s e, parse_tail neg md s = Ret (Err e) -> said neg s 0 false false e.
Proof.
  intros neg md s e E. unfold parse_tail in E. destruct (parse_loop neg md s 0 None false 0) as [[dec v]|e0] eqn:L; [|injection E as <-; exact (parse_loop_said _ _ _ _ _ _ _ _ L)].
  destruct (scale_loop _ v) as [v1|]; [|injection E as <-; reflexivity]. destruct (signed_from_sat v1) as [r|]; [|injection E as <-; reflexivity]. destruct neg; [|discriminate]. destruct (signed_neg r); discriminate.
Qed.

(** An error that gives a position gives the byte where the character it is about begins: the unexpected character, never a digit or an
    underscore, and a dot only after another; the underscore at the start or after another; the digit of the fraction that is too fine
    or, in satoshi, whatever else follows the dot, or a dot in front.  The other errors give the length, and say what is missing. *)
Definition explains (s : str) (d : denom) (e : parse_amount_err) : Prop :=
  match e with
  | PaInvalidCharacter c p => exists pre, at_byte s p pre c /\ ~ digit c /\ c <> 95 /\ (c = 46 -> In 46 pre)
  | PaBadPosition c p => c = 95 /\ exists pre, at_byte s p pre 95 /\ (pre = [] \/ pre = [45] \/ exists pre', pre = pre' ++ [95])
  | PaTooPrecise p => exists pre c, at_byte s p pre c /\ ((In 46 pre /\ (digit c \/ d = Satoshi /\ c <> 48)) \/ (d = Satoshi /\ c = 46 /\ (pre = [] \/ pre = [45])))
  | PaMissingDigits minus => s = if minus then [45] else []
  | PaInputTooLarge n => n = str_len s /\ 50 < n
  | PaOutOfRange _ => s <> []
  end.
Lemma explain : forall s d e b, parse_signed_to_satoshi s d = Ret (Err e) -> explains s d (convert b e).
Proof.
  intros s d e b E. unfold parse_signed_to_satoshi in E. destruct s as [|c0 rest]; [injection E as <-; reflexivity|]. remember (c0 :: rest) as s eqn:Es. assert (Ne : s <> []) by (rewrite Es; discriminate).
  destruct (N.ltb_spec INPUT_STRING_LEN_LIMIT (str_len s)) as [Lg|Lg]; [injection E as <-; cbn [convert explains]; unfold INPUT_STRING_LEN_LIMIT in Lg; auto|].
  set (neg := c0 =? 45) in *. destruct (neg && (str_len s =? 1)) eqn:Mn.
  { injection E as <-. cbn [convert explains]. apply andb_prop in Mn as [A B]. unfold neg in A. apply N.eqb_eq in A. apply N.eqb_eq in B. subst c0. rewrite Es, str_len_cons in B. destruct rest as [|c1 rest]; [exact Es|]. rewrite str_len_cons in B. pose proof (char_len_pos c1). pose proof (char_len_pos 45). lia. }
  set (t := if neg then rest else s) in *. set (sign := if neg then [45] else [] : str). assert (St : s = sign ++ t). { unfold sign, t, neg. destruct (N.eqb_spec c0 45) as [->|]; [exact Es|reflexivity]. }
  assert (Ls : str_len sign = if neg then 1 else 0) by (unfold sign; destruct neg; reflexivity). assert (Sg : sign = [] \/ sign = [45]) by (unfold sign; destruct neg; auto).
  assert (Up : forall u, (exists v, t = u ++ v) -> said neg u 0 false false e -> explains s d (convert b e)).
  { intros u [v Ev] H. destruct e as [x|p|x|n|c p|c p]; cbn [said convert explains] in *; try contradiction.
    - exact Ne.
    - destruct H as (pre & c & post & -> & -> & Dg & X). exists (sign ++ pre), c. split; [exists (post ++ v); split; [rewrite St, Ev, <- !app_assoc; reflexivity|rewrite str_len_app, Ls; lia]|]. left. split; [|auto]. apply in_or_app. right. destruct X as [X|X]; [discriminate|exact X].
    - destruct H as (pre & post & -> & -> & A & B & X). exists (sign ++ pre). split; [exists (post ++ v); split; [rewrite St, Ev, <- !app_assoc; reflexivity|rewrite str_len_app, Ls; lia]|]. split; [exact A|]. split; [exact B|]. intro Z. apply in_or_app. right. destruct (X Z) as [Y|Y]; [discriminate|exact Y].
    - destruct H as (-> & pre & post & -> & -> & X). split; [reflexivity|]. exists (sign ++ pre). split; [exists (post ++ v); split; [rewrite St, Ev, <- !app_assoc; reflexivity|rewrite str_len_app, Ls; lia]|].
      destruct X as [[_ ->]|[[Z _]|(pre' & ->)]]; [|discriminate|right; right; exists (sign ++ pre'); now rewrite app_assoc]. rewrite app_nil_r. destruct Sg; auto. }
  destruct (- precision d <=? 0)%Z eqn:Pd.
  - assert (Sat : d = Satoshi) by (destruct d; cbn in Pd; congruence || reflexivity). destruct (is_too_precise0 t) as [pos|] eqn:Tp.
    + assert (e = TooPrecise (pos + if neg then 1 else 0)) as ->. { destruct (from_str_radix _ _ _ _ t) as [[| |]|]; try discriminate; now injection E as <-. } clear E Up. cbn [convert explains].
      unfold is_too_precise0 in Tp. destruct (split_first 46 t) as [[a r]|] eqn:Sp.
      * apply split_first_some in Sp as [Et Na]. destruct (N.leb_spec (str_len a) 0) as [Z|Z].
        -- injection Tp as <-. assert (a = []) as -> by (destruct a as [|x a]; [reflexivity|]; rewrite str_len_cons in Z; pose proof (char_len_pos x); lia). exists sign, 46. split; [exists r; split; [rewrite St, Et; reflexivity|rewrite Ls; lia]|]. right. auto.
        -- apply find_idx_some in Tp as (pre & c & post & -> & Pc & ->). exists (sign ++ a ++ 46 :: pre), c. split; [exists post; split; [rewrite St, Et, <- !app_assoc; reflexivity|]|].
           ++ rewrite !str_len_app, str_len_cons, Ls. change (char_len 46) with 1. lia.
           ++ left. split; [apply in_or_app; right; apply in_or_app; right; left; reflexivity|]. right. split; [exact Sat|]. intros ->. discriminate.
      * destruct (N.leb_spec (str_len t) 0) as [Z|Z]; [|discriminate]. exfalso. assert (t = []) as Et by (destruct t as [|x t0]; [reflexivity|]; rewrite str_len_cons in Z; pose proof (char_len_pos x); lia).
        unfold t, neg in Et. unfold neg in Mn. destruct (N.eqb_spec c0 45) as [->|]; [|congruence]. rewrite Es, Et in Mn. discriminate.
    + apply (Up (before 46 t)); [apply before_prefix|]. now apply parse_tail_said in E.
  - apply (Up t); [exists []; now rewrite app_nil_r|]. now apply parse_tail_said in E.
Qed.
Theorem C18_errors : forall s d e, amount_from_str_in s d = Ret (Err e) \/ signed_from_str_in s d = Ret (Err e) -> explains s d e.
Proof.
  intros s d e [E|E].
  - unfold amount_from_str_in in E. destruct (parse_signed_to_satoshi s d) as [[[neg a]|e0]|] eqn:P; cbn [rbind] in E; [| |discriminate].
    + assert (Ne : s <> []) by (intros ->; discriminate). destruct neg; [injection E as <-; exact Ne|]. destruct (signed_to_unsigned a) as [[u|e1]|]; cbn [rbind] in E; try discriminate. injection E as <-. exact Ne.
    + injection E as <-. exact (explain s d e0 false P).
  - unfold signed_from_str_in in E. destruct (parse_signed_to_satoshi s d) as [[[neg a]|e0]|] eqn:P; cbn [rbind] in E; try discriminate. injection E as <-. exact (explain s d e0 true P).
Qed.
(** "the amount is less than 1 satoshi but it's not zero", the text of that error at position 0 (error.rs:207-208), is about zero here;
    the same text is accepted as bitcoin, and with a digit in front. *)
Theorem C18_not_zero_refuted : amount_from_str_in (lit ".0") Satoshi = Ret (Err (PaTooPrecise 0)) /\
  amount_from_str_in (lit ".0") Bitcoin = Ret (Ok 0%Z) /\ amount_from_str_in (lit "0.0") Satoshi = Ret (Ok 0%Z).
Proof. repeat split. Qed.

(** Each error, and positions after two-byte characters. *)
Example C18_errors_ex :
  amount_from_str_in (lit "-1.2.3") Bitcoin = Ret (Err (PaInvalidCharacter 46 4)) /\ signed_from_str_in (lit "-1__0") Bitcoin = Ret (Err (PaBadPosition 95 3)) /\
  amount_from_str_in (lit "1.123456789") Bitcoin = Ret (Err (PaTooPrecise 10)) /\ signed_from_str_in (49 :: 46 :: 233 :: lit "5") Satoshi = Ret (Err (PaTooPrecise 2)) /\
  signed_from_str_in (lit "-12.003") Satoshi = Ret (Err (PaTooPrecise 6)) /\ amount_from_str_in (lit "-") Bit = Ret (Err (PaMissingDigits true)).
Proof. repeat split. Qed.
Print Assumptions C18_errors.
Print Assumptions C18_not_zero_refuted.
