(** C55: hexadecimal forms of transactions, blocks, headers, witnesses and scripts. *)
From Verif Require Import Base MDec LDec LCodec LBuilt MText SText LText MWitness MTx SWire LWire LTxEx MKey LKey LSig MHex SHex LHex.
From Coq Require Import String.
From Verif Require MP2p LTx2.
Local Open Scope N_scope.

(** *** Formatting *)
(** Without options the text is the digits of the encoding in the case asked for. *)
Theorem C55_plain : forall up b s, bytes_ok b -> (fmt_hex plain up b = s <-> spells up s b).
Proof.
  intros up b s B. rewrite fmt_plain. split; [intros <-; now apply hex_spells|]. intro H. symmetry. now apply spells_hex.
Qed.
(** With options: fill characters, the prefix of the alternate form, as many digits as the precision leaves room for, fill
    characters.  The number of fill characters is what the width exceeds the text that no precision has cut. *)
Theorem C55_options : forall f up b, bytes_ok b -> exists l r digits,
  fmt_hex f up b = repeat (f_fill f) (N.to_nat l) ++ prefix_of f up ++ takeN (match f_prec f with Some p => p - lenN (prefix_of f up) | None => lenN digits end) digits ++ repeat (f_fill f) (N.to_nat r) /\
  spells up digits b /\
  l + r = (match f_width f with Some w => w - lenN (prefix_of f up ++ digits) | None => 0 end) /\ aligned (f_align f) (l + r) l.
Proof.
  intros f up b B. unfold fmt_hex. cbv zeta. rewrite prefix_eq, emit_all.
  assert (P : lenN (prefix_of f up) = if f_alt f then 2 else 0) by (unfold prefix_of; destruct (f_alt f); reflexivity).
  set (x := if f_alt f then 2 else 0) in *. set (d := (match f_width f with Some w => w | None => lenN b * 2 + x end) - (lenN b * 2 + x)).
  set (lp := match f_align f with Some ALeft => 0 | Some ACenter => d / 2 | Some ARight => d | None => 0 end).
  assert (Hl : lp <= d).
  { unfold lp. destruct (f_align f) as [[]|]; try apply N.le_0_l; [|reflexivity]. apply N.div_le_upper_bound; lia. }
  exists lp, (d - lp), (hex_bytes up b). split; [|split; [now apply hex_spells|split]].
  - rewrite P, hex_bytes_len. reflexivity.
  - replace (lp + (d - lp)) with d by lia. unfold d. rewrite lenN_app, P, hex_bytes_len. destruct (f_width f); lia.
  - replace (lp + (d - lp)) with d by lia. unfold aligned, lp. destruct (f_align f) as [[]|]; reflexivity.
Qed.
(** So a width is reached when no precision is given ... *)
Theorem C55_width : forall f up b w, bytes_ok b -> f_prec f = None -> f_width f = Some w -> w <= lenN (fmt_hex f up b).
Proof.
  intros f up b w B E1 E2. destruct (C55_options f up b B) as (l & r & d & -> & _ & H & _). rewrite E1, E2 in *. rewrite takeN_all by lia.
  rewrite !lenN_app in *. unfold lenN at 1 4. rewrite !repeat_length. lia.
Qed.
(** ... but not with one; and a precision below 2 does not cut the prefix. *)
Theorem C55_width_refuted : exists f b w, f_width f = Some w /\ lenN (fmt_hex f false b) < w.
Proof.
  exists {| f_alt := false; f_width := Some 4; f_prec := Some 1; f_align := None; f_fill := 32 |}, [171; 205], 4. split; reflexivity.
Qed.
Theorem C55_precision_refuted : exists f b p, f_prec f = Some p /\ f_width f = None /\ p < lenN (fmt_hex f false b).
Proof.
  exists {| f_alt := true; f_width := None; f_prec := Some 1; f_align := None; f_fill := 32 |}, [171; 205], 1. repeat split.
Qed.

(** *** Parsing *)
Definition header_codec_ok : codec header_dec header_encode header_ok := LTx2.header_codec.
Lemma block_codec' : codec block_dec block_encode block_ok.
Proof. exact block_codec_ok. Qed.
Lemma witness_codec_ok : codec witness_dec wit_encode witness_ok.
Proof. eapply codec_ext; [apply witness_codec|auto|apply witness_ok_eq]. Qed.
Lemma script_codec_ok : codec script_dec script_encode script_ok.
Proof. exact script_codec. Qed.

(** A text parses to a value exactly when it spells its encoding, in digits of any case, and the value is one the decoder accepts. *)
Theorem C55_tx_from_str : forall s tx, tx_from_str s = Ret (Ok tx) <-> hex_of s (tx_encode tx) /\ tx_ok tx.
Proof. exact (hex_str_ok tx_codec_ok). Qed.
Theorem C55_block_from_str : forall s b, block_from_str s = Ret (Ok b) <-> hex_of s (block_encode b) /\ block_ok b.
Proof. exact (hex_str_ok block_codec'). Qed.
Theorem C55_header_from_str : forall s h, header_from_str s = Ret (Ok h) <-> hex_of s (header_encode h) /\ header_ok h.
Proof. exact (hex_str_ok header_codec_ok). Qed.
Theorem C55_script_from_str : forall s x, script_from_hex_prefixed s = Ret (Ok x) <-> hex_of s (wire_bytes x) /\ script_ok x.
Proof. intros s x. rewrite <- wire_bytes_eq. exact (hex_str_ok script_codec_ok s x). Qed.
(** What is displayed parses back to the same value. *)
Theorem C55_display_parse : forall up,
  (forall tx, tx_ok tx -> tx_from_str (tx_fmt plain up tx) = Ret (Ok tx)) /\
  (forall b, block_ok b -> block_from_str (block_fmt plain up b) = Ret (Ok b)) /\
  (forall h, header_ok h -> header_from_str (header_fmt plain up h) = Ret (Ok h)) /\
  (forall w, witness_ok w -> decode_from_hex_str witness_dec (witness_fmt plain up w) = Ret (Ok w)) /\
  (forall x, script_ok x -> script_from_hex_prefixed (script_to_hex_prefixed x) = Ret (Ok x)) /\
  (forall x, bytes_ok x -> script_from_hex_no_length_prefix (script_to_hex_no_length_prefix x) = Ok x).
Proof.
  intro up. unfold tx_fmt, block_fmt, header_fmt, witness_fmt. repeat split.
  - intros tx H. rewrite fmt_plain. apply (hex_str_back tx_codec_ok); [exact H|apply tx_encode_ok, H].
  - intros b H. rewrite fmt_plain. apply (hex_str_back block_codec'); [exact H|now apply block_encode_ok].
  - intros h H. rewrite fmt_plain. apply (hex_str_back header_codec_ok); [exact H|now apply header_encode_ok].
  - intros w H. rewrite fmt_plain. apply (hex_str_back witness_codec_ok); [exact H|now apply wit_encode_ok].
  - intros x H. unfold script_to_hex_prefixed. change (flat_map _ (script_encode x)) with (hex_bytes false (script_encode x)).
    apply (hex_str_back script_codec_ok); [exact H|apply script_encode_ok, H].
  - intros x H. unfold script_from_hex_no_length_prefix. apply vec_spec. now apply hex_bytes_of.
Qed.
(** Texts of at most 2^33 bytes never make parsing panic, and the errors mean what they say. *)
Definition parse_meaning {A E} (enc : A -> bytes) (ok : A -> Prop) (s : str) (r : result A (from_hex_err E)) : Prop :=
  match r with
  | Ok v => hex_of s (enc v) /\ ok v
  | Err (FhOddLength n) => n = lenN (MP2p.as_bytes s) /\ n mod 2 = 1
  | Err (FhOther HeInvalidChar) => lenN (MP2p.as_bytes s) mod 2 = 0 /\ ~ exists b, hex_of s b
  | Err (FhOther (HeDecode _)) => lenN (MP2p.as_bytes s) mod 2 = 0 /\ ~ exists v, hex_of s (enc v) /\ ok v
  end.
Theorem C55_errors : forall s, lenN (MP2p.as_bytes s) < 2 ^ 33 ->
  (exists r, tx_from_str s = Ret r /\ parse_meaning tx_encode tx_ok s r) /\
  (exists r, block_from_str s = Ret r /\ parse_meaning block_encode block_ok s r) /\
  (exists r, header_from_str s = Ret r /\ parse_meaning header_encode header_ok s r) /\
  (exists r, script_from_hex_prefixed s = Ret r /\ parse_meaning wire_bytes script_ok s r).
Proof.
  intros s H. split; [exact (hex_str_err tx_codec_ok s H)|]. split; [exact (hex_str_err block_codec' s H)|]. split; [exact (hex_str_err header_codec_ok s H)|].
  destruct (hex_str_err script_codec_ok s H) as (r & R1 & R2). exists r. split; [exact R1|]. unfold parse_meaning.
  destruct r as [v|[n|[|e]]]; try exact R2; [rewrite <- wire_bytes_eq; exact R2|]. destruct R2 as [Q R2]. split; [exact Q|].
  intros (v & V). apply R2. exists v. rewrite wire_bytes_eq. exact V.
Qed.
(** The text of the alternate form is not accepted. *)
Theorem C55_no_prefix : forall s c v, (c = 120 \/ c = 88) -> tx_from_str (48 :: c :: s) <> Ret (Ok v).
Proof.
  intros s c v Hc H. apply C55_tx_from_str in H. destruct H as [H _]. remember (48 :: c :: s) as t eqn:Et. destruct H as [|c1 d1 c2 d2 s' b D1 D2 H]; [discriminate|].
  injection Et as -> -> ->. unfold digit16, digit10 in D2. lia.
Qed.

(** A witness from a list of texts. *)
Theorem C55_witness_from_hex : forall l w, witness_from_hex l = Ret (Ok w) <-> exists ls, Forall2 hex_of l ls /\ stack_of w ls.
Proof.
  intros l w. assert (K : forall ls, decode_all l = Ok ls <-> Forall2 hex_of l ls).
  { clear. induction l as [|s l IH]; intro ls; cbn [decode_all].
    - split; intro H; [injection H as <-; constructor|inv H; reflexivity].
    - destruct (decode_to_vec s) as [b|e] eqn:E.
      + apply vec_spec in E. split.
        * destruct (decode_all l) as [r|] eqn:R; [|discriminate]. intro H. injection H as <-. constructor; [exact E|now apply IH].
        * intro H. inv H. apply IH in H4. rewrite H4. f_equal. f_equal. apply hex_pairs_of in E, H2. congruence.
      + split; [discriminate|]. intro H. inv H. apply vec_spec in H2. congruence. }
  unfold witness_from_hex, stack_of. destruct (decode_all l) as [ls|e] eqn:E.
  - split.
    + intro H. exists ls. split; [now apply K|]. destruct (from_slice ls); [|discriminate]. cbn [rbind] in H. congruence.
    + intros (ls' & H1 & H2). apply K in H1. assert (ls' = ls) as -> by congruence. now rewrite H2.
  - split; [discriminate|]. intros (ls' & H1 & _). apply K in H1. discriminate.
Qed.

Example C55_witness : tx_ok ex_tx /\ tx_from_str (tx_fmt plain true ex_tx) = Ret (Ok ex_tx) /\
  fmt_hex plain false [1; 171] = lit "01ab"%string /\
  fmt_hex {| f_alt := true; f_width := Some 9; f_prec := None; f_align := Some ACenter; f_fill := 42 |} true [1; 171] = lit "*0X01AB**"%string /\
  fmt_hex {| f_alt := false; f_width := None; f_prec := Some 3; f_align := Some ARight; f_fill := 42 |} true [1; 171] = lit "01A"%string /\
  script_from_hex_prefixed (lit "0251aC"%string) = Ret (Ok [81; 172]) /\
  script_from_hex_prefixed (lit "0251ac0"%string) = Ret (Err (FhOddLength 7)) /\
  script_from_hex_prefixed (lit "0251ag"%string) = Ret (Err (FhOther HeInvalidChar)) /\
  script_from_hex_prefixed (lit "0151ac"%string) = Ret (Err (FhOther (HeDecode DeUnconsumed))).
Proof. split; [apply ex_tx_ok|]. split; [apply C55_display_parse, ex_tx_ok|]. repeat split. Qed.

Print Assumptions C55_plain.
Print Assumptions C55_options.
Print Assumptions C55_width.
Print Assumptions C55_width_refuted.
Print Assumptions C55_precision_refuted.
Print Assumptions C55_tx_from_str.
Print Assumptions C55_block_from_str.
Print Assumptions C55_header_from_str.
Print Assumptions C55_script_from_str.
Print Assumptions C55_display_parse.
Print Assumptions C55_errors.
Print Assumptions C55_no_prefix.
Print Assumptions C55_witness_from_hex.
