(** C53: opcode names and the text of scripts. *)
From Coq Require Import String.
From Verif Require Import Base MDec MText MScript SScript SAsm MAsm LDec LAsm.
Local Open Scope N_scope.

(** The name printed for every opcode is the listed one, and no two opcodes have the same name. *)
Theorem C53_names :
  (forall op, op < 256 -> fmt_opcode op = opcode_name op) /\
  (forall a b, a < 256 -> b < 256 -> fmt_opcode a = fmt_opcode b -> a = b) /\
  (forall op, op < 256 -> op <> 0 -> as_str op = Ret (fmt_opcode op)) /\
  as_str 0 = Ret (lit "OP_PUSHBYTES_0") /\ fmt_opcode 0 = lit "OP_0" /\
  (forall a b, a < 256 -> b < 256 -> as_str a = as_str b -> a = b).
Proof.
  assert (Z : as_str 0 = Ret (lit "OP_PUSHBYTES_0")) by reflexivity.
  split; [exact fmt_name|]. split. { intros a b A B. rewrite !fmt_name by auto. now apply name_inj. }
  split. { intros op L P. rewrite fmt_name by auto. apply as_str_name; lia. }
  split; [exact Z|]. split; [reflexivity|].
  assert (X : forall b, 0 < b -> b < 256 -> as_str 0 = as_str b -> False).
  { intros b P B E. rewrite Z, as_str_name in E by auto.
    pose proof (ops_forall (fun op => negb (str_eqb (lit "OP_PUSHBYTES_0") (opcode_name op))) ltac:(vm_compute; reflexivity) b B) as H. cbv beta in H.
    apply negb_true_iff in H. assert (E2 : lit "OP_PUSHBYTES_0" = opcode_name b) by congruence. rewrite <- E2 in H. vm_compute in H. discriminate. }
  intros a b A B E. destruct (N.eq_dec a 0) as [->|NA], (N.eq_dec b 0) as [->|NB]; auto.
  - exfalso. apply (X b); auto; lia.
  - exfalso. apply (X a); auto; lia.
  - rewrite !as_str_name in E by lia. apply name_inj; auto. congruence.
Qed.
Print Assumptions C53_names.

(** The text of a script of whole instructions is the words of its instructions, separated by single spaces. *)
Theorem C53_text : forall s w, bytes_ok s -> script_words s w -> script_display s = Ret (spaced w).
Proof. intros. now apply display_words. Qed.
Print Assumptions C53_text.

(** Two scripts of whole instructions with the same text are the same script. *)
Theorem C53_text_injective : forall s w s' w', bytes_ok s -> bytes_ok s' -> script_words s w -> script_words s' w' ->
  script_display s = script_display s' -> s = s'.
Proof.
  intros s w s' w' OK OK' W W' E. rewrite (display_words s w), (display_words s' w') in E by auto. apply (script_words_inj s w W s'); auto.
  replace w with w'; auto. symmetry. apply spaced_inj; [now apply (script_words_ok s)|now apply (script_words_ok s')|]. congruence.
Qed.
Print Assumptions C53_text_injective.

(** A script cut off inside its last instruction prints the instructions before it and a marker. *)
Theorem C53_truncated : forall s w t k, bytes_ok (s ++ t) -> script_words s w -> cut t k -> script_display (s ++ t) = Ret (cut_text k w t).
Proof. intros. now apply display_cut. Qed.
Print Assumptions C53_truncated.

(** Printing never fails: every script is whole or cut off inside its last instruction, and its text tells which. *)
Theorem C53_total : forall s, bytes_ok s ->
  exists text, script_display s = Ret text /\ script_debug s = Ret (lit "Script(" ++ text ++ lit ")") /\
    ((exists w, script_words s w) <-> ~ In 60 text) /\
    ((exists a t k, s = a ++ t /\ (exists w, script_words a w) /\ cut t k) <-> In 60 text).
Proof.
  intros s OK. destruct (split_script s OK) as (a & w & t & -> & W & [->|(k & C)]).
  - rewrite app_nil_r in *. exists (spaced w). assert (E := display_words a w W OK). split; auto. split. { unfold script_debug. now rewrite E. }
    assert (X : ~ In 60 (spaced w)). { apply spaced_chars. now apply (script_words_ok a). }
    split; split; intros H; auto; [now exists w| |contradiction].
    destruct H as (b & t & k & -> & (v & V) & C). rewrite (display_cut b v t k) in E by auto.
    exfalso. apply X. pose proof (cut_chars k v t). congruence.
  - exists (cut_text k w t). assert (E := display_cut a w t k W C OK). split; auto. split. { unfold script_debug. now rewrite E. }
    pose proof (cut_chars k w t) as X. split; split; intros H; auto; [|contradiction|].
    + destruct H as (v & V). intros _. rewrite (display_words _ v) in E by auto. apply (script_words_ok _ _ V), spaced_chars in OK.
      apply OK. congruence.
    + exists a, t, k. eauto.
Qed.
Print Assumptions C53_total.

(** The text of a cut-off script does not determine it, and "<unexpected end>" is not separated from the word before it. *)
Theorem C53_truncated_refuted :
  ~ (forall s s', bytes_ok s -> bytes_ok s' -> script_display s = script_display s' -> s = s') /\
  script_display [81; 76] = Ret (lit "OP_1<unexpected end>").
Proof.
  split; [|reflexivity]. intros H. specialize (H [76] [77]). assert (X : [76] = [77]); [|discriminate]. apply H; try reflexivity; repeat constructor; lia.
Qed.
Print Assumptions C53_truncated_refuted.

(** a pay-to-public-key-hash script with a two-byte hash, and a cut one *)
Example C53_nonvacuous :
  script_words [118; 169; 2; 10; 255; 136; 172] [lit "OP_DUP"; lit "OP_HASH160"; lit "OP_PUSHBYTES_2"; lit "0aff"; lit "OP_EQUALVERIFY"; lit "OP_CHECKSIG"] /\
  script_display [118; 169; 2; 10; 255; 136; 172] = Ret (lit "OP_DUP OP_HASH160 OP_PUSHBYTES_2 0aff OP_EQUALVERIFY OP_CHECKSIG") /\
  cut [2; 10] InData /\ cut [77; 1] InLength /\ script_display [118; 2; 10] = Ret (lit "OP_DUP OP_PUSHBYTES_2 <push past end>").
Proof.
  split; [|split; [reflexivity|split; [|split; [|reflexivity]]]].
  - apply (words_cons (Op 118) [118] [169; 2; 10; 255; 136; 172]). { constructor. lia. }
    apply (words_cons (Op 169) [169] [2; 10; 255; 136; 172]). { constructor. lia. }
    apply (words_cons (PushBytes [10; 255]) [2; 10; 255] [136; 172]). { apply (enc_direct [10; 255]). vm_compute. discriminate. }
    apply (words_cons (Op 136) [136] [172]). { constructor. lia. }
    apply (words_cons (Op 172) [172] []). { constructor. lia. }
    constructor.
  - apply cut_direct; [lia|]. vm_compute. reflexivity.
  - apply (cut_length 77 2); [right; left; auto|]. vm_compute. reflexivity.
Qed.
