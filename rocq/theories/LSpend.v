(** Lemmas on the size of an output and its spending input. *)
From Verif Require Import Base MAmount SAmount LAmount LFee MDec MWitness MTx SWire LWire MTxSize LPredict MScript SScript LScript LScript4 PScript MSpend SSpend.
Local Open Scope N_scope.

Lemma spend_size_of : forall a s, exists size, spend_size {| to_amount := a; to_script := s |} size /\
  (if is_op_return s then 0 else if is_witness_program s then 32 + 4 + 1 + (107 / 4) + 4 + 8 + Z.of_N (lenN (script_encode s))
   else 32 + 4 + 1 + 107 + 4 + 8 + Z.of_N (lenN (script_encode s)))%Z = Z.of_N size.
Proof.
  intros a s. destruct (C16_predicates s) as (WP & _ & _ & _ & _ & _ & _ & _ & _ & OR).
  assert (WL : lenN (wire_txout {| to_amount := a; to_script := s |}) = 8 + lenN (script_encode s)).
  { unfold wire_txout. cbn [to_amount to_script]. rewrite wire_bytes_eq. rewrite lenN_app, lenN_le_bytes. reflexivity. }
  destruct (is_op_return s).
  - exists 0. split; [|reflexivity]. apply spend_unspendable. now apply OR.
  - destruct (is_witness_program s).
    + eexists. split; [apply spend_witness; now apply WP|]. rewrite WL. change (107 / 4) with 26. change (107 / 4)%Z with 26%Z. lia.
    + eexists. split; [apply spend_legacy; cbn [to_script]; intro X; [apply OR in X|apply WP in X]; discriminate|]. rewrite WL. lia.
Qed.
Lemma spend_size_fun : forall o x y, spend_size o x -> spend_size o y -> x = y.
Proof.
  assert (D : forall s, (exists t, s = 106 :: t) -> (exists v p, program_ok v p /\ s = t_witness v p) -> False).
  { intros s (t & ->) (v & p & [V _] & E). unfold t_witness in E. injection E as E _. unfold version_op in E. destruct (N.eqb_spec v 0); lia. }
  intros o x y [A|A|A A'] [B|B|B B']; try reflexivity; exfalso; eauto.
Qed.
Lemma spend_size_amount : forall a b s x, spend_size {| to_amount := a; to_script := s |} x -> spend_size {| to_amount := b; to_script := s |} x.
Proof.
  intros a b s x H. assert (L : lenN (wire_txout {| to_amount := a; to_script := s |}) = lenN (wire_txout {| to_amount := b; to_script := s |})).
  { unfold wire_txout. cbn [to_amount to_script]. now rewrite !lenN_app, !lenN_le_bytes. }
  inversion H; subst; rewrite ?L; cbn [to_script] in *; [apply spend_unspendable|apply spend_witness|apply spend_legacy]; auto.
Qed.
