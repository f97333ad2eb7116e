(** From the value lemmas to the specification's words. *)
From Verif Require Import Base MText SText LText MU256 SU256 LU256 LU256T.
Local Open Scope N_scope.

Lemma value_val : forall u, value u = val u.
Proof. intro u. unfold value, val. now rewrite W128_pow. Qed.
Lemma ok_wf : forall u, u256_ok u <-> wf u.
Proof. intro u. unfold u256_ok, wf. now rewrite W128_pow. Qed.
Lemma is_of : forall v, v < 2 ^ 256 -> is (of_val v) v.
Proof. intros v H. rewrite <- W256_pow in H. split; [apply ok_wf, wf_of, H|]. rewrite value_val. apply val_of. Qed.
Lemma is_mod : forall v, is (of_val (v mod 2 ^ 256)) (v mod 2 ^ 256).
Proof. intro v. apply is_of. apply N.mod_lt. discriminate. Qed.
Lemma is_eq : forall r v, is r v -> r = of_val v.
Proof. intros r v [W <-]. rewrite value_val. symmetry. apply of_val_val. now apply ok_wf. Qed.
Lemma ok_lt : forall u, u256_ok u -> value u < 2 ^ 256.
Proof. intros u H. rewrite value_val, <- W256_pow. apply val_lt. now apply ok_wf. Qed.
Lemma is_fun : forall r r' v, is r v -> is r' v -> r = r'.
Proof. intros r r' v A B. rewrite (is_eq _ _ A). symmetry. now apply is_eq. Qed.
Lemma be_val_cons : forall b l, be_val (b :: l) = b * 256 ^ lenN l + be_val l.
Proof.
  intros b l. unfold be_val. cbn [rev]. rewrite le_val_app. cbn [le_val]. unfold lenN. rewrite rev_length. ring.
Qed.
Lemma pair_numeral : forall c1 d1 c2 d2, digit16 c1 d1 -> digit16 c2 d2 -> numeral digit16 16 [c1; c2] (16 * d1 + d2).
Proof. intros. apply (numeral_snoc digit16 16 [c1] d1 c2 d2); auto. now apply numeral_one. Qed.
Lemma hex_numeral : forall s b, hex_of s b -> b <> [] -> numeral digit16 16 s (be_val b).
Proof.
  induction 1 as [|c1 d1 c2 d2 s b D1 D2 H IH]; intro NE; [congruence|].
  rewrite be_val_cons. destruct b as [|x b].
  - inv H. rewrite lenN_nil, N.pow_0_r. change (be_val []) with 0. rewrite N.mul_1_r, N.add_0_r. now apply pair_numeral.
  - specialize (IH ltac:(congruence)). change (c1 :: c2 :: s) with ([c1; c2] ++ s).
    assert (NS : s <> []) by (intros ->; inv H).
    apply LText.numeral_app; [congruence|auto|]. exists (16 * d1 + d2), (be_val (x :: b)).
    split; [now apply pair_numeral|]. split; [exact IH|]. apply LText.hex_of_length in H. unfold lenN. rewrite H.
    replace (16 ^ N.of_nat (2 * length (x :: b))) with (256 ^ N.of_nat (length (x :: b))); [reflexivity|].
    change 256 with (16 ^ 2). rewrite <- N.pow_mul_r. f_equal. lia.
Qed.
Lemma be_bytes_val : forall a, wf a -> be_val (to_be_bytes a) = val a.
Proof.
  intros a W. rewrite to_be_val by auto. unfold be_val, be_bytes. rewrite rev_involutive. apply le_val_bytes.
  change (256 ^ N.of_nat 32) with W256. now apply val_lt.
Qed.
Lemma to_be_ok : forall a, wf a -> bytes_ok (to_be_bytes a) /\ length (to_be_bytes a) = 32%nat.
Proof.
  intros a W. rewrite to_be_val by auto. unfold be_bytes, bytes_ok. split; [apply Forall_rev, le_bytes_ok|].
  now rewrite rev_length, le_bytes_length.
Qed.
Lemma hex_print_numeral : forall up a, wf a -> numeral digit16 16 (hex_bytes up (to_be_bytes a)) (val a).
Proof.
  intros up a W. destruct (to_be_ok a W) as [OK LN]. rewrite <- (be_bytes_val a W). apply hex_numeral; [now apply LText.hex_bytes_of|].
  intro X. rewrite X in LN. discriminate.
Qed.
Lemma hex_print_chars : forall up a c, wf a -> In c (hex_bytes up (to_be_bytes a)) -> exists d, digit16 c d.
Proof.
  intros up a c W I. destruct (to_be_ok a W) as [OK LN]. apply (LText.hex_of_in (hex_bytes up (to_be_bytes a)) (to_be_bytes a) c); auto. now apply LText.hex_bytes_of.
Qed.
Lemma hex_print_unprefixed : forall up a, wf a -> hex_u256_unprefixed (u_hex up false a) = Ok (val a).
Proof.
  intros up a W. unfold u_hex, hex_u256_unprefixed. cbn [app]. set (s := hex_bytes up (to_be_bytes a)).
  assert (CK : hex_check_unprefixed s = Ok s).
  { apply LText.check_unprefixed_ok. split; auto. intros p u HP E.
    assert (I : In (nth 1 p 0) s) by (rewrite E; apply in_or_app; left; destruct HP as [-> | ->]; right; now left).
    apply hex_print_chars in I as [d D]; auto. destruct HP as [-> | ->]; cbn in D; unfold digit16, digit10 in D; lia. }
  rewrite CK. assert (HU : hex_u256_unchecked s = Ok (val a)).
  { apply LText.hex256_ok.
    - intro I. apply hex_print_chars in I as [d D]; auto. unfold digit16, digit10 in D; lia.
    - split; [now apply hex_print_numeral|]. rewrite <- W256_pow. now apply val_lt. }
  now rewrite HU.
Qed.
Lemma hex_print_prefixed : forall up a, wf a -> hex_u256_prefixed (u_hex up true a) = Ok (val a).
Proof.
  intros up a W. unfold u_hex, hex_u256_prefixed. set (s := hex_bytes up (to_be_bytes a)).
  assert (CK : hex_remove_prefix ([48; 120] ++ s) = Ok s).
  { apply LText.remove_prefix_ok. exists [48; 120]. split; auto. now left. }
  rewrite CK. assert (HU : hex_u256_unchecked s = Ok (val a)).
  { apply LText.hex256_ok.
    - intro I. apply hex_print_chars in I as [d D]; auto. unfold digit16, digit10 in D; lia.
    - split; [now apply hex_print_numeral|]. rewrite <- W256_pow. now apply val_lt. }
  now rewrite HU.
Qed.
