(** Text, integers and the codecs of the payloads. *)
From Coq Require Import String.
From Verif Require Import Base MDec LDec LDec2 LPrefix LCompact LCodec MWitness SWitness LWitness LWitDec MTx MAmount MText MPmt MBip152 LTx2 LWire LPmt3 LBip152 LTaproot LBip32b LSha2b MP2p MP2pMsg SWire SPmt SBip152 SP2p.
Local Open Scope N_scope.

(** ** UTF-8 *)
Lemma utf8_char_bytes : forall c b, utf8_char c b -> b = char_utf8 c.
Proof.
  intros c b H. unfold char_utf8. destruct H.
  - now replace (c <? 128) with true by lia.
  - replace (a * 64 + b <? 128) with false by lia. replace (a * 64 + b <? 2048) with true by lia.
    rewrite (N.add_comm (a * 64) b), N.div_add, N.mod_add, N.div_small, N.mod_small by lia. now rewrite N.add_0_l.
  - replace (_ <? 128) with false by lia. replace (_ <? 2048) with false by lia. replace (_ <? 65536) with true by lia.
    assert (E1 : (a * 4096 + b * 64 + c) / 4096 = a) by (symmetry; apply (N.div_unique _ 4096 a (b * 64 + c)); lia).
    assert (E2 : (a * 4096 + b * 64 + c) / 64 = a * 64 + b) by (symmetry; apply (N.div_unique _ 64 (a * 64 + b) c); lia).
    assert (E3 : (a * 4096 + b * 64 + c) mod 64 = c) by (symmetry; apply (N.mod_unique _ 64 (a * 64 + b) c); lia).
    assert (E4 : (a * 64 + b) mod 64 = b) by (symmetry; apply (N.mod_unique _ 64 a b); lia).
    now rewrite E1, E2, E3, E4.
  - replace (_ <? 128) with false by lia. replace (_ <? 2048) with false by lia. replace (_ <? 65536) with false by lia.
    set (v := a * 262144 + b * 4096 + c * 64 + d) in *.
    assert (E1 : v / 262144 = a) by (symmetry; apply (N.div_unique _ 262144 a (b * 4096 + c * 64 + d)); lia).
    assert (E2 : v / 4096 = a * 64 + b) by (symmetry; apply (N.div_unique _ 4096 (a * 64 + b) (c * 64 + d)); lia).
    assert (E3 : v / 64 = a * 4096 + b * 64 + c) by (symmetry; apply (N.div_unique _ 64 (a * 4096 + b * 64 + c) d); lia).
    assert (E4 : v mod 64 = d) by (symmetry; apply (N.mod_unique _ 64 (a * 4096 + b * 64 + c) d); lia).
    assert (E5 : (a * 64 + b) mod 64 = b) by (symmetry; apply (N.mod_unique _ 64 a b); lia).
    assert (E6 : (a * 4096 + b * 64 + c) mod 64 = c) by (symmetry; apply (N.mod_unique _ 64 (a * 64 + b) c); lia).
    now rewrite E1, E2, E3, E4, E5, E6.
Qed.
Lemma utf8_bytes : forall s b, utf8 s b -> b = as_bytes s.
Proof.
  intros s b (cs & F & ->). unfold as_bytes. rewrite flat_map_concat_map. f_equal. induction F; [reflexivity|].
  cbn [map]. now rewrite IHF, (utf8_char_bytes _ _ H).
Qed.
Lemma utf8_cons : forall c p s b, utf8_char c p -> utf8 s b -> utf8 (c :: s) (p ++ b).
Proof. intros c p s b H (cs & F & ->). exists (p :: cs). split; [now constructor|reflexivity]. Qed.

Lemma from_utf8_sound : forall n b s, (length b <= n)%nat -> bytes_ok b -> from_utf8 b = Some s -> utf8 s b.
Proof.
  induction n as [|n IH]; intros b s Hn Hb H.
  - destruct b; [|cbn in Hn; lia]. injection H as <-. exists []. split; [constructor|reflexivity].
  - destruct b as [|x r]; [injection H as <-; exists []; split; [constructor|reflexivity]|].
    cbn [from_utf8] in H. cbn [length] in Hn. inversion Hb as [|? ? Bx Br]; subst. unfold byte_ok in Bx.
    destruct (N.ltb_spec x 128).
    { destruct (from_utf8 r) as [s'|] eqn:E; [|discriminate]. injection H as <-.
      apply (utf8_cons x [x]); [now constructor|]. apply IH; auto; lia. }
    destruct r as [|y r2]; [discriminate|]. cbn [length] in Hn. inversion Br as [|? ? By Br2]; subst. unfold byte_ok in By.
    destruct ((194 <=? x) && (x <=? 223)) eqn:E1.
    { destruct (cont y) eqn:Cy; [|discriminate]. destruct (from_utf8 r2) as [s'|] eqn:E; [|discriminate]. injection H as <-.
      unfold cont in Cy. apply (utf8_cons _ [x; y]); [|apply IH; auto; lia].
      replace [x; y] with [192 + (x - 192); 128 + (y - 128)] by (repeat f_equal; lia). constructor; lia. }
    destruct r2 as [|z r3]; [discriminate|]. cbn [length] in Hn. inversion Br2 as [|? ? Bz Br3]; subst. unfold byte_ok in Bz.
    destruct ((224 <=? x) && (x <=? 239)) eqn:E2.
    { destruct (cont y && cont z && (negb (x =? 224) || (160 <=? y)) && (negb (x =? 237) || (y <=? 159))) eqn:C; [|discriminate].
      destruct (from_utf8 r3) as [s'|] eqn:E; [|discriminate]. injection H as <-. unfold cont in C.
      apply (utf8_cons _ [x; y; z]); [|apply IH; auto; lia].
      replace [x; y; z] with [224 + (x - 224); 128 + (y - 128); 128 + (z - 128)] by (repeat f_equal; lia). constructor; lia. }
    destruct r3 as [|w r4]; [discriminate|]. cbn [length] in Hn. inversion Br3 as [|? ? Bw Br4]; subst. unfold byte_ok in Bw.
    destruct ((240 <=? x) && (x <=? 244)) eqn:E3; [|discriminate].
    destruct (cont y && cont z && cont w && (negb (x =? 240) || (144 <=? y)) && (negb (x =? 244) || (y <=? 143))) eqn:C; [|discriminate].
    destruct (from_utf8 r4) as [s'|] eqn:E; [|discriminate]. injection H as <-. unfold cont in C.
    apply (utf8_cons _ [x; y; z; w]); [|apply IH; auto; lia].
    replace [x; y; z; w] with [240 + (x - 240); 128 + (y - 128); 128 + (z - 128); 128 + (w - 128)] by (repeat f_equal; lia). constructor; lia.
Qed.
Lemma from_utf8_cons : forall c p b s, utf8_char c p -> from_utf8 b = Some s -> from_utf8 (p ++ b) = Some (c :: s).
Proof.
  intros c p b s H E. destruct H; cbn [app from_utf8]; unfold cont; rewrite ?E.
  - now replace (c <? 128) with true by lia.
  - replace (192 + a <? 128) with false by lia. replace ((194 <=? 192 + a) && (192 + a <=? 223)) with true by lia.
    replace ((128 <=? 128 + b0) && (128 + b0 <=? 191)) with true by lia. repeat f_equal; lia.
  - replace (224 + a <? 128) with false by lia. replace ((194 <=? 224 + a) && (224 + a <=? 223)) with false by lia.
    replace ((224 <=? 224 + a) && (224 + a <=? 239)) with true by lia.
    match goal with |- (if ?c then _ else _) = _ => replace c with true by lia end. repeat f_equal; lia.
  - replace (240 + a <? 128) with false by lia. replace ((194 <=? 240 + a) && (240 + a <=? 223)) with false by lia.
    replace ((224 <=? 240 + a) && (240 + a <=? 239)) with false by lia.
    replace ((240 <=? 240 + a) && (240 + a <=? 244)) with true by lia.
    match goal with |- (if ?c then _ else _) = _ => replace c with true by lia end. repeat f_equal; lia.
Qed.
Lemma from_utf8_complete : forall s b, utf8 s b -> from_utf8 b = Some s.
Proof.
  intros s b (cs & F & ->). induction F; [reflexivity|]. cbn [concat]. now apply from_utf8_cons.
Qed.
Lemma utf8_char_ok : forall c p, utf8_char c p -> bytes_ok p.
Proof. intros c p H. destruct H; repeat constructor; unfold byte_ok; lia. Qed.
Lemma utf8_ok : forall s b, utf8 s b -> bytes_ok b.
Proof.
  intros s b (cs & F & ->). induction F; [constructor|]. cbn [concat]. apply bytes_ok_app. split; [eapply utf8_char_ok; eauto|auto].
Qed.
Lemma from_utf8_spec : forall s b, bytes_ok b -> (from_utf8 b = Some s <-> utf8 s b).
Proof. intros s b Hb. split; [now apply (from_utf8_sound (length b))|apply from_utf8_complete]. Qed.
Lemma ascii_utf8 : forall s, Forall (fun c => c < 128) s -> utf8 s s.
Proof.
  intros s F. exists (map (fun c => [c]) s). split.
  - induction F; constructor; auto. now constructor.
  - clear F. induction s; [reflexivity|]. cbn [map concat app]. now f_equal.
Qed.

(** ** signed integers *)
Lemma twos_len : forall n z, lenN (twos n z) = N.of_nat n.
Proof. intros. unfold twos, lenN. now rewrite le_bytes_length. Qed.
Lemma twos_back : forall n z, (0 < n)%nat -> is_i (8 * Z.of_nat n) z -> i_from_le (twos n z) = z.
Proof.
  intros n z Hn [L U]. unfold i_from_le. rewrite twos_len. unfold twos.
  set (w := (8 * Z.of_nat n)%Z) in *. set (M := (2 ^ w)%Z). set (h := (2 ^ (w - 1))%Z) in *.
  assert (HM : M = (2 * h)%Z). { unfold M, h. rewrite <- Z.pow_succ_r by lia. f_equal. lia. }
  assert (Hh : (0 < h)%Z) by (unfold h; apply Z.pow_pos_nonneg; lia).
  assert (Hm : (0 <= z mod M < M)%Z) by (apply Z.mod_pos_bound; lia).
  rewrite le_val_bytes.
  2:{ assert (E : 256 ^ N.of_nat n = Z.to_N M). { unfold M, w. replace (8 * Z.of_nat n)%Z with (Z.of_N (8 * N.of_nat n)) by lia.
      change 2%Z with (Z.of_N 2). rewrite <- N2Z.inj_pow, N2Z.id, N.pow_mul_r. reflexivity. }
      rewrite E. lia. }
  replace (8 * Z.of_N (N.of_nat n))%Z with w by lia. fold M. rewrite Z2N.id by lia.
  replace (M / 2)%Z with h by (rewrite HM; symmetry; rewrite Z.mul_comm; apply Z.div_mul; lia).
  destruct (Z.ltb_spec z 0).
  - rewrite <- (Z.mod_unique z M (-1) (z + M)) by lia. replace (z + M <? h)%Z with false by lia. lia.
  - rewrite Z.mod_small by lia. now replace (z <? h)%Z with true by lia.
Qed.
Lemma le_val_Z : forall n b, lenN b = N.of_nat n -> bytes_ok b -> (Z.of_N (le_val b) < 2 ^ (8 * Z.of_nat n))%Z.
Proof.
  intros n b Hl Hb. pose proof (le_val_lt b Hb) as K. rewrite Hl in K.
  replace (8 * Z.of_nat n)%Z with (Z.of_N (8 * N.of_nat n)) by lia. change 2%Z with (Z.of_N 2).
  rewrite <- N2Z.inj_pow, N.pow_mul_r. change (2 ^ 8) with 256. lia.
Qed.
Lemma i_from_le_ok : forall n b, (0 < n)%nat -> lenN b = N.of_nat n -> bytes_ok b ->
  is_i (8 * Z.of_nat n) (i_from_le b) /\ twos n (i_from_le b) = b.
Proof.
  intros n b Hn Hl Hb. unfold i_from_le. rewrite Hl. pose proof (le_val_Z n b Hl Hb) as K. unfold twos.
  replace (8 * Z.of_N (N.of_nat n))%Z with (8 * Z.of_nat n)%Z by lia.
  set (w := (8 * Z.of_nat n)%Z) in *. set (M := (2 ^ w)%Z) in *. set (v := Z.of_N (le_val b)) in *.
  set (h := (2 ^ (w - 1))%Z).
  assert (HM : M = (2 * h)%Z). { unfold M, h. rewrite <- Z.pow_succ_r by lia. f_equal. lia. }
  assert (Hh : (0 < h)%Z) by (unfold h; apply Z.pow_pos_nonneg; lia).
  replace (M / 2)%Z with h by (rewrite HM; symmetry; rewrite Z.mul_comm; apply Z.div_mul; lia).
  assert (V : Z.to_N v = le_val b) by (unfold v; apply N2Z.id).
  assert (LB : le_bytes n (le_val b) = b). { change bytes with (list N) in *. replace n with (length b) by (unfold lenN in Hl; lia). now apply le_bytes_of_val. }
  assert (0 <= v)%Z by (unfold v; lia).
  destruct (Z.ltb_spec v h); (split; [unfold is_i; fold h; lia|]).
  - rewrite Z.mod_small by lia. rewrite V. exact LB.
  - rewrite <- (Z.mod_unique (v - M) M (-1) v) by lia. rewrite V. exact LB.
Qed.

(** ** groups *)
Lemma octets_groups : forall s, octets s = groups s.
Proof. intros. unfold octets, groups. apply flat_map_concat_map. Qed.
Lemma be2 : forall v, be_bytes 2 v = [v / 256 mod 256; v mod 256].
Proof. reflexivity. Qed.
Lemma groups_len : forall s, lenN (groups s) = 2 * lenN s.
Proof.
  induction s as [|x s IH]; [reflexivity|]. unfold groups in *. cbn [map concat]. rewrite lenN_app, IH, lenN_cons.
  rewrite be_bytes_len. lia.
Qed.
Lemma groups_ok : forall s, bytes_ok (groups s).
Proof.
  induction s as [|x s IH]; [constructor|]. unfold groups in *. cbn [map concat]. apply bytes_ok_app. split; [apply be_bytes_ok|exact IH].
Qed.
Lemma segments_groups : forall s, Forall group_ok s -> segments (groups s) = s.
Proof.
  induction s as [|x s IH]; intros F; [reflexivity|]. inversion F as [|? ? G F']; subst. unfold groups in *. cbn [map concat]. rewrite be2.
  cbn [app segments]. rewrite IH by auto. f_equal. unfold group_ok in G. change (2 ^ 16) with 65536 in G.
  rewrite (N.mod_small (x / 256)) by (apply N.div_lt_upper_bound; lia). pose proof (N.div_mod' x 256). lia.
Qed.
Lemma segments_ok : forall n b, (length b <= n)%nat -> bytes_ok b -> N.even (lenN b) = true ->
  Forall group_ok (segments b) /\ groups (segments b) = b /\ 2 * lenN (segments b) = lenN b.
Proof.
  induction n as [|n IH]; intros b Hn Hb He.
  - destruct b; [|cbn in Hn; lia]. repeat split; constructor.
  - destruct b as [|x [|y b]]; [repeat split; constructor|discriminate He|].
    inversion Hb as [|? ? Bx Hb1]; subst. inversion Hb1 as [|? ? By Hb2]; subst. unfold byte_ok in *. cbn [length] in Hn.
    rewrite !lenN_cons in He. replace (1 + (1 + lenN b)) with (lenN b + 2) in He by lia.
    replace (N.even (lenN b + 2)) with (N.even (lenN b)) in He by (rewrite N.even_add; cbn; now destruct (N.even (lenN b))).
    destruct (IH b) as (I1 & I2 & I3); auto; [lia|]. cbn [segments]. split; [|split].
    + constructor; auto. unfold group_ok. change (2 ^ 16) with 65536. lia.
    + unfold groups in *. cbn [map concat]. rewrite I2, be2. cbn [app]. f_equal; [|f_equal].
      * rewrite (N.add_comm (x * 256) y), N.div_add, N.div_small, N.add_0_l by lia. apply N.mod_small. lia.
      * rewrite (N.add_comm (x * 256) y), N.mod_add by lia. apply N.mod_small. lia.
    + rewrite !lenN_cons. lia.
Qed.
Lemma segments16 : forall b, lenN b = 16 -> bytes_ok b -> Forall group_ok (segments b) /\ groups (segments b) = b /\ lenN (segments b) = 8.
Proof.
  intros b Hl Hb. destruct (segments_ok (length b) b) as (A & B & C); auto; [now rewrite Hl|]. repeat split; auto. lia.
Qed.
