From Coq Require Import String.
From Verif Require Import Base MDec LDec MWitness MText SText LText MTx MP2p LP2p2 SWire MBip32 LBip32c MKey SKey MMessage SMessage.
From Verif Require LAddress LWire LCompact.
Local Open Scope N_scope.

Lemma sym_digit : forall d, d < 64 -> digit64 (b64_sym d) d.
Proof.
  intros d L. rewrite <- (N2Nat.id d). unfold digit64. rewrite Nat2N.id. assert (H : (N.to_nat d < 64)%nat) by lia. revert H. generalize (N.to_nat d). clear.
  intros n H. do 64 (destruct n as [|n]; [reflexivity|]). lia.
Qed.
Lemma digit_val : forall c d, digit64 c d <-> b64_val c = Some d.
Proof.
  intros c d. split.
  - unfold digit64. intro H. assert (L : (N.to_nat d < 64)%nat) by (assert (X : nth_error base64_alphabet (N.to_nat d) <> None) by congruence; apply nth_error_Some in X; exact X).
    rewrite <- (N2Nat.id d). revert H L. generalize (N.to_nat d). clear. intros n H L.
    do 64 (destruct n as [|n]; [vm_compute in H; injection H as <-; reflexivity|]). lia.
  - intro H. assert (L : d < 64 /\ c = b64_sym d).
    { unfold b64_val in H. unfold b64_sym.
      destruct ((65 <=? c) && (c <=? 90)) eqn:E1; [injection H as <-; replace (c - 65 <? 26) with true by lia; lia|].
      destruct ((97 <=? c) && (c <=? 122)) eqn:E2; [injection H as <-; replace (c - 97 + 26 <? 26) with false by lia; replace (c - 97 + 26 <? 52) with true by lia; lia|].
      destruct ((48 <=? c) && (c <=? 57)) eqn:E3; [injection H as <-; replace (c - 48 + 52 <? 26) with false by lia; replace (c - 48 + 52 <? 52) with false by lia; replace (c - 48 + 52 <? 62) with true by lia; lia|].
      destruct (N.eqb_spec c 43) as [->|E4]; [injection H as <-; split; reflexivity|].
      destruct (N.eqb_spec c 47) as [->|E5]; [injection H as <-; split; reflexivity|discriminate]. }
    destruct L as [L ->]. now apply sym_digit.
Qed.
Lemma digit_lt : forall c d, digit64 c d -> d < 64.
Proof.
  intros c d H. unfold digit64 in H. assert (X : nth_error base64_alphabet (N.to_nat d) <> None) by congruence. apply nth_error_Some in X.
  change (List.length base64_alphabet) with 64%nat in X. lia.
Qed.
Lemma digit_char : forall c d, digit64 c d -> c < 128 /\ c <> 61.
Proof.
  intros c d H. apply digit_val in H. unfold b64_val in H.
  destruct ((65 <=? c) && (c <=? 90)) eqn:E1; [lia|]. destruct ((97 <=? c) && (c <=? 122)) eqn:E2; [lia|]. destruct ((48 <=? c) && (c <=? 57)) eqn:E3; [lia|].
  destruct (N.eqb_spec c 43) as [->|E4]; [lia|]. destruct (N.eqb_spec c 47) as [->|E5]; [lia|discriminate].
Qed.
Lemma digit_fun : forall c d d', digit64 c d -> digit64 c d' -> d = d'.
Proof. intros c d d' H H'. apply digit_val in H, H'. congruence. Qed.
Lemma digit_inj : forall c c' d, digit64 c d -> digit64 c' d -> c = c'.
Proof. unfold digit64. intros. congruence. Qed.

Lemma ind3 : forall (P : bytes -> Prop), P [] -> (forall x, P [x]) -> (forall x y, P [x; y]) -> (forall x y z r, P r -> P (x :: y :: z :: r)) -> forall l, P l.
Proof.
  intros P H0 H1 H2 H3 l. assert (X : P l /\ (forall x, P (x :: l)) /\ (forall x y, P (x :: y :: l))); [|apply X].
  induction l as [|a l (A & B & C)]; [auto|]. split; [apply B|]. split; [intro x; apply C|]. intros x y. apply H3, A.
Qed.
Lemma encode_base64 : forall b, bytes_ok b -> base64 b (b64_encode b).
Proof.
  intro b. induction b as [|x|x y|x y z r IH] using ind3; intro OK; cbn [b64_encode].
  - constructor.
  - apply Forall_inv in OK. unfold byte_ok in OK. eapply b64_one; [exact OK|apply sym_digit; lia|apply sym_digit; lia|lia].
  - inversion OK as [|? ? X OK']. apply Forall_inv in OK'. unfold byte_ok in *. eapply b64_two; [lia|lia|apply sym_digit; lia|apply sym_digit; lia|apply sym_digit; lia|lia].
  - inversion OK as [|? ? X OK']. inversion OK' as [|? ? Y OK'']. inversion OK'' as [|? ? Z OK3]. unfold byte_ok in *.
    eapply b64_group; [lia|lia|lia|apply sym_digit; lia|apply sym_digit; lia|apply sym_digit; lia|apply sym_digit; lia| |apply IH; auto]. lia.
Qed.
Lemma three_of : forall x y z d1 d2 d3 d4, y < 256 -> z < 256 -> d2 < 64 -> d3 < 64 -> d4 < 64 ->
  x * 2 ^ 16 + y * 2 ^ 8 + z = d1 * 64 ^ 3 + d2 * 64 ^ 2 + d3 * 64 + d4 -> b64_three d1 d2 d3 d4 = [x; y; z].
Proof.
  intros x y z d1 d2 d3 d4 Y Z D2 D3 D4 E. unfold b64_three. change (2 ^ 16) with 65536 in E. change (2 ^ 8) with 256 in E. change (64 ^ 3) with 262144 in E. change (64 ^ 2) with 4096 in E.
  f_equal; [lia|]. f_equal; [lia|]. f_equal. lia.
Qed.
Lemma decode_step : forall c1 c2 c3 c4 r, r <> [] -> b64_decode (c1 :: c2 :: c3 :: c4 :: r) =
      match b64_val c1, b64_val c2, b64_val c3, b64_val c4, b64_decode r with
      | Some v1, Some v2, Some v3, Some v4, Some b => Some (b64_three v1 v2 v3 v4 ++ b)
      | _, _, _, _, _ => None
      end.
Proof. intros. destruct r; [congruence|reflexivity]. Qed.
Lemma base64_decode : forall b s, base64 b s -> b64_decode s = Some b.
Proof.
  induction 1 as [|x y z c1 d1 c2 d2 c3 d3 c4 d4 b s X Y Z D1 D2 D3 D4 E T IH|x y c1 d1 c2 d2 c3 d3 X Y D1 D2 D3 E|x c1 d1 c2 d2 X D1 D2 E].
  - reflexivity.
  - pose proof (digit_lt _ _ D2). pose proof (digit_lt _ _ D3). pose proof (digit_lt _ _ D4). pose proof (digit_char _ _ D4) as [_ NP].
    apply digit_val in D1, D2, D3, D4. destruct s as [|c s].
    + inversion T; subst. cbn [b64_decode]. unfold b64_last. rewrite D1, D2, D3, D4. unfold PAD. replace (c4 =? 61) with false by lia.
      f_equal. eapply three_of; eauto.
    + rewrite decode_step by discriminate. rewrite D1, D2, D3, D4, IH. f_equal. rewrite (three_of x y z) by auto. reflexivity.
  - pose proof (digit_lt _ _ D2). pose proof (digit_lt _ _ D3). pose proof (digit_char _ _ D3) as [_ NP]. apply digit_val in D1, D2, D3.
    cbn [b64_decode]. unfold b64_last. rewrite D1, D2, D3. unfold PAD. replace (61 =? 61) with true by reflexivity. replace (c3 =? 61) with false by lia.
    change (2 ^ 8) with 256 in E. change (2 ^ 2) with 4 in E. change (64 ^ 2) with 4096 in E. replace (d3 mod 4 =? 0) with true by lia.
    f_equal. f_equal; [lia|]. f_equal. lia.
  - pose proof (digit_lt _ _ D2). apply digit_val in D1, D2. cbn [b64_decode]. unfold b64_last. rewrite D1, D2. unfold PAD. change (61 =? 61) with true. cbv iota.
    change (2 ^ 4) with 16 in E. replace (d2 mod 16 =? 0) with true by lia. f_equal. f_equal. lia.
Qed.
Lemma ind4 : forall (P : list N -> Prop), P [] -> (forall x, P [x]) -> (forall x y, P [x; y]) -> (forall x y z, P [x; y; z]) -> (forall x y z w r, P r -> P (x :: y :: z :: w :: r)) -> forall l, P l.
Proof.
  intros P H0 H1 H2 H3 H4 l. assert (X : P l /\ (forall x, P (x :: l)) /\ (forall x y, P (x :: y :: l)) /\ (forall x y z, P (x :: y :: z :: l))); [|apply X].
  induction l as [|a l (A & B & C & D)]; [auto|]. split; [apply B|]. split; [intro x; apply C|]. split; [intros x y; apply D|]. intros x y z. apply H4, A.
Qed.
Lemma last_base64 : forall c1 c2 c3 c4 b, b64_last c1 c2 c3 c4 = Some b -> base64 b [c1; c2; c3; c4].
Proof.
  intros c1 c2 c3 c4 b. unfold b64_last. destruct (b64_val c1) as [v1|] eqn:E1; [|discriminate]. destruct (b64_val c2) as [v2|] eqn:E2; [|discriminate].
  apply digit_val in E1, E2. pose proof (digit_lt _ _ E1). pose proof (digit_lt _ _ E2). unfold PAD. destruct (N.eqb_spec c4 61) as [->|N4].
  - destruct (N.eqb_spec c3 61) as [->|N3].
    + destruct (N.eqb_spec (v2 mod 16) 0) as [Z|Z]; [|discriminate]. intro H1. assert (b = [v1 * 4 + v2 / 16]) as -> by congruence.
      eapply b64_one; [lia|exact E1|exact E2|]. change (2 ^ 4) with 16. lia.
    + destruct (b64_val c3) as [v3|] eqn:E3; [|discriminate]. apply digit_val in E3. pose proof (digit_lt _ _ E3). destruct (N.eqb_spec (v3 mod 4) 0) as [Z|Z]; [|discriminate].
      intro H2. assert (b = [v1 * 4 + v2 / 16; v2 mod 16 * 16 + v3 / 4]) as -> by congruence. eapply b64_two; [lia|lia|exact E1|exact E2|exact E3|].
      change (2 ^ 8) with 256. change (2 ^ 2) with 4. change (64 ^ 2) with 4096. lia.
  - destruct (b64_val c3) as [v3|] eqn:E3; [|discriminate]. destruct (b64_val c4) as [v4|] eqn:E4; [|discriminate]. apply digit_val in E3, E4.
    pose proof (digit_lt _ _ E3). pose proof (digit_lt _ _ E4). intro H3. assert (b = b64_three v1 v2 v3 v4) as -> by congruence. unfold b64_three.
    eapply b64_group; [lia|lia|lia|exact E1|exact E2|exact E3|exact E4| |constructor]. change (2 ^ 16) with 65536. change (2 ^ 8) with 256. change (64 ^ 3) with 262144. change (64 ^ 2) with 4096. lia.
Qed.
Lemma decode_base64 : forall s b, b64_decode s = Some b -> base64 b s.
Proof.
  intro s. induction s as [|c1|c1 c2|c1 c2 c3|c1 c2 c3 c4 r IH] using ind4; intro b; try discriminate.
  - intro H. assert (b = []) as -> by (cbn in H; congruence). constructor.
  - destruct r as [|c r]; [apply last_base64|]. rewrite decode_step by discriminate.
    destruct (b64_val c1) as [v1|] eqn:E1; [|discriminate]. destruct (b64_val c2) as [v2|] eqn:E2; [|discriminate]. destruct (b64_val c3) as [v3|] eqn:E3; [|discriminate]. destruct (b64_val c4) as [v4|] eqn:E4; [|discriminate].
    destruct (b64_decode (c :: r)) as [b'|] eqn:D; [|discriminate]. intro H. assert (b = b64_three v1 v2 v3 v4 ++ b') as -> by congruence.
    apply digit_val in E1, E2, E3, E4. pose proof (digit_lt _ _ E1). pose proof (digit_lt _ _ E2). pose proof (digit_lt _ _ E3). pose proof (digit_lt _ _ E4). unfold b64_three. cbn [app].
    eapply b64_group; [lia|lia|lia|exact E1|exact E2|exact E3|exact E4| |apply IH; reflexivity]. change (2 ^ 16) with 65536. change (2 ^ 8) with 256. change (64 ^ 3) with 262144. change (64 ^ 2) with 4096. lia.
Qed.
Lemma base64_iff : forall b s, b64_decode s = Some b <-> base64 b s.
Proof. split; [apply decode_base64|apply base64_decode]. Qed.
Lemma base64_ascii : forall b s, base64 b s -> Forall (fun c => c < 128) s.
Proof.
  induction 1; repeat (apply Forall_cons; [cbv beta; first [lia | eapply digit_char; eassumption]|]); auto; constructor.
Qed.
Lemma base64_ok : forall b s, base64 b s -> bytes_ok b.
Proof. induction 1; repeat (apply Forall_cons; [assumption|]); auto; constructor. Qed.
Lemma base64_text_fun : forall b s s', base64 b s -> base64 b s' -> s = s'.
Proof.
  intros b s s' H. revert s'. induction H as [|x y z c1 d1 c2 d2 c3 d3 c4 d4 b s X Y Z D1 D2 D3 D4 E T IH|x y c1 d1 c2 d2 c3 d3 X Y D1 D2 D3 E|x c1 d1 c2 d2 X D1 D2 E]; intros s' H'; inversion H'; subst; try reflexivity.
  - repeat match goal with D : digit64 ?c ?d |- _ => lazymatch goal with L : d < 64 |- _ => fail | _ => pose proof (digit_lt _ _ D) end end.
    change (2 ^ 16) with 65536 in *. change (2 ^ 8) with 256 in *. change (64 ^ 3) with 262144 in *. change (64 ^ 2) with 4096 in *.
    assert (d1 = d0 /\ d2 = d5 /\ d3 = d6 /\ d4 = d7) as (-> & -> & -> & ->) by lia.
    f_equal; [eapply digit_inj; eassumption|]. f_equal; [eapply digit_inj; eassumption|]. f_equal; [eapply digit_inj; eassumption|]. f_equal; [eapply digit_inj; eassumption|]. now apply IH.
  - repeat match goal with D : digit64 ?c ?d |- _ => lazymatch goal with L : d < 64 |- _ => fail | _ => pose proof (digit_lt _ _ D) end end.
    change (2 ^ 8) with 256 in *. change (2 ^ 2) with 4 in *. change (64 ^ 2) with 4096 in *. assert (d1 = d0 /\ d2 = d4 /\ d3 = d5) as (-> & -> & ->) by lia.
    f_equal; [eapply digit_inj; eassumption|]. f_equal; [eapply digit_inj; eassumption|]. f_equal; eapply digit_inj; eassumption.
  - repeat match goal with D : digit64 ?c ?d |- _ => lazymatch goal with L : d < 64 |- _ => fail | _ => pose proof (digit_lt _ _ D) end end.
    change (2 ^ 4) with 16 in *. assert (d1 = d0 /\ d2 = d3) as (-> & ->) by lia. f_equal; [eapply digit_inj; eassumption|]. f_equal; eapply digit_inj; eassumption.
Qed.
(** every group of four characters gives one to three bytes *)
Lemma base64_len : forall b s, base64 b s -> lenN s = 4 * ((lenN b + 2) / 3).
Proof.
  induction 1; rewrite ?lenN_cons, ?lenN_nil; try reflexivity. rewrite IHbase64. lia.
Qed.

Section Sig.
  Variable C : kcurve.
  Variable R : rcurve C.
  Hypothesis OKR : rcurve_ok C R.
  Lemma serialize_spec : forall m, ms_serialize C R m = Ret (signature_bytes C R m) /\ lenN (signature_bytes C R m) = 65 /\ bytes_ok (signature_bytes C R m).
  Proof.
    intros [s c]. unfold ms_serialize, signature_bytes. cbn [ms_signature ms_compressed]. destruct (rc_ser C R s) as [i raw] eqn:E. cbn [fst snd].
    destruct (r_ser C R OKR _ _ _ E) as (LI & OK & L & _). rewrite lenN_cons, L.
    assert (F : i + (if c then 31 else 27) = 27 + i + (if c then 4 else 0)) by (destruct c; lia). rewrite F.
    assert (LB : 27 + i + (if c then 4 else 0) < 256) by (destruct c; lia). replace (255 <? 27 + i + (if c then 4 else 0)) with false by lia.
    split; [|split; [reflexivity|constructor; auto]].
    exact (copy_range_last 1 65 raw [27 + i + (if c then 4 else 0)] 64 eq_refl L ltac:(lia) eq_refl).
  Qed.
  Lemma land4 : forall v, N.land v 4 = if N.testbit v 2 then 4 else 0.
  Proof.
    intro v. apply N.bits_inj. intro k. rewrite N.land_spec. change 4 with (2 ^ 2). rewrite N.pow2_bits_eqb.
    destruct (N.eqb_spec 2 k) as [<-|NE]; [destruct (N.testbit v 2); reflexivity|]. rewrite andb_false_r.
    destruct (N.testbit v 2); [now rewrite N.pow2_bits_false|now rewrite N.bits_0].
  Qed.
  Lemma array_iff : forall x r m, ms_from_byte_array C R (x :: r) = Ret (Ok m) <->
    27 <= x /\ rc_ser C R (ms_signature C R m) = ((x - 27) mod 4, r) /\ ms_compressed C R m = N.testbit (x - 27) 2.
  Proof.
    intros x r m. unfold ms_from_byte_array. destruct (N.ltb_spec x 27) as [L|L]; [split; [discriminate|intros (X & _); lia]|].
    change 3 with (N.ones 2). rewrite N.land_ones. change (2 ^ 2) with 4. assert (M : (x - 27) mod 4 < 4) by (apply N.mod_lt; discriminate).
    change (N.ones 2) with 3. replace (3 <? (x - 27) mod 4) with false by lia. rewrite land4.
    assert (T : negb ((if N.testbit (x - 27) 2 then 4 else 0) =? 0) = N.testbit (x - 27) 2) by (destruct (N.testbit (x - 27) 2); reflexivity). rewrite T. split.
    - destruct (rc_parse C R r ((x - 27) mod 4)) as [s|] eqn:P; [|discriminate]. intro H. assert (m = mk_ms C R s (N.testbit (x - 27) 2)) as -> by congruence. cbn [ms_signature ms_compressed].
      split; [lia|]. split; [now apply (r_parse C R OKR)|reflexivity].
    - intros (_ & E & CC). destruct (r_ser C R OKR _ _ _ E) as (_ & _ & _ & P). rewrite P. destruct m as [s c]. cbn [ms_signature ms_compressed] in *. now rewrite CC.
  Qed.
  Lemma array_err : forall x r e, ms_from_byte_array C R (x :: r) = Ret (Err e) ->
    match e with SeRecoveryId => x < 27 | SeSignature => 27 <= x /\ (forall s, rc_ser C R s <> ((x - 27) mod 4, r)) | SeRecover => False end.
  Proof.
    intros x r e. unfold ms_from_byte_array. destruct (N.ltb_spec x 27) as [L|L]; [intro H; assert (e = SeRecoveryId) as -> by congruence; exact L|].
    change 3 with (N.ones 2). rewrite N.land_ones. change (2 ^ 2) with 4. assert (M : (x - 27) mod 4 < 4) by (apply N.mod_lt; discriminate).
    change (N.ones 2) with 3. replace (3 <? (x - 27) mod 4) with false by lia.
    destruct (rc_parse C R r ((x - 27) mod 4)) as [s|] eqn:P; [discriminate|]. intro H. assert (e = SeSignature) as -> by congruence. split; [lia|].
    intros s E. destruct (r_ser C R OKR _ _ _ E) as (_ & _ & _ & P'). congruence.
  Qed.
  Lemma array_total : forall b, b <> [] -> ms_from_byte_array C R b <> Panic.
  Proof.
    intros [|x r] NE; [congruence|]. unfold ms_from_byte_array. destruct (x <? 27); [discriminate|]. destruct (3 <? N.land (x - 27) 3); [discriminate|].
    destruct (rc_parse C R r (N.land (x - 27) 3)); discriminate.
  Qed.
  Lemma bit2 : forall i, i < 8 -> N.testbit i 2 = (4 <=? i).
  Proof. intros i L. assert (i = 0 \/ i = 1 \/ i = 2 \/ i = 3 \/ i = 4 \/ i = 5 \/ i = 6 \/ i = 7) as E by lia. repeat destruct E as [-> |E]; try subst i; reflexivity. Qed.
  Lemma back : forall m k, k < 256 -> ms_from_byte_array C R (hd 0 (signature_bytes C R m) + 8 * k :: tl (signature_bytes C R m)) = Ret (Ok m).
  Proof.
    intros m k LK. apply array_iff. unfold signature_bytes. cbn [hd tl]. destruct (rc_ser C R (ms_signature C R m)) as [i raw] eqn:E. cbn [fst snd].
    destruct (r_ser C R OKR _ _ _ E) as (LI & _). split; [lia|].
    replace (27 + i + (if ms_compressed C R m then 4 else 0) + 8 * k - 27) with (i + (if ms_compressed C R m then 4 else 0) + k * 8) by lia. split.
    - f_equal. destruct (ms_compressed C R m); lia.
    - assert (L8 : i + (if ms_compressed C R m then 4 else 0) < 8) by (destruct (ms_compressed C R m); lia).
      rewrite <- (N.mod_pow2_bits_low _ 3 2) by reflexivity. change (2 ^ 3) with 8. rewrite N.mod_add, N.mod_small, bit2 by (discriminate || lia). destruct (ms_compressed C R m); lia.
  Qed.
End Sig.
