(** Round trip and canonicity of CompactSize. *)
From Verif Require Import Base MDec LDec.
Local Open Scope N_scope.

Definition U64 : N := 18446744073709551616.

Lemma le_bytes_lenN : forall n v, lenN (le_bytes n v) = N.of_nat n.
Proof. intros. unfold lenN. now rewrite le_bytes_length. Qed.

Lemma cs_encode_len : forall v, lenN (cs_encode v) = cs_encoded_size v.
Proof.
  intro v. unfold cs_encode, cs_encoded_size. repeat destr_if; rewrite ?lenN_cons, ?le_bytes_lenN; reflexivity.
Qed.

Lemma cs_encode_ok : forall v, bytes_ok (cs_encode v).
Proof.
  intro v. unfold cs_encode. repeat destr_if; apply bytes_ok_cons; split;
    try (unfold byte_ok; lia); try apply le_bytes_ok; try apply bytes_ok_nil.
Qed.

Lemma cs_encode_ne : forall v, cs_encode v <> [].
Proof. intro v. unfold cs_encode. repeat destr_if; discriminate. Qed.

Lemma cs_encode_cons : forall v, exists b q, cs_encode v = b :: q /\ lenN (b :: q) = cs_len b.
Proof.
  intro v. unfold cs_encode. repeat destr_if.
  - exists (v mod 256), []. split; auto. rewrite N.mod_small by lia. unfold cs_len.
    replace (v =? 255) with false by lia. replace (v =? 254) with false by lia.
    replace (v =? 253) with false by lia. reflexivity.
  - do 2 eexists. split; [reflexivity|]. rewrite lenN_cons, le_bytes_lenN. reflexivity.
  - do 2 eexists. split; [reflexivity|]. rewrite lenN_cons, le_bytes_lenN. reflexivity.
  - do 2 eexists. split; [reflexivity|]. rewrite lenN_cons, le_bytes_lenN. reflexivity.
Qed.

Lemma cs_decode_encode : forall v, v < U64 -> cs_decode_u64 (cs_encode v) = Ok v.
Proof.
  intros v H. unfold cs_encode. destruct (v <=? 252) eqn:H1.
  - unfold cs_decode_u64. rewrite N.mod_small by lia.
    replace (v =? 255) with false by lia. replace (v =? 254) with false by lia.
    replace (v =? 253) with false by lia. reflexivity.
  - destruct (v <=? 65535) eqn:H2.
    + rewrite N.mod_small by lia. cbn [cs_decode_u64]. change (253 =? 255) with false.
      change (253 =? 254) with false. change (253 =? 253) with true. cbn iota. unfold cs_arr.
      rewrite le_bytes_lenN. change (N.of_nat 2 =? 2) with true. cbn iota.
      rewrite le_val_bytes by (change (256 ^ N.of_nat 2) with 65536; lia).
      now replace (v <? 253) with false by lia.
    + destruct (v <=? 4294967295) eqn:H3.
      * rewrite N.mod_small by lia. cbn [cs_decode_u64]. change (254 =? 255) with false.
        change (254 =? 254) with true. cbn iota. unfold cs_arr.
        rewrite le_bytes_lenN. change (N.of_nat 4 =? 4) with true. cbn iota.
        rewrite le_val_bytes by (change (256 ^ N.of_nat 4) with 4294967296; lia).
        now replace (v <? 65536) with false by lia.
      * cbn [cs_decode_u64]. change (255 =? 255) with true. cbn iota. unfold cs_arr.
        rewrite le_bytes_lenN. change (N.of_nat 8 =? 8) with true. cbn iota.
        rewrite le_val_bytes by (change (256 ^ N.of_nat 8) with U64; auto).
        now replace (v <? 4294967296) with false by lia.
Qed.

Lemma le_bytes_of_val : forall n p, lenN p = N.of_nat n -> bytes_ok p -> le_bytes n (le_val p) = p.
Proof.
  intros n p H Hp. unfold lenN in H. apply Nat2N.inj in H. subst n. now apply le_bytes_val.
Qed.

(** With a one-byte prefix the rest of the buffer must be empty: true of complete buffers. *)
Lemma cs_encode_decode : forall b p v, bytes_ok (b :: p) -> lenN (b :: p) = cs_len b ->
  cs_decode_u64 (b :: p) = Ok v -> cs_encode v = b :: p /\ v < U64.
Proof.
  intros b p v Hok Hlen H. apply bytes_ok_cons in Hok as [Hb Hp]. unfold byte_ok in Hb.
  rewrite lenN_cons in Hlen. unfold cs_len in Hlen. unfold cs_decode_u64 in H.
  destruct (b =? 255) eqn:E1.
  { apply N.eqb_eq in E1. subst b. unfold cs_arr in H. destruct (lenN p =? 8) eqn:El; [|discriminate].
    apply N.eqb_eq in El. destr_if; [discriminate|]. inv H.
    pose proof (le_val_lt p Hp) as K. rewrite El in K. change (256 ^ 8) with U64 in K. split; auto.
    unfold cs_encode. replace (le_val p <=? 252) with false by lia.
    replace (le_val p <=? 65535) with false by lia. replace (le_val p <=? 4294967295) with false by lia.
    now rewrite le_bytes_of_val. }
  destruct (b =? 254) eqn:E2.
  { apply N.eqb_eq in E2. subst b. unfold cs_arr in H. destruct (lenN p =? 4) eqn:El; [|discriminate].
    apply N.eqb_eq in El. destr_if; [discriminate|]. inv H.
    pose proof (le_val_lt p Hp) as K. rewrite El in K. change (256 ^ 4) with 4294967296 in K.
    split; [|unfold U64; lia].
    unfold cs_encode. replace (le_val p <=? 252) with false by lia.
    replace (le_val p <=? 65535) with false by lia. replace (le_val p <=? 4294967295) with true by lia.
    rewrite N.mod_small by lia. now rewrite le_bytes_of_val. }
  destruct (b =? 253) eqn:E3.
  { apply N.eqb_eq in E3. subst b. unfold cs_arr in H. destruct (lenN p =? 2) eqn:El; [|discriminate].
    apply N.eqb_eq in El. destr_if; [discriminate|]. inv H.
    pose proof (le_val_lt p Hp) as K. rewrite El in K. change (256 ^ 2) with 65536 in K.
    split; [|unfold U64; lia].
    unfold cs_encode. replace (le_val p <=? 252) with false by lia.
    replace (le_val p <=? 65535) with true by lia.
    rewrite N.mod_small by lia. now rewrite le_bytes_of_val. }
  inv H. assert (p = []) by (apply lenN_nil_inv; lia). subst p. split; [|unfold U64; lia].
  unfold cs_encode. replace (v <=? 252) with true by lia. now rewrite N.mod_small by lia.
Qed.

Lemma cs_den_encode : forall dv v t, cs_den dv [] (cs_encode v ++ t) = of_res (dv (cs_encode v)) t.
Proof.
  intros. rewrite cs_den_app. cbn [app]. destruct (cs_encode_cons v) as (b & q & -> & H).
  now apply cs_den_complete.
Qed.

Lemma cs_fin_encode : forall limit v, v < U64 ->
  cs_fin limit (cs_encode v) = if v <=? limit then Ok v else Err (CsExceeds limit v).
Proof. intros. unfold cs_fin. now rewrite cs_decode_encode. Qed.

Lemma cs_den_canon_u64 : forall l v r, bytes_ok l -> cs_den cs_decode_u64 [] l = Done v r ->
  l = cs_encode v ++ r /\ v < U64.
Proof.
  intros l v r Hok H. pose proof (cs_den_inv cs_decode_u64 [] l) as K. rewrite H in K.
  destruct K as (b & w & E & Hlen & K). cbn [app] in E. subst l.
  set (c := takeN (cs_len b) (b :: w)) in *.
  destruct (cs_decode_u64 c) as [v'|] eqn:Hd; inv K.
  assert (Hc : exists q, c = b :: q).
  { unfold c, takeN. pose proof (cs_len_bounds b). destruct (N.to_nat (cs_len b)) eqn:En; [lia|].
    cbn. eauto. }
  destruct Hc as (q & Hc). rewrite Hc in *.
  assert (Hl : lenN (b :: q) = cs_len b) by (rewrite <- Hc; unfold c; rewrite lenN_takeN; lia).
  destruct (cs_encode_decode b q v') as [E1 E2]; auto.
  - rewrite <- Hc. unfold c. apply bytes_ok_firstn. auto.
  - split; auto. rewrite E1, <- Hc. unfold c. now rewrite takeN_dropN.
Qed.

Lemma cs_den_canon : forall limit l v r, bytes_ok l -> cs_den (cs_fin limit) [] l = Done v r ->
  l = cs_encode v ++ r /\ v <= limit /\ v < U64.
Proof.
  intros limit l v r Hok H.
  assert (K : cs_den cs_decode_u64 [] l = Done v r /\ v <= limit).
  { unfold cs_den in *. destruct ([] ++ l); [discriminate|]. destr_if; [discriminate|].
    unfold cs_fin in H. destruct (cs_decode_u64 _); [|discriminate].
    destruct (a <=? limit) eqn:Ha; inv H. split; auto. lia. }
  destruct K as [K K2]. destruct (cs_den_canon_u64 _ _ _ Hok K). auto.
Qed.

Lemma cs_den_roundtrip : forall limit v t, v < U64 -> v <= limit ->
  cs_den (cs_fin limit) [] (cs_encode v ++ t) = Done v t.
Proof.
  intros. rewrite cs_den_encode, cs_fin_encode by auto. now replace (v <=? limit) with true by lia.
Qed.

Lemma cs_encode_inj : forall a b s t, a < U64 -> b < U64 -> cs_encode a ++ s = cs_encode b ++ t -> a = b /\ s = t.
Proof.
  intros a b s t Ha Hb H.
  pose proof (cs_den_encode cs_decode_u64 a s) as K1. pose proof (cs_den_encode cs_decode_u64 b t) as K2.
  rewrite cs_decode_encode in K1, K2 by auto. rewrite H in K1. rewrite K1 in K2. now inv K2.
Qed.
