(** Lemmas about amount texts. *)
From Coq Require Import String.
From Verif Require Import Base MWitness MAmount LAmount MTx MTxSize MText SText LText MAmountText SAmountText.
Local Open Scope N_scope.

(** * Parsing *)
Definition oz (d : option N) : option Z := match d with Some x => Some (Z.of_N x) | None => None end.
Definition isdig (c : N) := (48 <=? c) && (c <=? 57).
(** the loop without overflow checks and error details *)
Fixpoint pl (max : N) (s : str) (dec : option N) (us first : bool) (v : N) : option (option N * N) :=
  match s with
  | [] => Some (dec, v)
  | c :: s' =>
      if isdig c then
        match dec with
        | None => pl max s' None false false (10 * v + (c - 48))
        | Some d => if d <? max then pl max s' (Some (d + 1)) false false (10 * v + (c - 48)) else None
        end
      else if c =? 95 then if first then None else if us then None else pl max s' dec true false v
      else if c =? 46 then match dec with None => pl max s' (Some 0) false false v | Some _ => None end
      else None
  end.
Definition I64MAX : N := 9223372036854775807.

Lemma pl_mono : forall max s dec us first v d v', pl max s dec us first v = Some (d, v') -> v <= v'.
Proof.
  induction s as [|c s IH]; intros dec us first v d v'; cbn [pl]; intro H; [inv H; lia|].
  destruct (isdig c).
  - destruct dec; [destruct (n <? max); [|discriminate]|]; apply IH in H; lia.
  - destruct (c =? 95); [destruct first; [discriminate|]; destruct us; [discriminate|]; eauto|].
    destruct (c =? 46); [|discriminate]. destruct dec; [discriminate|]. eauto.
Qed.

Lemma char_len_pos : forall c, 1 <= char_len c.
Proof. intro c. unfold char_len. destruct (c <? 128), (c <? 2048), (c <? 65536); lia. Qed.

Lemma mul10 : forall v, v <= I64MAX -> i64_checked_mul 10 (Z.of_N v) = if 10 * v <=? I64MAX then Some (Z.of_N (10 * v)) else None.
Proof.
  intros v H. unfold i64_checked_mul, i64_in, I64_MIN, I64_MAX, I64MAX in *.
  destruct (N.leb_spec (10 * v) 9223372036854775807);
  destruct (Z.leb_spec (-9223372036854775808) (10 * Z.of_N v)), (Z.leb_spec (10 * Z.of_N v) 9223372036854775807);
    cbn [andb]; try lia; try reflexivity. f_equal; lia.
Qed.
Lemma addd : forall v c, v <= I64MAX -> i64_checked_add (Z.of_N v) (Z.of_N c) = if v + c <=? I64MAX then Some (Z.of_N (v + c)) else None.
Proof.
  intros v c H. unfold i64_checked_add, i64_in, I64_MIN, I64_MAX, I64MAX in *.
  destruct (N.leb_spec (v + c) 9223372036854775807);
  destruct (Z.leb_spec (-9223372036854775808) (Z.of_N v + Z.of_N c)), (Z.leb_spec (Z.of_N v + Z.of_N c) 9223372036854775807);
    cbn [andb]; try lia; try reflexivity. f_equal; lia.
Qed.

Definition pl_res (neg : bool) (o : option (option N * N)) (r : result (option Z * Z) inner_err) : Prop :=
  match o with
  | Some (d, v) => if v <=? I64MAX then r = Ok (oz d, Z.of_N v) else r = Err (Overflow neg)
  | None => exists e, r = Err e
  end.
Lemma parse_loop_pl : forall neg max s i dec us v, (0 < max \/ ~ In 46 s) -> v <= I64MAX ->
  pl_res neg (pl max s dec us (i =? 0) v) (parse_loop neg (Z.of_N max) s i (oz dec) us (Z.of_N v)).
Proof.
  induction s as [|c s IH]; intros i dec us v M V; cbn [pl parse_loop].
  - cbn [pl_res]. destruct (N.leb_spec v I64MAX); [auto|lia].
  - assert (M' : 0 < max \/ ~ In 46 s) by (destruct M; [auto|right; intro; apply H; now right]).
    assert (NZ : (i + char_len c =? 0) = false) by (pose proof (char_len_pos c); lia).
    fold (isdig c). destruct (isdig c) eqn:D.
    + assert (DC : c - 48 < 10) by (unfold isdig in D; lia).
      rewrite mul10 by auto.
      assert (OV : forall d', I64MAX < 10 * v + (c - 48) -> 
         pl_res neg (pl max s d' false false (10 * v + (c - 48))) (Err (Overflow neg))).
      { intros d' L. destruct (pl max s d' false false (10 * v + (c - 48))) as [[d'' v'']|] eqn:P; cbn [pl_res]; [|eauto].
        apply pl_mono in P. destruct (N.leb_spec v'' I64MAX); [lia|auto]. }
      destruct (N.leb_spec (10 * v) I64MAX).
      * rewrite addd by auto. destruct (N.leb_spec (10 * v + (c - 48)) I64MAX).
        -- destruct dec as [d|]; cbn [oz].
           ++ destruct (N.ltb_spec d max); destruct (Z.ltb_spec (Z.of_N d) (Z.of_N max)); try lia.
              ** specialize (IH (i + char_len c) (Some (d + 1)) false (10 * v + (c - 48)) M' ltac:(auto)).
                 rewrite NZ in IH. cbn [oz] in IH. now replace (Z.of_N d + 1)%Z with (Z.of_N (d + 1)) by lia.
              ** cbn [pl_res]. eauto.
           ++ specialize (IH (i + char_len c) None false (10 * v + (c - 48)) M' ltac:(auto)).
              now rewrite NZ in IH.
        -- destruct dec as [d|]; [|auto]. destruct (d <? max); [auto|cbn [pl_res]; eauto].
      * assert (I64MAX < 10 * v + (c - 48)) by lia.
        destruct dec as [d|]; [|auto]. destruct (d <? max); [auto|cbn [pl_res]; eauto].
    + destruct (N.eqb_spec c 95).
      * destruct (i =? 0); [cbn [pl_res]; eauto|]. destruct us; [cbn [pl_res]; eauto|].
        specialize (IH (i + char_len c) dec true v M' V). now rewrite NZ in IH.
      * destruct (N.eqb_spec c 46).
        -- destruct dec; cbn [oz]; [cbn [pl_res]; eauto|].
           destruct M as [M|M]; [|exfalso; apply M; left; auto].
           destruct (Z.leb_spec (Z.of_N max) 0); [lia|].
           specialize (IH (i + char_len c) (Some 0) false v M' V). now rewrite NZ in IH.
        -- cbn [pl_res]. eauto.
Qed.

(** underscores *)
Fixpoint uok (us : bool) (s : str) : bool :=
  match s with [] => true | c :: s' => if c =? 95 then (if us then false else uok true s') else uok false s' end.
Fixpoint pq (max : N) (s : str) (dec : option N) (v : N) : option (option N * N) :=
  match s with
  | [] => Some (dec, v)
  | c :: s' =>
      if isdig c then
        match dec with
        | None => pq max s' None (10 * v + (c - 48))
        | Some d => if d <? max then pq max s' (Some (d + 1)) (10 * v + (c - 48)) else None
        end
      else if c =? 46 then match dec with None => pq max s' (Some 0) v | Some _ => None end
      else None
  end.
Lemma pl_pq : forall max s dec us v,
  pl max s dec us false v = if uok us s then pq max (without_underscores s) dec v else None.
Proof.
  induction s as [|c s IH]; intros dec us v; cbn [pl uok]; [reflexivity|].
  unfold without_underscores in *. cbn [filter]. destruct (isdig c) eqn:D.
  - assert (c =? 95 = false) as -> by (unfold isdig in D; lia). cbn [negb pq]. rewrite D.
    destruct dec; rewrite ?IH; [|reflexivity]. destruct (n <? max); [reflexivity|]. now destruct (uok false s).
  - destruct (N.eqb_spec c 95); cbn [negb].
    + destruct us; rewrite ?IH; auto.
    + cbn [pq]. rewrite D. destruct (N.eqb_spec c 46).
      * destruct dec; rewrite ?IH; auto. now destruct (uok false s).
      * now destruct (uok false s).
Qed.
Lemma pl_first : forall max s dec v,
  pl max s dec false true v = if hd 0 s =? 95 then None else pl max s dec false false v.
Proof.
  intros max s dec v. destruct s as [|c s]; [reflexivity|]. cbn [pl hd].
  destruct (N.eqb_spec c 95); [|destruct (isdig c); auto]. subst. cbn. reflexivity.
Qed.
Lemma uok_spec : forall s us, uok us s = true <->
  (us = true -> hd 0 s <> 95) /\ ~ exists a b, s = a ++ 95 :: 95 :: b.
Proof.
  induction s as [|c s IH]; intro us; cbn [uok hd].
  - split; auto. split; [lia|]. intros (a & b & E). destruct a; discriminate.
  - destruct (N.eqb_spec c 95) as [->|NE].
    + destruct us.
      * split; [discriminate|]. intros [A _]. now destruct A.
      * rewrite IH. split.
        -- intros [A B]. split; [discriminate|]. intros (a & b & E). destruct a as [|x a].
           ++ injection E as E. subst s. now apply A.
           ++ injection E as _ E. apply B. eauto.
        -- intros [A B]. split.
           ++ intros _ E. apply B. destruct s as [|x s]; [cbn in E; lia|]. cbn in E. subst x. now exists [], s.
           ++ intros (a & b & E). apply B. exists (95 :: a), b. now rewrite E.
    + rewrite IH. split.
      * intros [A B]. split; [auto|]. intros (a & b & E). destruct a as [|x a].
        -- injection E as E _. congruence.
        -- injection E as _ E. apply B. eauto.
      * intros [A B]. split; [discriminate|]. intros (a & b & E). apply B. exists (c :: a), b. now rewrite E.
Qed.
Lemma underscores_uok : forall s, underscores_ok s <-> (hd 0 s =? 95) = false /\ uok false s = true.
Proof.
  intro s. rewrite uok_spec. unfold underscores_ok. split.
  - intros [A B]. split; [lia|]. split; [discriminate|auto].
  - intros (A & _ & B). split; [lia|auto].
Qed.

(** digits *)
Lemma digits_or_empty_ds : forall s n, digits_or_empty s n <-> exists ds, Forall2 digit10 s ds /\ n = digits_val 10 0 ds.
Proof.
  intros s n. unfold digits_or_empty. split.
  - intros [[-> ->]|H]; [exists []; split; [constructor|reflexivity]|]. apply numeral_digits in H. tauto.
  - intros (ds & F & ->). destruct s; [inv F; left; split; reflexivity|]. right. apply numeral_digits.
    split; [discriminate|]. eauto.
Qed.
Lemma digits_nil : digits_or_empty [] 0.
Proof. left; auto. Qed.
Lemma isdig10 : forall c, isdig c = true <-> digit10 c (c - 48).
Proof. intro c. unfold isdig, digit10. lia. Qed.
Lemma digits_cons : forall c s n, digits_or_empty (c :: s) n <->
  isdig c = true /\ exists m, digits_or_empty s m /\ n = (c - 48) * 10 ^ lenN s + m.
Proof.
  intros c s n. rewrite digits_or_empty_ds. split.
  - intros (ds & F & ->). inv F. assert (y = c - 48) by (unfold digit10 in *; lia). subst y.
    split; [now apply isdig10|]. exists (digits_val 10 0 l'). split; [apply digits_or_empty_ds; eauto|].
    unfold digits_val at 1. cbn [fold_left]. fold (digits_val 10 (0 * 10 + (c - 48)) l').
    rewrite digits_val_acc, (Forall2_lenN _ _ _ _ _ H3), N.mul_0_l, N.add_0_l. reflexivity.
  - intros (D & m & H & ->). apply digits_or_empty_ds in H as (ds & F & ->).
    exists (c - 48 :: ds). split; [constructor; auto; now apply isdig10|].
    unfold digits_val at 2. cbn [fold_left]. fold (digits_val 10 (0 * 10 + (c - 48)) ds).
    rewrite (digits_val_acc 10 ds (0 * 10 + (c - 48))), (Forall2_lenN _ _ _ _ _ F), N.mul_0_l, N.add_0_l. reflexivity.
Qed.
Lemma digits_nodot : forall s n c, digits_or_empty s n -> In c s -> isdig c = true.
Proof.
  induction s as [|x s IH]; intros n c H I; [destruct I|]. apply digits_cons in H as (D & m & H & _).
  destruct I as [->|I]; eauto.
Qed.
Lemma pow10_succ : forall n, 10 ^ (n + 1) = 10 * 10 ^ n.
Proof. intro. now rewrite N.add_1_r, N.pow_succ_r'. Qed.

(** fraction part *)
Lemma pq_frac : forall max s d v d' v', d <= max -> pq max s (Some d) v = Some (d', v') <->
  exists m, digits_or_empty s m /\ d' = Some (d + lenN s) /\ d + lenN s <= max /\ v' = v * 10 ^ lenN s + m.
Proof.
  induction s as [|c s IH]; intros d v d' v' L; cbn [pq].
  - rewrite lenN_nil, N.pow_0_r, N.add_0_r. split.
    + intro H. inv H. exists 0. repeat split; auto using digits_nil; lia.
    + intros (m & H & -> & _ & ->). destruct H as [[_ ->]|H]; [|now apply numeral_nonempty in H]. repeat f_equal; lia.
  - rewrite lenN_cons. replace (1 + lenN s) with (lenN s + 1) by lia. rewrite pow10_succ. destruct (isdig c) eqn:D.
    + destruct (N.ltb_spec d max).
      * rewrite IH by lia. split.
        -- intros (m & H1 & -> & H2 & ->). exists ((c - 48) * 10 ^ lenN s + m).
           split; [apply digits_cons; eauto|]. split; [f_equal; lia|]. split; [lia|]. ring.
        -- intros (m & H1 & -> & H2 & ->). apply digits_cons in H1 as (_ & m' & H1 & ->).
           exists m'. split; auto. split; [f_equal; lia|]. split; [lia|]. ring.
      * split; [discriminate|]. intros (m & H1 & -> & H2 & ->). lia.
    + assert (forall m, ~ digits_or_empty (c :: s) m) by (intros m X; apply digits_cons in X as (X & _); congruence).
      destruct (c =? 46); (split; [discriminate|]); intros (m & X & _); exfalso; eapply H; eauto.
Qed.
(** whole number *)
Lemma pq_whole : forall max s v d' v', pq max s None v = Some (d', v') <->
  (exists n, digits_or_empty s n /\ d' = None /\ v' = v * 10 ^ lenN s + n) \/
  (exists ip fp n m, s = ip ++ 46 :: fp /\ digits_or_empty ip n /\ digits_or_empty fp m /\ lenN fp <= max /\
     d' = Some (lenN fp) /\ v' = (v * 10 ^ lenN ip + n) * 10 ^ lenN fp + m).
Proof.
  induction s as [|c s IH]; intros v d' v'; cbn [pq].
  - split.
    + intro H. inv H. left. exists 0. rewrite lenN_nil, N.pow_0_r. repeat split; auto using digits_nil; lia.
    + intros [(n & H & -> & ->)|(ip & fp & n & m & E & _)]; [|destruct ip; discriminate].
      destruct H as [[_ ->]|H]; [|now apply numeral_nonempty in H]. rewrite lenN_nil, N.pow_0_r. repeat f_equal; lia.
  - destruct (isdig c) eqn:D.
    + rewrite IH. clear IH. split.
      * intros [(n & H & -> & ->)|(ip & fp & n & m & -> & H1 & H2 & L & -> & ->)].
        -- left. exists ((c - 48) * 10 ^ lenN s + n). split; [apply digits_cons; eauto|]. split; auto.
           rewrite lenN_cons. replace (1 + lenN s) with (lenN s + 1) by lia. rewrite pow10_succ. ring.
        -- right. exists (c :: ip), fp, ((c - 48) * 10 ^ lenN ip + n), m. split; [reflexivity|].
           split; [apply digits_cons; eauto|]. repeat split; auto.
           rewrite (lenN_cons _ c). replace (1 + lenN ip) with (lenN ip + 1) by lia. rewrite pow10_succ. ring.
      * intros [(n & H & -> & ->)|(ip & fp & n & m & E & H1 & H2 & L & -> & ->)].
        -- apply digits_cons in H as (_ & n' & H & ->). left. exists n'. split; auto. split; auto.
           rewrite lenN_cons. replace (1 + lenN s) with (lenN s + 1) by lia. rewrite pow10_succ. ring.
        -- destruct ip as [|x ip]; [injection E as -> _; discriminate D|]. injection E as <- ->.
           apply digits_cons in H1 as (_ & n' & H & ->). right. exists ip, fp, n', m. repeat split; auto.
           rewrite (lenN_cons _ c). replace (1 + lenN ip) with (lenN ip + 1) by lia. rewrite pow10_succ. ring.
    + assert (forall m, ~ digits_or_empty (c :: s) m) as ND by (intros m X; apply digits_cons in X as (X & _); congruence).
      destruct (N.eqb_spec c 46) as [->|NE].
      * rewrite pq_frac by lia. split.
        -- intros (m & H1 & -> & H2 & ->). right. exists [], s, 0, m. split; [reflexivity|].
           rewrite lenN_nil, N.pow_0_r. repeat split; auto using digits_nil; try (f_equal; lia); try lia.
        -- intros [(n & H & _)|(ip & fp & n & m & E & H1 & H2 & L & -> & ->)]; [exfalso; eapply ND; eauto|].
           destruct ip as [|x ip].
           ++ injection E as <-. exists m. destruct H1 as [[_ ->]|H1]; [|now apply numeral_nonempty in H1].
              rewrite lenN_nil, N.pow_0_r. repeat split; auto; try (f_equal; lia); lia.
           ++ injection E as <- ->. apply digits_cons in H1 as (X & _). discriminate.
      * split; [discriminate|]. intros [(n & H & _)|(ip & fp & n & m & E & H1 & _)]; [exfalso; eapply ND; eauto|].
        destruct ip as [|x ip]; [injection E as -> _; congruence|]. injection E as <- ->.
        apply digits_cons in H1 as (X & _). congruence.
Qed.

Definition value (p : N) (s : str) : option N :=
  match s with
  | [] => None
  | _ => match pl p s None false true 0 with
         | Some (d, v) => Some (v * 10 ^ (p - unwrap_or d 0))
         | None => None
         end
  end.
Lemma value_pq : forall p s, s <> [] -> value p s =
  if negb (hd 0 s =? 95) && uok false s then
    match pq p (without_underscores s) None 0 with Some (d, v) => Some (v * 10 ^ (p - unwrap_or d 0)) | None => None end
  else None.
Proof.
  intros p s NE. unfold value. destruct s as [|c s]; [congruence|]. rewrite pl_first.
  destruct (hd 0 (c :: s) =? 95); [reflexivity|]. rewrite pl_pq. cbn [negb andb].
  now destruct (uok false (c :: s)).
Qed.
Lemma value_spec : forall p s v, value p s = Some v <-> decimal_text p s v.
Proof.
  intros p s v. unfold decimal_text. destruct s as [|c s]; [cbn [value]; split; [discriminate|tauto]|].
  rewrite value_pq by discriminate. rewrite underscores_uok.
  destruct (hd 0 (c :: s) =? 95), (uok false (c :: s)); cbn [negb andb];
    try (split; [discriminate|intros (_ & [? ?] & _); congruence]).
  destruct (pq p (without_underscores (c :: s)) None 0) as [[d v0]|] eqn:P.
  - split.
    + intro H. inv H. split; [discriminate|]. split; [auto|]. apply pq_whole in P.
      destruct P as [(n & H & -> & ->)|(ip & fp & n & m & E & H1 & H2 & L & -> & ->)].
      * exists (without_underscores (c :: s)), [], n, 0. cbn [unwrap_or]. rewrite lenN_nil.
        rewrite N.sub_0_r. repeat split; auto using digits_nil; try lia; ring.
      * exists ip, fp, n, m. repeat split; auto. cbn [unwrap_or].
        replace (10 ^ p) with (10 ^ lenN fp * 10 ^ (p - lenN fp)) by (rewrite <- N.pow_add_r; f_equal; lia). ring.
    + intros (_ & _ & ip & fp & n & m & E & H1 & H2 & L & ->).
      destruct E as [E|[E ->]].
      * assert (Q : pq p (without_underscores (c :: s)) None 0 = Some (Some (lenN fp), n * 10 ^ lenN fp + m)).
        { apply pq_whole. right. exists ip, fp, n, m. repeat split; auto. }
        rewrite P in Q. injection Q as -> ->. cbn [unwrap_or]. f_equal.
        replace (10 ^ p) with (10 ^ lenN fp * 10 ^ (p - lenN fp)) by (rewrite <- N.pow_add_r; f_equal; lia). ring.
      * assert (Q : pq p (without_underscores (c :: s)) None 0 = Some (None, n)).
        { apply pq_whole. left. exists n. rewrite E. repeat split; auto. }
        rewrite P in Q. injection Q as -> ->. cbn [unwrap_or]. f_equal.
        destruct H2 as [[_ ->]|H2]; [|now apply numeral_nonempty in H2]. rewrite N.sub_0_r. lia.
  - split; [discriminate|]. intros (_ & _ & ip & fp & n & m & E & H1 & H2 & L & ->). exfalso.
    destruct E as [E|[E ->]].
    + assert (Q : pq p (without_underscores (c :: s)) None 0 = Some (Some (lenN fp), n * 10 ^ lenN fp + m)).
      { apply pq_whole. right. exists ip, fp, n, m. repeat split; auto. }
      congruence.
    + assert (Q : pq p (without_underscores (c :: s)) None 0 = Some (None, n)).
      { apply pq_whole. left. exists n. rewrite E. repeat split; auto. }
      congruence.
Qed.
Lemma decimal_fun : forall p s v w, decimal_text p s v -> decimal_text p s w -> v = w.
Proof. intros p s v w A B. apply value_spec in A, B. congruence. Qed.

Lemma scale_ok : forall n v, v <= I64MAX ->
  scale_loop n (Z.of_N v) = if v * 10 ^ N.of_nat n <=? I64MAX then Some (Z.of_N (v * 10 ^ N.of_nat n)) else None.
Proof.
  induction n; intros v H; cbn [scale_loop].
  - cbn [N.of_nat]. rewrite N.pow_0_r, N.mul_1_r. destruct (N.leb_spec v I64MAX); [auto|lia].
  - rewrite mul10 by auto. rewrite Nat2N.inj_succ, N.pow_succ_r'.
    replace (v * (10 * 10 ^ N.of_nat n)) with (10 * v * 10 ^ N.of_nat n) by ring.
    destruct (N.leb_spec (10 * v) I64MAX); [auto|].
    assert (1 <= 10 ^ N.of_nat n) by (apply N.lt_pred_le, N.neq_0_lt_0, N.pow_nonzero; lia).
    destruct (N.leb_spec (10 * v * 10 ^ N.of_nat n) I64MAX); [nia|auto].
Qed.
Definition MAXSAT : N := 2100000000000000.
Definition signz (neg : bool) (v : N) : Z := if neg then (- Z.of_N v)%Z else Z.of_N v.
Lemma parse_tail_value : forall neg p s, s <> [] -> (0 < p \/ ~ In 46 s) ->
  match value p s with
  | Some v => parse_tail neg (Z.of_N p) s = Ret (if v <=? MAXSAT then Ok (neg, signz neg v) else Err (Overflow neg))
  | None => exists e, parse_tail neg (Z.of_N p) s = Ret (Err e)
  end.
Proof.
  intros neg p s NE M. unfold parse_tail.
  pose proof (parse_loop_pl neg p s 0 None false 0 M ltac:(unfold I64MAX; lia)) as H.
  change (Z.of_N 0) with 0%Z in H. cbn [oz] in H. change (0 =? 0) with true in H.
  unfold value. destruct s as [|c s]; [congruence|]. set (s' := c :: s) in *.
  destruct (pl p s' None false true 0) as [[d v]|] eqn:P; cbn [pl_res] in H.
  - set (r := 10 ^ (p - unwrap_or d 0)).
    assert (R : 1 <= r) by (apply N.lt_pred_le, N.neq_0_lt_0, N.pow_nonzero; lia).
    destruct (N.leb_spec v I64MAX); rewrite H.
    + replace (Z.to_nat _) with (N.to_nat (p - unwrap_or d 0)) by (destruct d; cbn [oz unwrap_or]; lia).
      rewrite scale_ok by auto. rewrite N2Nat.id. fold r.
      destruct (N.leb_spec (v * r) I64MAX).
      * unfold signed_from_sat, SIGNED_MIN, AMOUNT_MAX, MAXSAT.
        destruct (Z.ltb_spec (Z.of_N (v * r)) (-21000000 * 100000000)); [lia|].
        destruct (Z.ltb_spec (21000000 * 100000000) (Z.of_N (v * r))), (N.leb_spec (v * r) 2100000000000000); try lia; [reflexivity|].
        destruct neg; [|reflexivity]. unfold signed_neg, I64_MIN, signed_from_sat, SIGNED_MIN, AMOUNT_MAX.
        destruct (Z.eqb_spec (Z.of_N (v * r)) (-9223372036854775808)); [lia|].
        destruct (Z.ltb_spec (- Z.of_N (v * r)) (-21000000 * 100000000)); [lia|].
        destruct (Z.ltb_spec (21000000 * 100000000) (- Z.of_N (v * r))); [lia|]. reflexivity.
      * destruct (N.leb_spec (v * r) MAXSAT); [unfold MAXSAT, I64MAX in *; lia|reflexivity].
    + destruct (N.leb_spec (v * r) MAXSAT); [unfold MAXSAT, I64MAX in *; nia|reflexivity].
  - destruct H as [e ->]. eauto.
Qed.

(** satoshi *)
Lemma find_idx_none : forall f s i, find_idx f i s = None <-> Forall (fun c => f c = false) s.
Proof.
  induction s as [|c s IH]; intro i; cbn [find_idx]; [split; auto|].
  destruct (f c) eqn:E; [split; [discriminate|intro H; inv H; congruence]|]. rewrite IH.
  split; [constructor; auto|intro H; now inv H].
Qed.
Lemma before_split : forall c s, match split_first c s with Some (a, b) => before c s = a | None => before c s = s end.
Proof.
  induction s as [|x s IH]; cbn [split_first before]; auto. destruct (x =? c); auto.
  destruct (split_first c s) as [[a b]|]; congruence.
Qed.
Lemma str_len_pos : forall s, s <> [] -> 1 <= str_len s.
Proof.
  intros s H. destruct s as [|c s]; [congruence|]. cbn [str_len fold_right]. fold (str_len s).
  pose proof (char_len_pos c). lia.
Qed.
Lemma radix_nodot : forall lo hi s z, from_str_radix true lo hi 10 s = Ok z -> ~ In 46 s.
Proof.
  intros lo hi s z H I. apply (radix_ok 10 digit10) in H as [H _]; [|apply good10].
  assert (X : forall t n, numeral digit10 10 t n -> ~ In 46 t).
  { intros t n N1 N2. assert (isdig 46 = true) by (eapply digits_nodot; [right; eauto|auto]). discriminate. }
  inv H; [eapply X; eauto| |]; destruct I as [I|I]; try discriminate; eapply X; eauto.
Qed.
Definition sat_value (s : str) : option N :=
  match split_first 46 s with
  | Some (a, b) => if forallb (fun c => c =? 48) b then value 0 a else None
  | None => value 0 s
  end.
Definition avalue (d : denom) (s : str) : option N :=
  match d with Satoshi => sat_value s | _ => value (places d) s end.
Lemma avalue_spec : forall d s v, avalue d s = Some v <-> amount_text d s v.
Proof.
  intros d s v. destruct d; cbn [avalue amount_text]; try apply value_spec.
  unfold sat_value. pose proof (split_first_some 46 s) as S1. pose proof (split_first_none 46 s) as S2.
  destruct (split_first 46 s) as [[a b]|].
  - destruct (S1 a b eq_refl) as [E NI]. clear S1 S2. split.
    + destruct (forallb _ b) eqn:F; [|discriminate]. intro V. apply value_spec in V. exists a, b. split; auto.
      split; auto. split; auto. apply Forall_forall. intros x I. rewrite forallb_forall in F. specialize (F x I). lia.
    + intros (ip & z & E' & NI' & F & V). destruct E' as [E'|E'].
      * exfalso. apply NI'. rewrite <- E', E. apply in_app_iff. right. now left.
      * assert (X : split_first 46 s = Some (ip, z)) by (rewrite E'; apply split_first_app; auto).
        assert (Y : split_first 46 s = Some (a, b)) by (rewrite E; apply split_first_app; auto).
        rewrite X in Y. injection Y as -> ->.
        assert (forallb (fun c => c =? 48) b = true) as ->.
        { apply forallb_forall. intros x I. rewrite Forall_forall in F. specialize (F x I). lia. }
        now apply value_spec.
  - split.
    + intro V. apply value_spec in V. exists s, []. split; auto. split; [now apply S2|]. split; auto.
    + intros (ip & z & E' & NI' & F & V). destruct E' as [->|E']; [now apply value_spec|].
      exfalso. assert (~ In 46 s) as Q by now apply S2. apply Q. rewrite E'. apply in_app_iff. right. now left.
Qed.
Lemma amount_fun : forall d s v w, amount_text d s v -> amount_text d s w -> v = w.
Proof. intros d s v w A B. apply avalue_spec in A, B. congruence. Qed.

Definition body (s : str) : str := match s with c :: t => if c =? 45 then t else s | [] => [] end.
Definition isneg (s : str) : bool := match s with c :: _ => c =? 45 | [] => false end.
Lemma value_nil : forall d, avalue d [] = None.
Proof. destruct d; reflexivity. Qed.
Lemma precision_places : forall d, (- precision d)%Z = Z.of_N (places d).
Proof. destruct d; reflexivity. Qed.
Lemma parse_signed_value : forall s d, str_len s <= 50 ->
  match avalue d (body s) with
  | Some v => parse_signed_to_satoshi s d = Ret (if v <=? MAXSAT then Ok (isneg s, signz (isneg s) v) else Err (Overflow (isneg s)))
  | None => exists e, parse_signed_to_satoshi s d = Ret (Err e)
  end.
Proof.
  intros s d L. destruct s as [|c0 rest]; [cbn [body]; rewrite value_nil; cbn; eauto|].
  unfold parse_signed_to_satoshi. unfold INPUT_STRING_LEN_LIMIT.
  destruct (N.ltb_spec 50 (str_len (c0 :: rest))); [lia|]. cbn [isneg].
  set (neg := c0 =? 45). set (t := body (c0 :: rest)).
  change (if neg then rest else c0 :: rest) with t.
  destruct (neg && (str_len (c0 :: rest) =? 1)) eqn:E1.
  - assert (t = []) as ->.
    { apply andb_true_iff in E1 as [A B]. unfold t. cbn [body]. fold neg. rewrite A. destruct rest as [|x rest]; auto. exfalso.
      cbn [str_len fold_right] in B. fold (str_len rest) in B. pose proof (char_len_pos c0). pose proof (char_len_pos x). lia. }
    rewrite value_nil. eauto.
  - assert (NE : t <> []).
    { unfold t. cbn [body]. fold neg. destruct neg eqn:E; [|discriminate]. destruct rest; [|discriminate].
      exfalso. apply N.eqb_eq in E. subst c0. discriminate E1. }
    clearbody t neg. clear - NE. rewrite precision_places.
    destruct d; try (cbn [places avalue]; destruct (Z.leb_spec (Z.of_N (places Bitcoin)) 0); [discriminate|];
      cbn [places]; apply parse_tail_value; auto; left; reflexivity).
    all: try (cbn [places avalue]; match goal with |- context [(Z.of_N ?n <=? 0)%Z] => change (Z.of_N n <=? 0)%Z with false end;
      cbv iota; apply parse_tail_value; auto; left; reflexivity).
    change (Z.of_N (places Satoshi) <=? 0)%Z with true. cbv iota. cbn [avalue]. unfold is_too_precise0, sat_value.
    pose proof (before_split 46 t) as BS. pose proof (split_first_some 46 t) as S1. pose proof (split_first_none 46 t) as S2.
    destruct (split_first 46 t) as [[a b]|].
    + destruct (S1 a b eq_refl) as [E NI]. clear S1 S2.
      assert (DOT : In 46 t) by (rewrite E; apply in_app_iff; right; now left).
      assert (ER : forall pos, exists e, match from_str_radix true (i_lo I64t) (i_hi I64t) 10 t with
               | Ok 0%Z => Ret (Ok (neg, 0%Z)) | _ => Ret (Err (TooPrecise (pos + (if neg then 1 else 0)))) end = Ret (Err e)).
      { intro pos. destruct (from_str_radix true (i_lo I64t) (i_hi I64t) 10 t) eqn:R; [|eauto].
        exfalso. eapply radix_nodot; eauto. }
      destruct (N.leb_spec (str_len a) 0) as [LA|LA].
      * assert (a = []) as -> by (destruct a as [|x a]; auto; exfalso; pose proof (str_len_pos (x :: a) ltac:(discriminate)); lia).
        destruct (forallb _ b); cbn [value]; apply ER.
      * destruct (find_idx _ _ b) eqn:F.
        -- assert (forallb (fun c => c =? 48) b = false) as ->.
           { destruct (forallb _ b) eqn:X; auto. exfalso. rewrite forallb_forall in X.
             assert (Y : find_idx (fun d => negb (d =? 48)) (str_len a + 1) b = None).
             { apply find_idx_none. apply Forall_forall. intros x I. specialize (X x I). lia. }
             congruence. }
           apply ER.
        -- assert (forallb (fun c => c =? 48) b = true) as ->.
           { apply forallb_forall. intros x I. apply find_idx_none in F. rewrite Forall_forall in F. specialize (F x I). lia. }
           rewrite BS. apply (parse_tail_value neg 0); [intros ->; cbn in LA; lia|]. now right.
    + pose proof (str_len_pos t NE). destruct (N.leb_spec (str_len t) 0); [lia|]. rewrite BS.
      apply (parse_tail_value neg 0); auto. right. now apply S2.
Qed.
Lemma amount_text_head : forall d s v, amount_text d s v -> isneg s = false.
Proof.
  assert (X : forall p s v, decimal_text p s v -> isneg s = false).
  { intros p s v (_ & U & ip & fp & n & m & E & H1 & H2 & _). destruct s as [|c s]; [reflexivity|]. cbn [isneg].
    destruct (N.eqb_spec c 45) as [->|]; auto. exfalso. unfold without_underscores in E. cbn [filter negb N.eqb Pos.eqb] in E.
    destruct E as [E|[E _]].
    - destruct ip as [|x ip]; [discriminate|]. injection E as <- _. apply digits_cons in H1 as [D _]. discriminate.
    - subst ip. apply digits_cons in H1 as [D _]. discriminate. }
  intros d s v H. destruct d; cbn [amount_text] in H; try (eapply X; eauto; fail).
  destruct H as (ip & z & E & _ & _ & V). pose proof V as (NE & _). apply X in V.
  destruct ip as [|x ip]; [congruence|]. destruct E as [-> | ->]; exact V.
Qed.
Lemma body_pos : forall s, isneg s = false -> body s = s.
Proof. destruct s; cbn [isneg body]; auto. now intros ->. Qed.
Lemma body_neg : forall s, isneg s = true -> s = 45 :: body s.
Proof. destruct s; cbn [isneg body]; [discriminate|]. intros E. rewrite E. f_equal. lia. Qed.
Lemma signed_text_value : forall d s a, signed_text d s a <-> exists v, avalue d (body s) = Some v /\ a = signz (isneg s) v.
Proof.
  intros d s a. split.
  - intros [(v & H & EA)|(t & v & ES & H & EA)]; subst.
    + exists v. pose proof (amount_text_head _ _ _ H) as N1. rewrite body_pos, N1 by auto. split; auto. now apply avalue_spec.
    + exists v. cbn [body isneg]. change (45 =? 45) with true. cbv iota. split; auto. now apply avalue_spec.
  - intros (v & H & ->). apply avalue_spec in H. destruct (isneg s) eqn:E.
    + right. exists (body s), v. split; [now apply body_neg|]. auto.
    + left. exists v. rewrite body_pos in H by auto. auto.
Qed.

Lemma parse_too_large : forall s d, 50 < str_len s -> parse_signed_to_satoshi s d = Ret (Err (InputTooLarge (str_len s))).
Proof.
  intros s d H. unfold parse_signed_to_satoshi, INPUT_STRING_LEN_LIMIT. destruct s; [cbn in H; lia|].
  destruct (N.ltb_spec 50 (str_len (n :: s))); [auto|lia].
Qed.

(** Amount *)
Lemma amount_parse : forall s d, str_len s <= 50 ->
  match avalue d (body s) with
  | Some v => amount_from_str_in s d = Ret
      (if isneg s then Err (PaOutOfRange {| is_signed := false; is_greater_than_max := false |})
       else if v <=? MAXSAT then Ok (Z.of_N v) else Err (PaOutOfRange {| is_signed := false; is_greater_than_max := true |}))
  | None => exists e, amount_from_str_in s d = Ret (Err e)
  end.
Proof.
  intros s d L. pose proof (parse_signed_value s d L) as H. unfold amount_from_str_in.
  destruct (avalue d (body s)) as [v|].
  - rewrite H. destruct (N.leb_spec v MAXSAT); cbn [rbind].
    + destruct (isneg s); [reflexivity|]. cbn [signz]. unfold signed_to_unsigned, amount_from_sat, AMOUNT_MAX, MAXSAT in *.
      destruct (Z.ltb_spec (Z.of_N v) 0); [lia|]. destruct (Z.ltb_spec (21000000 * 100000000) (Z.of_N v)); [lia|]. reflexivity.
    + cbn [convert]. destruct (isneg s); reflexivity.
  - destruct H as [e ->]. cbn [rbind]. eauto.
Qed.
Lemma signed_parse : forall s d, str_len s <= 50 ->
  match avalue d (body s) with
  | Some v => signed_from_str_in s d = Ret
      (if v <=? MAXSAT then Ok (signz (isneg s) v)
       else Err (PaOutOfRange {| is_signed := true; is_greater_than_max := negb (isneg s) |}))
  | None => exists e, signed_from_str_in s d = Ret (Err e)
  end.
Proof.
  intros s d L. pose proof (parse_signed_value s d L) as H. unfold signed_from_str_in.
  destruct (avalue d (body s)) as [v|].
  - rewrite H. destruct (N.leb_spec v MAXSAT); cbn [rbind convert]; reflexivity.
  - destruct H as [e ->]. cbn [rbind]. eauto.
Qed.
Lemma amount_total : forall s d, exists r, amount_from_str_in s d = Ret r.
Proof.
  intros s d. destruct (N.leb_spec (str_len s) 50) as [L|L].
  - pose proof (amount_parse s d L). destruct (avalue d (body s)); [eauto|]. destruct H as [e ->]. eauto.
  - unfold amount_from_str_in. rewrite parse_too_large by auto. cbn [rbind]. eauto.
Qed.
Lemma signed_total : forall s d, exists r, signed_from_str_in s d = Ret r.
Proof.
  intros s d. destruct (N.leb_spec (str_len s) 50) as [L|L].
  - pose proof (signed_parse s d L). destruct (avalue d (body s)); [eauto|]. destruct H as [e ->]. eauto.
  - unfold signed_from_str_in. rewrite parse_too_large by auto. cbn [rbind]. eauto.
Qed.
Lemma amount_parse_iff : forall s d a, amount_from_str_in s d = Ret (Ok a) <->
  str_len s <= 50 /\ exists v, amount_text d s v /\ v <= MAXSAT /\ a = Z.of_N v.
Proof.
  intros s d a. destruct (N.leb_spec (str_len s) 50) as [L|L].
  - pose proof (amount_parse s d L) as H. split.
    + intro E. split; auto. destruct (avalue d (body s)) as [v|] eqn:V.
      * destruct (isneg s) eqn:NG; [congruence|]. exists v. rewrite body_pos in V by auto. apply avalue_spec in V.
        destruct (N.leb_spec v MAXSAT); [|congruence]. repeat split; auto. congruence.
      * destruct H as [e H]. congruence.
    + intros (_ & v & T & M & ->). pose proof (amount_text_head _ _ _ T) as NG. rewrite body_pos, NG in H by auto.
      apply avalue_spec in T. rewrite T in H. destruct (N.leb_spec v MAXSAT); [auto|lia].
  - split; [|lia]. unfold amount_from_str_in. rewrite parse_too_large by auto. cbn [rbind]. discriminate.
Qed.
Lemma signed_parse_iff : forall s d a, signed_from_str_in s d = Ret (Ok a) <->
  str_len s <= 50 /\ signed_text d s a /\ (Z.abs a <= 2100000000000000)%Z.
Proof.
  intros s d a. destruct (N.leb_spec (str_len s) 50) as [L|L].
  - pose proof (signed_parse s d L) as H. rewrite signed_text_value. unfold MAXSAT in *. split.
    + intro E. split; auto. destruct (avalue d (body s)) as [v|] eqn:V.
      * destruct (N.leb_spec v 2100000000000000); [|congruence]. assert (a = signz (isneg s) v) by congruence. subst a.
        split; [eauto|]. unfold signz. destruct (isneg s); lia.
      * destruct H as [e H]. congruence.
    + intros (_ & (v & V & ->) & M). rewrite V in H. destruct (N.leb_spec v 2100000000000000); [auto|].
      exfalso. unfold signz in M. destruct (isneg s); lia.
  - split; [|lia]. unfold signed_from_str_in. rewrite parse_too_large by auto. cbn [rbind]. discriminate.
Qed.

(** * Formatting *)
Lemma dec_width_loop_len : forall f n w, (0 < f)%nat -> n < 2 ^ N.of_nat f ->
  dec_width_loop f n w + 1 = w + lenN (dec_rev f n).
Proof.
  induction f; intros n w P B; [lia|]. cbn [dec_width_loop dec_rev]. rewrite lenN_cons.
  destruct (N.eqb_spec (n / 10) 0) as [Z|NZ]; [rewrite lenN_nil; lia|].
  rewrite Nat2N.inj_succ, N.pow_succ_r' in B.
  assert (0 < f)%nat by (destruct f; [change (2 ^ N.of_nat 0) with 1 in B; lia|lia]).
  assert (B' : n / 10 < 2 ^ N.of_nat f) by (generalize dependent (2 ^ N.of_nat f); intros; lia).
  specialize (IHf (n / 10) (w + 1) H B'). lia.
Qed.
Lemma dec_width_len : forall n, dec_width n = lenN (fmt_u n).
Proof.
  intro n. unfold dec_width, fmt_u.
  assert (B : n < 2 ^ N.of_nat (S (N.to_nat (N.log2 n)))).
  { destruct (N.eq_dec n 0) as [->|NZ]; [reflexivity|]. rewrite Nat2N.inj_succ, N2Nat.id. apply N.log2_spec. lia. }
  pose proof (dec_width_loop_len _ n 1 (Nat.lt_0_succ _) B) as H.
  assert (E : forall l : list N, lenN (rev l) = lenN l) by (intro; unfold lenN; now rewrite rev_length).
  rewrite E. lia.
Qed.
Lemma pow10_pos : forall k, 1 <= 10 ^ k.
Proof. intro. apply N.lt_pred_le, N.neq_0_lt_0, N.pow_nonzero. lia. Qed.
Lemma round_ok : forall a p q, a < 2 ^ 63 -> p <= 8 ->
  exists r, round_satoshi a p q = Ret r /\ rounded p a q r /\ (forall k, q = Some k -> k < p -> exists j, r = j * 10 ^ (p - k)).
Proof.
  intros a p q A P. unfold round_satoshi, rounded. destruct q as [k|]; [|exists a; repeat split; auto; discriminate].
  destruct (N.ltb_spec k p) as [L|L]; [|exists a; repeat split; auto; try lia; intros k' E; injection E as <-; lia].
  set (e := p - k - 1). replace (p - k) with (e + 1) by lia. rewrite pow10_succ.
  assert (E8 : 10 ^ e <= 10 ^ 7) by (apply N.pow_le_mono_r; lia). change (10 ^ 7) with 10000000 in E8.
  pose proof (pow10_pos e) as E1. unfold round_half_up. rewrite pow10_succ. set (E := 10 ^ e) in *.
  pose proof (N.div_mod' a (10 * E)) as DM. pose proof (N.mod_lt a (10 * E) ltac:(lia)) as ML.
  set (R := a mod (10 * E)) in *. set (Q := a / (10 * E)) in *.
  replace (10 * E / 10) with E by (rewrite N.mul_comm, N.div_mul by lia; reflexivity).
  pose proof (N.div_mod' R E) as DM2. pose proof (N.mod_lt R E ltac:(lia)) as ML2.
  set (R2 := R mod E) in *. set (Q2 := R / E) in *. clearbody R Q R2 Q2.
  change (2 ^ 63) with 9223372036854775808 in A.
  replace (10 * E * Q) with (10 * (E * Q)) in DM by ring.
  assert (PQ : forall x, x * (10 * E) = 10 * (E * x)) by (intro; ring).
  destruct (N.leb_spec 5 Q2) as [G|G].
  - assert (G2 : E * 5 <= E * Q2) by (apply N.mul_le_mono_l; auto).
    assert (V : a - R + 10 * E = (Q + 1) * (10 * E)) by (rewrite PQ; replace (E * (Q + 1)) with (E * Q + E) by ring; lia).
    exists (a - R + 10 * E). unfold add64. destruct (N.ltb_spec (a - R + 10 * E) 18446744073709551616); [|lia].
    split; auto. split.
    + split; [|lia]. intros _. exists (Q + 1). split; [exact V|]. split; lia.
    + intros k' EQ _. injection EQ as <-. exists (Q + 1). replace (p - k) with (e + 1) by lia. rewrite pow10_succ. exact V.
  - assert (G2 : E * Q2 <= E * 4) by (apply N.mul_le_mono_l; lia).
    assert (V : a - R = Q * (10 * E)) by (rewrite PQ; lia).
    exists (a - R). split; auto. split.
    + split; [|lia]. intros _. exists Q. split; [exact V|]. split; lia.
    + intros k' EQ _. injection EQ as <-. exists Q. replace (p - k) with (e + 1) by lia. rewrite pow10_succ. exact V.
Qed.
Lemma trim_ok : forall f p n, n <> 0 -> n < 10 ^ p -> (N.to_nat p <= f)%nat ->
  exists norm m, trim_loop f p n = Ret (norm, m) /\ 1 <= norm <= p /\ n = m * 10 ^ (p - norm) /\ m mod 10 <> 0 /\ m < 10 ^ norm.
Proof.
  induction f; intros p n NZ B F.
  - assert (p = 0) as -> by lia. rewrite N.pow_0_r in B. lia.
  - cbn [trim_loop].
    assert (p <> 0) by (intros ->; rewrite N.pow_0_r in B; lia).
    destruct (N.eqb_spec (n mod 10) 0) as [Z|NZ'].
    + destruct (N.eqb_spec p 0); [lia|].
      assert (P10 : 10 ^ p = 10 * 10 ^ (p - 1)) by (rewrite <- pow10_succ; f_equal; lia).
      rewrite P10 in B. set (X := 10 ^ (p - 1)) in *.
      destruct (IHf (p - 1) (n / 10)) as (norm & m & E & L & V & M1 & M2); [lia|fold X; lia|lia|].
      exists norm, m. split; auto. split; [lia|]. split; [|auto].
      replace (p - norm) with (p - 1 - norm + 1) by lia. rewrite pow10_succ. lia.
    + exists p, n. rewrite N.sub_diag, N.pow_0_r. repeat split; auto; lia.
Qed.
Definition norm_ok (after norm : N) : Prop := (after = 0 /\ norm = 0) \/ (after mod 10 <> 0 /\ after < 10 ^ norm /\ 1 <= norm).
Lemma digits_of_ok : forall a d o, a < 2 ^ 63 ->
  exists n after norm r, digits_of a d o = Ret (n, after, norm, unwrap_or (o_precision o) 0 - norm) /\
    rounded (places d) a (o_precision o) r /\ norm_ok after norm /\ norm <= places d /\
    r = n * 10 ^ places d + after * 10 ^ (places d - norm) /\
    (forall k, o_precision o = Some k -> norm <= k).
Proof.
  intros a d o A. unfold digits_of.
  destruct (Z.ltb_spec (precision d) 0) as [L|L].
  - rewrite precision_places, N2Z.id. assert (P8 : places d <= 8) by (destruct d; cbn [places]; lia).
    set (p := places d) in *.
    destruct (round_ok a p (o_precision o) A P8) as (r & E & RO & MU). rewrite E. cbn [rbind].
    pose proof (N.div_mod' r (10 ^ p)) as DM. pose proof (pow10_pos p). pose proof (N.mod_lt r (10 ^ p) ltac:(lia)) as ML.
    destruct (N.eqb_spec (r mod 10 ^ p) 0) as [Z|NZ].
    + cbn [rbind]. exists (r / 10 ^ p), (r mod 10 ^ p), 0, r. repeat split; auto; try lia.
      left; auto.
    + destruct (trim_ok 20 p (r mod 10 ^ p) NZ ML ltac:(lia)) as (norm & m & -> & LN & V & M1 & M2). cbn [rbind].
      exists (r / 10 ^ p), m, norm, r. repeat split; auto; try lia.
      * right. repeat split; auto; lia.
      * intros k EK. destruct (N.le_gt_cases norm k) as [|G]; auto. exfalso.
        destruct (MU k EK ltac:(lia)) as [j J].
        assert (P1 : 10 ^ (p - k) = 10 ^ (norm - k - 1) * 10 * 10 ^ (p - norm)).
        { rewrite <- N.mul_assoc, <- pow10_succ, <- N.pow_add_r. f_equal. lia. }
        assert (P2 : 10 ^ p = 10 ^ k * 10 ^ (norm - k - 1) * 10 * 10 ^ (p - norm)).
        { rewrite <- !N.mul_assoc, <- pow10_succ, <- !N.pow_add_r. f_equal. lia. }
        rewrite V in DM. rewrite DM in J. rewrite P1 in J.
        set (q := r / 10 ^ p) in *. rewrite P2 in J.
        pose proof (pow10_pos (p - norm)). set (X := 10 ^ (p - norm)) in *.
        assert (J2 : (10 ^ k * 10 ^ (norm - k - 1) * 10 * q + m) * X = (j * 10 ^ (norm - k - 1) * 10) * X) by (transitivity (10 ^ k * 10 ^ (norm - k - 1) * 10 * X * q + m * X); [ring|rewrite J; ring]).
        apply N.mul_cancel_r in J2; [|lia].
        set (U := 10 ^ k * 10 ^ (norm - k - 1)) in *. set (W := 10 ^ (norm - k - 1)) in *.
        apply M1. replace (j * W * 10) with (10 * (j * W)) in J2 by ring. replace (U * 10 * q) with (10 * (U * q)) in J2 by ring.
        lia.
  - assert (d = Satoshi) as -> by (destruct d; cbn [precision] in L; try lia; auto).
    exists a, 0, 0, a. rewrite N.sub_0_r. cbn [places]. repeat split; auto; try lia.
    + unfold rounded. destruct (o_precision o); auto. split; [lia|auto].
    + left; auto.
Qed.

Lemma digits_repeat0 : forall k s n, digits_or_empty s n -> digits_or_empty (repeat 48 k ++ s) n.
Proof.
  induction k; intros s n H; cbn [repeat app]; auto. apply digits_cons. split; [reflexivity|].
  exists n. split; auto.
Qed.
Lemma digits_app : forall a b n m, digits_or_empty a n -> digits_or_empty b m -> digits_or_empty (a ++ b) (n * 10 ^ lenN b + m).
Proof.
  intros a b n m A B. apply digits_or_empty_ds in A as (da & FA & ->). apply digits_or_empty_ds in B as (db & FB & ->).
  apply digits_or_empty_ds. exists (da ++ db). split; [now apply Forall2_app|].
  rewrite digits_val_app, (digits_val_acc 10 db (digits_val 10 0 da)). rewrite (Forall2_lenN _ _ _ _ _ FB). reflexivity.
Qed.
Lemma lenN_repeat : forall A (x : A) k, lenN (repeat x k) = N.of_nat k.
Proof. intros. unfold lenN. now rewrite repeat_length. Qed.
Lemma last_app1 : forall A (l : list A) x d, last (l ++ [x]) d = x.
Proof. intros. apply last_last. Qed.
Lemma frac_ok : forall after norm tr, norm_ok after norm ->
  let fp := (if 0 <? norm then fmt_u_width after norm else []) ++ repeat 48 (N.to_nat tr) in
  digits_or_empty fp (after * 10 ^ tr) /\ lenN fp = norm + tr /\ (tr = 0 -> fp = [] \/ last fp 48 <> 48).
Proof.
  intros after norm tr H fp.
  assert (Z : forall k, digits_or_empty (repeat 48 k) 0).
  { intro k. rewrite <- (app_nil_r (repeat 48 k)). apply digits_repeat0, digits_nil. }
  destruct H as [[-> ->]|(M & L & P)].
  - subst fp. change (0 <? 0) with false. cbv iota. cbn [app]. rewrite lenN_repeat, N.mul_0_l.
    repeat split; auto; [lia|]. intros ->. now left.
  - subst fp. destruct (N.ltb_spec 0 norm); [|lia].
    assert (LF : lenN (fmt_u_width after norm) = norm).
    { unfold fmt_u_width. pose proof (fmt_u_len after norm L P). rewrite lenN_app, lenN_repeat. lia. }
    destruct (fmt_u_canonical after) as (NU & _).
    repeat split.
    + replace (after * 10 ^ tr) with (after * 10 ^ lenN (repeat 48 (N.to_nat tr)) + 0).
      * apply digits_app; [|auto]. unfold fmt_u_width. apply digits_repeat0. now right.
      * rewrite lenN_repeat, N2Nat.id. lia.
    + rewrite lenN_app, LF, lenN_repeat. lia.
    + intros ->. right. cbn [N.to_nat repeat]. rewrite app_nil_r. unfold fmt_u_width.
      apply numeral_inv in NU as [(c & -> & D)|(s' & n' & c & dd & -> & E & _ & D)].
      * rewrite last_app1. destruct D as [D ->]. intro X. apply M. replace after with 0 by lia. reflexivity.
      * rewrite app_assoc, last_app1. destruct D as [D ->]. intro X. apply M. lia.
Qed.
Lemma lenN_unit : forall d, lenN (32 :: denom_str d) = str_len (denom_str d) + 1.
Proof. destruct d; reflexivity. Qed.
Lemma denom_len : forall d, str_len (denom_str d) <= 7.
Proof. destruct d; cbn; lia. Qed.
Lemma usz_ok : forall v, v < 2 ^ 64 -> usz v = Ret v.
Proof. intros v H. unfold usz, USIZE. destruct (N.ltb_spec v 18446744073709551616); auto. change (2 ^ 64) with 18446744073709551616 in H. lia. Qed.
Lemma fmt_ok : forall a neg d show o, a < 2 ^ 63 -> unwrap_or (o_precision o) 0 < 2 ^ 63 ->
  exists t out, fmt_satoshi_in a neg d show o = Ret out /\ shown (places d) a (o_precision o) t /\
    padded o (sign_of neg (o_sign_plus o)) t (unit_of show d) out.
Proof.
  intros a neg d show o A Q. unfold fmt_satoshi_in.
  destruct (digits_of_ok a d o A) as (n & after & norm & r & E & RO & NO & LN & V & PK). rewrite E. cbn [rbind]. clear E.
  set (tr := unwrap_or (o_precision o) 0 - norm) in *.
  assert (P8 : places d <= 8) by (destruct d; cbn [places]; lia).
  assert (TB : norm + tr < 2 ^ 63 + 8) by (unfold tr; lia).
  assert (RB : r < 2 ^ 64).
  { unfold rounded in RO. destruct (o_precision o) as [k|]; [|subst r; lia].
    destruct (N.lt_ge_cases k (places d)) as [K|K].
    - destruct RO as [RO _]. destruct (RO K) as (q & _ & R1 & _).
      assert (10 ^ (places d - k) <= 10 ^ 8) by (apply N.pow_le_mono_r; lia). change (10 ^ 8) with 100000000 in *.
      change (2 ^ 63) with 9223372036854775808 in *. change (2 ^ 64) with 18446744073709551616. lia.
    - destruct RO as [_ RO]. rewrite (RO K). lia. }
  assert (NB : n < 10 ^ 20).
  { assert (n <= r) by (pose proof (pow10_pos (places d)); nia). change (10 ^ 20) with 100000000000000000000.
    change (2 ^ 64) with 18446744073709551616 in RB. lia. }
  pose proof (fmt_u_len n 20 NB ltac:(lia)) as LD. rewrite dec_width_len.
  destruct (frac_ok after norm tr NO) as (FD & FL & FZ).
  set (fp := (if 0 <? norm then fmt_u_width after norm else []) ++ repeat 48 (N.to_nat tr)) in *.
  set (t := fmt_u n ++ (match fp with [] => [] | _ => 46 :: fp end)).
  change (2 ^ 63) with 9223372036854775808 in *. pose proof (denom_len d) as DL.
  rewrite usz_ok by (change (2 ^ 64) with 18446744073709551616; lia). cbn [rbind].
  set (td := norm + tr) in *.
  assert (W1 : (if 0 <? td then usz (1 + td) else Ret 0) = Ret (if 0 <? td then 1 + td else 0)).
  { destruct (0 <? td); auto. apply usz_ok. change (2 ^ 64) with 18446744073709551616; lia. }
  rewrite W1. cbn [rbind]. clear W1.
  assert (TE : t = fmt_u n ++ (if 0 <? td then [46] else []) ++ fp).
  { unfold t. f_equal. destruct (N.ltb_spec 0 td).
    - destruct fp; [rewrite lenN_nil in FL; lia|reflexivity].
    - destruct fp; [reflexivity|rewrite lenN_cons in FL; lia]. }
  assert (TL : lenN t = (if 0 <? td then 1 + td else 0) + lenN (fmt_u n)).
  { rewrite TE, !lenN_app, FL. destruct (0 <? td) eqn:X; [change (lenN [46]) with 1|rewrite lenN_nil]; lia. }
  rewrite <- TL. assert (TL2 : lenN t < 2 ^ 63 + 30).
  { rewrite TL. change (2 ^ 63) with 9223372036854775808. destruct (0 <? td); lia. }
  change (2 ^ 63) with 9223372036854775808 in TL2.
  rewrite usz_ok by (change (2 ^ 64) with 18446744073709551616; lia). cbn [rbind].
  set (sg := sign_of neg (o_sign_plus o)). set (un := unit_of show d).
  assert (W2 : (if o_sign_plus o || neg then usz (lenN t + 1) else Ret (lenN t)) = Ret (lenN t + lenN sg)).
  { unfold sg, sign_of. destruct (o_sign_plus o), neg; cbn [orb]; rewrite ?usz_ok by (change (2 ^ 64) with 18446744073709551616; lia);
    rewrite ?lenN_nil, ?N.add_0_r; reflexivity. }
  rewrite W2. cbn [rbind]. clear W2.
  assert (SL : lenN sg <= 1) by (unfold sg, sign_of; destruct neg, (o_sign_plus o); cbn; lia).
  assert (W3 : (if show then usz (lenN t + lenN sg + (str_len (denom_str d) + 1)) else Ret (lenN t + lenN sg)) =
    Ret (lenN (sg ++ t ++ un))).
  { unfold un, unit_of. rewrite !lenN_app. destruct show.
    - rewrite usz_ok by (change (2 ^ 64) with 18446744073709551616; lia). rewrite lenN_unit. f_equal. lia.
    - rewrite lenN_nil. f_equal. lia. }
  rewrite W3. cbn [rbind]. clear W3.
  set (nw := lenN (sg ++ t ++ un)).
  set (pads := if nw <? unwrap_or (o_width o) 0 then _ else (0, 0)).
  assert (SH : shown (places d) a (o_precision o) t).
  { exists r, (fmt_u n), n, fp, (after * 10 ^ tr). split; auto. split; [apply fmt_u_canonical|]. split; auto. split; auto.
    split.
    - rewrite FL, V. unfold td. rewrite !N.mul_add_distr_r. f_equal.
      + ring.
      + rewrite <- !N.mul_assoc. f_equal. rewrite <- !N.pow_add_r. f_equal. lia.
    - destruct (o_precision o) as [k|] eqn:EK; [|apply FZ; unfold tr; cbn [unwrap_or]; lia].
      rewrite FL. unfold td, tr. cbn [unwrap_or]. specialize (PK k eq_refl). lia. }
  exists t. destruct pads as [lp pr] eqn:EP. eexists. split; [reflexivity|]. split; auto.
  unfold padded. fold nw. unfold times.
  replace (if neg then [45] else if o_sign_plus o then [43] else []) with sg by reflexivity.
  replace (if show then 32 :: denom_str d else []) with un by reflexivity.
  unfold pads in EP. set (w := unwrap_or (o_width o) 0) in *.
  assert (REA : forall x y z1 : str, x ++ y ++ (if 0 <? td then [46] else []) ++ (if 0 <? norm then fmt_u_width after norm else []) ++ repeat 48 (N.to_nat tr) ++ z1 = x ++ (y ++ (if 0 <? td then [46] else []) ++ fp) ++ z1).
  { intros. unfold fp. now rewrite <- !app_assoc. }
  destruct (N.ltb_spec nw w) as [LW|LW].
  - destruct (o_zero_pad o).
    + injection EP as <- <-. cbn [N.to_nat repeat]. cbn [app]. rewrite app_nil_r.
      rewrite REA, <- TE. reflexivity.
    + cbn [app]. rewrite REA, <- TE. 
      destruct (o_align o) as [[]|]; injection EP as <- <-; cbn [N.to_nat repeat app];
        rewrite ?N.sub_0_r, ?N.sub_diag; cbn [N.to_nat repeat app]; rewrite ?app_nil_r, <- ?app_assoc; auto.
      replace (w - nw - (w - nw) / 2) with ((w - nw + 1) / 2) by lia. reflexivity.
  - replace (w - nw) with 0 by lia. injection EP as <- <-. cbn [N.to_nat repeat].
    destruct (o_zero_pad o).
    + cbn [app]. rewrite REA, <- TE. now rewrite app_nil_r.
    + cbn [app]. rewrite REA, <- TE. destruct (o_align o) as [[]|]; cbn [N.to_nat repeat app]; change (0 / 2) with 0; cbn [N.sub N.to_nat repeat app]; rewrite ?app_nil_r, <- ?app_assoc; auto.
Qed.

(** * Round trips *)
Lemma shown_frac : forall p a fp n m, a * 10 ^ lenN fp = (n * 10 ^ lenN fp + m) * 10 ^ p -> digits_or_empty fp m ->
  (fp = [] \/ last fp 48 <> 48) -> lenN fp <= p.
Proof.
  intros p a fp n m E D [->|L]; [rewrite lenN_nil; lia|].
  destruct (N.le_gt_cases (lenN fp) p) as [|G]; auto. exfalso.
  destruct D as [[-> _]|D]; [now cbn in L|].
  assert (M : m mod 10 <> 0).
  { apply numeral_inv in D as [(c & -> & D)|(s' & n' & c & dd & -> & E2 & _ & D)].
    - cbn [last] in L. destruct D. lia.
    - rewrite last_app1 in L. destruct D. lia. }
  assert (P1 : 10 ^ lenN fp = 10 * 10 ^ (lenN fp - p - 1) * 10 ^ p).
  { rewrite <- pow10_succ, <- N.pow_add_r. f_equal. lia. }
  pose proof (pow10_pos p). rewrite P1 in E.
  assert (E2 : (10 * (a * 10 ^ (lenN fp - p - 1))) * 10 ^ p = (10 * (n * 10 ^ (lenN fp - p - 1) * 10 ^ p) + m) * 10 ^ p).
  { transitivity (a * (10 * 10 ^ (lenN fp - p - 1) * 10 ^ p)); [ring|]. rewrite E. ring. }
  apply N.mul_cancel_r in E2; [|lia]. lia.
Qed.
Lemma no_underscore : forall s, ~ In 95 s -> underscores_ok s /\ without_underscores s = s.
Proof.
  intros s H. split; [split|].
  - destruct s; cbn [hd]; [lia|]. intros ->. apply H. now left.
  - intros (a & b & ->). apply H. apply in_app_iff. right. now left.
  - unfold without_underscores. induction s as [|c s IH]; auto. cbn [filter].
    destruct (N.eqb_spec c 95); [exfalso; apply H; now left|]. cbn [negb]. f_equal. apply IH. intro. apply H. now right.
Qed.
Lemma shown_text : forall d a t, a < 2 ^ 63 -> shown (places d) a None t ->
  amount_text d t a /\ str_len t <= 40 /\ ~ In 32 t /\ t <> [].
Proof.
  intros d a t A (r & ip & n & fp & m & RO & C & D & -> & E & L). cbn [rounded] in RO. subst r.
  pose proof (shown_frac _ _ _ _ _ E D L) as LF.
  assert (V : a = n * 10 ^ places d + m * 10 ^ (places d - lenN fp)).
  { pose proof (pow10_pos (lenN fp)). apply N.mul_cancel_r with (p := 10 ^ lenN fp); [lia|]. rewrite E.
    rewrite !N.mul_add_distr_r. f_equal; [ring|]. rewrite <- N.mul_assoc, <- N.pow_add_r. f_equal. f_equal. lia. }
  destruct C as (NU & CZ & CN).
  assert (DI : digits_or_empty ip n) by now right.
  assert (NE : ip <> []) by now apply numeral_nonempty in NU.
  set (t := ip ++ (match fp with [] => [] | _ => 46 :: fp end)).
  assert (IN : forall c, In c t -> isdig c = true \/ c = 46).
  { intros c I. unfold t in I. apply in_app_iff in I as [I|I]; [left; eapply digits_nodot; eauto|].
    destruct fp as [|x fp]; [destruct I|]. destruct I as [<-|I]; [auto|left; exact (digits_nodot _ _ _ D I)]. }
  assert (N95 : ~ In 95 t) by (intro I; apply IN in I as [I|I]; discriminate).
  assert (N32 : ~ In 32 t) by (intro I; apply IN in I as [I|I]; discriminate).
  assert (NT : t <> []) by (unfold t; destruct ip; [congruence|discriminate]).
  assert (P8 : places d <= 8) by (destruct d; cbn [places]; lia).
  split.
  - assert (DT : decimal_text (places d) t a).
    { destruct (no_underscore t N95) as [U W]. split; auto. split; auto. rewrite W. exists ip, fp, n, m.
      split; [|auto]. unfold t. destruct fp; [right; split; auto; now rewrite app_nil_r|left; auto]. }
    destruct d; try exact DT. cbn [amount_text places] in *. exists t, []. split; [now left|].
    assert (fp = []) by (destruct fp; auto; rewrite lenN_cons in LF; lia). subst fp.
    split; [|auto]. unfold t. rewrite app_nil_r. intro I. apply (digits_nodot _ _ _ DI) in I. discriminate.
  - split; [|auto]. rewrite ascii_len.
    + assert (n < 10 ^ 20).
      { change (10 ^ 20) with 100000000000000000000. change (2 ^ 63) with 9223372036854775808 in A.
        pose proof (pow10_pos (places d)). nia. }
      assert (ip = fmt_u n) by (apply fmt_u_unique; repeat split; auto). subst ip.
      pose proof (fmt_u_len n 20 H ltac:(lia)). unfold t. rewrite lenN_app. destruct fp; [rewrite lenN_nil; lia|].
      rewrite lenN_cons. lia.
    + apply forallb_forall. intros c I. destruct (IN c I) as [X| ->]; [unfold isdig in X; lia|reflexivity].
Qed.
Lemma fmt_plain : forall a neg d show, a < 2 ^ 63 -> exists t,
  fmt_satoshi_in a neg d show default_options = Ret ((if neg then [45] else []) ++ t ++ unit_of show d) /\
  amount_text d t a /\ str_len t <= 40 /\ ~ In 32 t /\ t <> [].
Proof.
  intros a neg d show A. destruct (fmt_ok a neg d show default_options A) as (t & out & E & SH & PD).
  { cbn [default_options o_precision unwrap_or]. reflexivity. }
  cbn [default_options o_precision o_sign_plus] in *. apply shown_text in SH; auto. exists t. split; auto.
  rewrite E. f_equal. unfold padded, default_options, unwrap_or, o_zero_pad, o_width, o_align, o_fill, sign_of in PD.
  rewrite N.sub_0_l, N.sub_diag in PD. unfold times in PD. cbn [N.to_nat repeat app] in PD. rewrite app_nil_r in PD.
  rewrite PD. destruct neg; reflexivity.
Qed.
Lemma str_len_cons : forall c s, str_len (c :: s) = char_len c + str_len s.
Proof. reflexivity. Qed.
Lemma abs_range : forall a, (Z.abs a <= 2100000000000000)%Z -> signed_unsigned_abs a = Ret (Z.abs a).
Proof.
  intros a H. unfold signed_unsigned_abs, signed_abs, I64_MIN, signed_from_sat, SIGNED_MIN, AMOUNT_MAX.
  destruct (Z.eqb_spec a (-9223372036854775808)); [lia|].
  destruct (Z.ltb_spec (Z.abs a) (-21000000 * 100000000)); [lia|].
  destruct (Z.ltb_spec (21000000 * 100000000) (Z.abs a)); [lia|]. cbn [rbind].
  unfold signed_to_unsigned, amount_from_sat, AMOUNT_MAX.
  destruct (Z.ltb_spec (Z.abs a) 0); [lia|].
  destruct (Z.ltb_spec (21000000 * 100000000) (Z.abs a)); [lia|]. reflexivity.
Qed.
Lemma denom_self : forall d, denom_from_str (denom_str d) = Ok d.
Proof. destruct d; reflexivity. Qed.
Lemma split_den : forall alpha t d, ~ In 32 t ->
  split_amount_and_denomination alpha (t ++ 32 :: denom_str d) = Ok (t, d).
Proof. intros alpha t d H. unfold split_amount_and_denomination. rewrite split_first_app by auto. now rewrite denom_self. Qed.
Lemma from_str_den : forall alpha f t d a, ~ In 32 t -> f t d = Ret (Ok a) ->
  with_denomination alpha f (t ++ 32 :: denom_str d) = Ret (Ok a) /\ from_str_gen alpha f (t ++ 32 :: denom_str d) = Ret (Ok a).
Proof.
  intros alpha f t d a H E.
  assert (X : with_denomination alpha f (t ++ 32 :: denom_str d) = Ret (Ok a)).
  { unfold with_denomination. rewrite split_den by auto. rewrite E. reflexivity. }
  split; auto. unfold from_str_gen. rewrite X. reflexivity.
Qed.

(** the text printed for an amount, sign included, and what parsing it gives *)
Lemma amount_fmt : forall a d show, (0 <= a <= 2100000000000000)%Z -> exists t,
  display_fmt {| d_abs := Z.to_N a; d_negative := false; d_style := Fixed d show |} default_options = Ret (t ++ unit_of show d) /\
  amount_from_str_in t d = Ret (Ok a) /\ ~ In 32 t.
Proof.
  intros a d show R. destruct (fmt_plain (Z.to_N a) false d show) as (t & E & T & L & N32 & NE).
  { change (2 ^ 63) with 9223372036854775808. lia. }
  exists t. split; [exact E|]. split; auto. apply amount_parse_iff. split; [lia|]. exists (Z.to_N a). unfold MAXSAT.
  repeat split; auto; lia.
Qed.
Lemma signed_fmt : forall a d show, (Z.abs a <= 2100000000000000)%Z -> exists t,
  display_fmt {| d_abs := Z.to_N (Z.abs a); d_negative := (a <? 0)%Z; d_style := Fixed d show |} default_options = Ret (t ++ unit_of show d) /\
  signed_from_str_in t d = Ret (Ok a) /\ ~ In 32 t.
Proof.
  intros a d show R. destruct (fmt_plain (Z.to_N (Z.abs a)) (a <? 0)%Z d show) as (t & E & T & L & N32 & NE).
  { change (2 ^ 63) with 9223372036854775808. lia. }
  exists ((if (a <? 0)%Z then [45] else []) ++ t). split; [rewrite <- app_assoc; exact E|]. split.
  - apply signed_parse_iff. split.
    + destruct (a <? 0)%Z; cbn [app]; [rewrite str_len_cons; change (char_len 45) with 1|]; lia.
    + split; auto. destruct (Z.ltb_spec a 0); [right|left].
      * exists t, (Z.to_N (Z.abs a)). repeat split; auto. lia.
      * exists (Z.to_N (Z.abs a)). split; [exact T|]. lia.
  - intro I. apply in_app_iff in I as [I|I]; auto. destruct (a <? 0)%Z; [destruct I as [I|[]]; discriminate|destruct I].
Qed.

(** denominations *)
Lemma str_eqb_eq : forall a b, str_eqb a b = true <-> a = b.
Proof.
  induction a as [|x a IH]; destruct b as [|y b]; cbn [str_eqb]; split; try discriminate; auto.
  - intro H. apply andb_true_iff in H as [A B]. apply N.eqb_eq in A. apply IH in B. congruence.
  - intro H. injection H as -> ->. rewrite N.eqb_refl. cbn. now apply IH.
Qed.
Lemma confusing_spec : forall u, existsb (str_eqb u) CONFUSING_FORMS = true <-> confusing u.
Proof.
  intro u. rewrite existsb_exists. unfold confusing, CONFUSING_FORMS. split.
  - intros (x & I & E). apply str_eqb_eq in E. subst x. cbn [In] in I.
    destruct I as [<-|[<-|[<-|[<-|[<-|[<-|[]]]]]]]; eexists; eexists; (split; [reflexivity|]); cbn [In]; cbn; auto 10.
  - intros (c & b & -> & Ic & Ib). exists (c :: b). split; [|now apply str_eqb_eq].
    cbn [In] in Ic, Ib. destruct Ic as [<-|[<-|[<-|[]]]], Ib as [<-|[<-|[]]]; cbn; auto 10.
Qed.
Lemma forms_spec : forall u d, forms u = Some d <-> denom_name d u.
Proof.
  intros u d. unfold forms. split.
  - destruct (find _ _) as [[x d']|] eqn:F; [|discriminate]. intro E. injection E as ->.
    apply find_some in F as [I E]. cbn [fst] in E. apply str_eqb_eq in E. subst x.
    unfold forms_table in I. cbn [In] in I.
    repeat (destruct I as [I|I]; [injection I as <- <-; cbn [denom_name In]; auto 12|]). destruct I.
  - intro H. destruct d; cbn [denom_name In] in H; repeat (destruct H as [<-|H]; [reflexivity|]); destruct H.
Qed.
Lemma name_not_confusing : forall u d, denom_name d u -> existsb (str_eqb u) CONFUSING_FORMS = false.
Proof. intros u d H. destruct d; cbn [denom_name In] in H; repeat (destruct H as [<-|H]; [reflexivity|]); destruct H. Qed.
Lemma denom_ok : forall u d, denom_from_str u = Ok d <-> denom_name d u.
Proof.
  intros u d. unfold denom_from_str. split.
  - destruct (existsb _ _); [discriminate|]. destruct (forms u) eqn:F; [|discriminate]. intro E. injection E as ->. now apply forms_spec.
  - intro H. rewrite (name_not_confusing u d H). apply forms_spec in H. now rewrite H.
Qed.
Lemma denom_err_ok : forall u e, denom_from_str u = Err e <->
  (forall d, ~ denom_name d u) /\ ((confusing u /\ e = PossiblyConfusing u) \/ (~ confusing u /\ e = UnknownDenom u)).
Proof.
  intros u e. rewrite <- confusing_spec.
  assert (X : (forall d, ~ denom_name d u) <-> forms u = None).
  { split.
    - intro H. destruct (forms u) eqn:F; auto. apply forms_spec in F. now apply H in F.
    - intros F d H. apply forms_spec in H. congruence. }
  unfold denom_from_str. destruct (existsb _ _) eqn:C.
  - split.
    + intro E. injection E as <-. split; [|left; auto]. intros d H. apply name_not_confusing in H. congruence.
    + intros (_ & [[_ ->]|[H _]]); congruence.
  - rewrite X. destruct (forms u); split; try discriminate.
    + intros [? _]. discriminate.
    + intro E. injection E as <-. split; auto.
    + intros (_ & [[H _]|[_ ->]]); congruence.
Qed.

(** splitting *)
Lemma split_alpha_some : forall alpha s t u, split_alpha alpha s = Some (t, u) <->
  s = t ++ u /\ (forall c, In c t -> alpha c = false) /\ exists c u', u = c :: u' /\ alpha c = true.
Proof.
  induction s as [|c s IH]; intros t u; cbn [split_alpha].
  - split; [discriminate|]. intros (E & _ & c & u' & -> & _). destruct t; discriminate.
  - destruct (alpha c) eqn:A.
    + split.
      * intro E. injection E as <- <-. split; auto. split; [intros ? []|eauto].
      * intros (E & H & c' & u' & -> & A'). destruct t as [|x t]; [now rewrite E|].
        injection E as <- _. specialize (H c (or_introl eq_refl)). congruence.
    + destruct (split_alpha alpha s) as [[a b]|] eqn:SP.
      * split.
        -- intro E. injection E as <- <-. destruct (proj1 (IH a b) eq_refl) as (-> & H & X). split; auto. split; auto.
           intros x [<-|I]; auto.
        -- intros (E & H & X). destruct t as [|x t]; [destruct X as (c' & u' & -> & A'); injection E as <- _; congruence|].
           injection E as <- E. assert (Y : Some (a, b) = Some (t, u)) by (apply IH; split; auto; split; auto; intros; apply H; now right).
           injection Y as -> ->. reflexivity.
      * split; [discriminate|]. intros (E & H & X). destruct t as [|x t]; [destruct X as (c' & u' & -> & A'); injection E as <- _; congruence|].
        injection E as <- E. assert (Y : None = Some (t, u)) by (apply IH; split; auto; split; auto; intros; apply H; now right). discriminate.
Qed.
Lemma split_text_ok : forall alpha s t u, split_text alpha s t u <->
  match split_first 32 s with Some p => Some p | None => split_alpha alpha s end = Some (t, u).
Proof.
  intros alpha s t u. unfold split_text. destruct (split_first 32 s) as [[a b]|] eqn:SF.
  - pose proof SF as SF0. apply split_first_some in SF as [E NI]. split.
    + intros [[E' NI']|(NI' & _)].
      * rewrite E' in SF0. rewrite split_first_app in SF0 by auto. congruence.
      * exfalso. apply NI'. rewrite E. apply in_app_iff. right. now left.
    + intro X. injection X as <- <-. left; auto.
  - apply split_first_none in SF. rewrite split_alpha_some. split.
    + intros [[-> _]|(_ & H)]; auto. exfalso. apply SF. apply in_app_iff. right. now left.
    + intro H. right. auto.
Qed.
Lemma with_den_ok : forall alpha f s a, with_denomination alpha f s = Ret (Ok a) <->
  exists t u d, split_text alpha s t u /\ denom_name d u /\ f t d = Ret (Ok a).
Proof.
  intros alpha f s a. unfold with_denomination, split_amount_and_denomination. split.
  - destruct (match split_first 32 s with Some p => Some p | None => split_alpha alpha s end) as [[t u]|] eqn:SP; [|discriminate].
    destruct (denom_from_str u) as [d|] eqn:D; [|discriminate]. destruct (f t d) as [[x|]|] eqn:F; cbn [rbind]; try discriminate.
    intro E. exists t, u, d. split; [now apply split_text_ok|]. split; [now apply denom_ok|]. congruence.
  - intros (t & u & d & SP & D & F). apply split_text_ok in SP. rewrite SP. apply denom_ok in D. rewrite D, F. reflexivity.
Qed.
Lemma from_str_ok : forall alpha f s a, (forall t d, exists r, f t d = Ret r) ->
  (from_str_gen alpha f s = Ret (Ok a) <->
   (exists t u d, split_text alpha s t u /\ denom_name d u /\ f t d = Ret (Ok a)) \/
   ((forall t u, ~ split_text alpha s t u) /\ a = 0%Z /\ f s Satoshi = Ret (Ok 0%Z))).
Proof.
  intros alpha f s a TOT. rewrite <- with_den_ok.
  assert (MD : forall r, with_denomination alpha f s = Ret r -> (r = Err PMissingDenomination <-> forall t u, ~ split_text alpha s t u)).
  { intros r W. unfold with_denomination, split_amount_and_denomination in W.
    destruct (match split_first 32 s with Some p => Some p | None => split_alpha alpha s end) as [[t u]|] eqn:SP.
    - split; [|intro H; apply split_text_ok in SP; now apply H in SP].
      intros ->. exfalso. destruct (denom_from_str u); [|discriminate]. destruct (f t a0) as [[]|]; discriminate.
    - split; [|congruence]. intros _ t u H. apply split_text_ok in H. congruence. }
  assert (WT : exists r, with_denomination alpha f s = Ret r).
  { unfold with_denomination. destruct (split_amount_and_denomination alpha s) as [[t d]|]; [|eauto].
    destruct (TOT t d) as [r ->]. cbn [rbind]. eauto. }
  destruct WT as [r W]. specialize (MD r W). unfold from_str_gen. rewrite W. cbn [rbind].
  assert (ND : forall e, e <> PMissingDenomination -> r = Err e -> ~ forall t u, ~ split_text alpha s t u) by (intros e NE -> H; apply MD in H; congruence).
  destruct r as [x|e].
  - split; [auto|]. intros [H|(H & _)]; auto. apply MD in H. discriminate.
  - destruct e as [e|e|].
    + split; [discriminate|]. intros [H|(H & _)]; [discriminate|]. apply MD in H. discriminate.
    + split; [discriminate|]. intros [H|(H & _)]; [discriminate|]. apply MD in H. discriminate.
    + destruct (TOT s Satoshi) as [q F]. rewrite F. cbn [rbind]. split.
      * destruct q as [z|]; [|discriminate]. destruct z; try discriminate. intro E. right. split; [now apply MD|].
        split; [congruence|reflexivity].
      * intros [H|(H & -> & E)]; [discriminate|]. injection E as ->. reflexivity.
Qed.
