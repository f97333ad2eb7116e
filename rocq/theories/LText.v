(** Lemmas on text. *)
From Verif Require Import Base MWitness MAmount MTx MLock MText SText.
Local Open Scope N_scope.

Definition digits_val (r : N) (acc : N) (ds : list N) : N := fold_left (fun a d => a * r + d) ds acc.

Lemma digits_val_mono : forall r ds acc, 1 <= r -> acc <= digits_val r acc ds.
Proof.
  induction ds; intros acc H; cbn; [lia|]. specialize (IHds (acc * r + a) H). unfold digits_val in IHds. nia.
Qed.

Lemma digits_pos_ok : forall r hi s acc n, 1 <= r -> acc <= hi ->
  (digits_pos r hi s acc = Ok n <->
   exists ds, Forall2 (fun c d => to_digit r c = Some d) s ds /\ n = digits_val r acc ds /\ n <= hi).
Proof.
  induction s as [|c s IH]; intros acc n Hr Ha; cbn [digits_pos].
  - split; intro H.
    + inv H. exists []. cbn. repeat split; auto.
    + destruct H as (ds & H & E & _). inv H. reflexivity.
  - destruct (to_digit r c) as [d|] eqn:D.
    + destruct (N.ltb_spec hi (acc * r)) as [B|B]; [|destruct (N.ltb_spec hi (acc * r + d)) as [B2|B2]].
      * split; [discriminate|]. intros (ds & H & E & L). inv H. rewrite D in H2. inv H2.
        cbn in L. pose proof (digits_val_mono r l' (acc * r + y) Hr). unfold digits_val in H. lia.
      * split; [discriminate|]. intros (ds & H & E & L). inv H. rewrite D in H2. inv H2.
        cbn in L. pose proof (digits_val_mono r l' (acc * r + y) Hr). unfold digits_val in H. lia.
      * rewrite (IH _ n Hr B2). split.
        -- intros (ds & H & E & L). exists (d :: ds). repeat split; auto.
        -- intros (ds & H & E & L). inv H. rewrite D in H2. inv H2. exists l'. repeat split; auto.
    + split; [discriminate|]. intros (ds & H & E & L). inv H. congruence.
Qed.
Lemma digits_pos_err : forall r hi s acc e, 1 <= r -> acc <= hi -> digits_pos r hi s acc = Err e ->
  (e = IInvalidDigit /\ exists c, In c s /\ to_digit r c = None) \/
  (e = IPosOverflow /\ exists p q ds, s = p ++ q /\ Forall2 (fun c d => to_digit r c = Some d) p ds /\
     hi < digits_val r acc ds).
Proof.
  induction s as [|c s IH]; intros acc e Hr Ha; cbn [digits_pos]; [discriminate|].
  destruct (to_digit r c) as [d|] eqn:D.
  - destruct (N.ltb_spec hi (acc * r)) as [B|B]; [|destruct (N.ltb_spec hi (acc * r + d)) as [B2|B2]].
    + intro H; inv H. right. split; auto. exists [c], s, [d]. repeat split; auto. cbn. lia.
    + intro H; inv H. right. split; auto. exists [c], s, [d]. repeat split; auto.
    + intro H. destruct (IH _ _ Hr B2 H) as [(E & x & I & X)|(E & p & q & ds & S1 & F & L)].
      * left. split; auto. exists x. split; auto. now right.
      * right. split; auto. exists (c :: p), q, (d :: ds). subst s. repeat split; auto.
  - intro H; inv H. left. split; auto. exists c. split; auto. now left.
Qed.
Lemma digits_neg_pos : forall r lo s acc,
  digits_neg r lo s acc = match digits_pos r lo s acc with
    | Ok n => Ok n | Err IPosOverflow => Err INegOverflow | Err e => Err e end.
Proof.
  induction s as [|c s IH]; intros acc; cbn [digits_neg digits_pos]; auto.
  destruct (to_digit r c); auto.
  destruct (lo <? acc * r); auto. destruct (lo <? acc * r + n); auto.
Qed.

Lemma to_digit10 : forall c d, to_digit 10 c = Some d <-> digit10 c d.
Proof.
  intros. unfold to_digit, digit10.
  destruct (N.leb_spec 48 c), (N.leb_spec c 57); cbn [andb];
  destruct (N.leb_spec 97 c), (N.leb_spec c 122); cbn [andb];
  destruct (N.leb_spec 65 c), (N.leb_spec c 90); cbn [andb]; cbv iota;
  repeat match goal with |- context [if ?x then _ else _] => destruct x eqn:? end;
  split; intro X; try (inv X; lia); try discriminate; try (f_equal; lia); exfalso; lia.
Qed.
Lemma to_digit16 : forall c d, to_digit 16 c = Some d <-> digit16 c d.
Proof.
  intros. unfold to_digit, digit16, digit10.
  destruct (N.leb_spec 48 c), (N.leb_spec c 57); cbn [andb];
  destruct (N.leb_spec 97 c), (N.leb_spec c 122); cbn [andb];
  destruct (N.leb_spec 65 c), (N.leb_spec c 90); cbn [andb]; cbv iota;
  repeat match goal with |- context [if ?x then _ else _] => destruct x eqn:? end;
  split; intro X; try (inv X; lia); try discriminate; try (f_equal; lia); exfalso; lia.
Qed.

Lemma Forall2_snoc_inv : forall A B (R : A -> B -> Prop) l x l2, Forall2 R (l ++ [x]) l2 ->
  exists l2' y, l2 = l2' ++ [y] /\ Forall2 R l l2' /\ R x y.
Proof.
  intros A B R l x l2 H. apply Forall2_app_inv_l in H as (a & b & Ha & Hb & ->).
  inv Hb. inv H3. eauto.
Qed.
Lemma numeral_digits : forall digit r s n,
  numeral digit r s n <-> s <> [] /\ exists ds, Forall2 digit s ds /\ n = digits_val r 0 ds.
Proof.
  intros digit r s n. split.
  - induction 1 as [c d H|s n c d H IH Hd].
    + split; [discriminate|]. exists [d]. repeat constructor; auto.
    + split; [intro X; now apply app_eq_nil in X|]. destruct IH as (_ & ds & F & E).
      exists (ds ++ [d]). split; [apply Forall2_app; auto|].
      unfold digits_val in *. rewrite fold_left_app. cbn. rewrite <- E. lia.
  - revert n. induction s as [|c s IH] using rev_ind; intros n (NE & ds & F & E); [congruence|].
    apply Forall2_snoc_inv in F as (ds' & d & -> & F & Hd).
    unfold digits_val in E. rewrite fold_left_app in E. cbn in E.
    destruct s as [|x s].
    + inv F. cbn. constructor. exact Hd.
    + rewrite E. replace (_ * r + d) with (r * (fold_left (fun a d0 => a * r + d0) ds' 0) + d) by lia.
      constructor; auto. apply IH. split; [discriminate|]. exists ds'. auto.
Qed.

Lemma Forall2_impl2 : forall A B (R R' : A -> B -> Prop) l m, (forall a b, R a b -> R' a b) -> Forall2 R l m -> Forall2 R' l m.
Proof. induction 2; constructor; auto. Qed.

(** decimal or hex, with [radix] 10 or 16 *)
Definition good (r : N) (digit : N -> N -> Prop) := 1 <= r /\ (forall c d, to_digit r c = Some d <-> digit c d) /\
  (forall d, ~ digit 43 d) /\ (forall d, ~ digit 45 d).
Lemma good10 : good 10 digit10.
Proof. split; [lia|]. split; [apply to_digit10|]. unfold digit10. split; intros; lia. Qed.
Lemma good16 : good 16 digit16.
Proof. split; [lia|]. split; [apply to_digit16|]. unfold digit16, digit10. split; intros; lia. Qed.

Lemma pos_numeral : forall r digit hi s n, good r digit -> s <> [] ->
  (digits_pos r hi s 0 = Ok n <-> numeral digit r s n /\ n <= hi).
Proof.
  intros r digit hi s n (Hr & G & _) NE. rewrite digits_pos_ok by lia. rewrite numeral_digits. split.
  - intros (ds & F & E & L). repeat split; auto. exists ds. split; auto.
    eapply Forall2_impl2; [|exact F]. intros; now apply G.
  - intros ((_ & ds & F & E) & L). exists ds. repeat split; auto.
    eapply Forall2_impl2; [|exact F]. intros; now apply G.
Qed.

Lemma numeral_head : forall r digit c s n, numeral digit r (c :: s) n -> exists d, digit c d.
Proof. intros r digit c s n H. apply numeral_digits in H as (_ & ds & F & _). inv F. eauto. Qed.
Lemma numeral_nonempty : forall r digit s n, numeral digit r s n -> s <> [].
Proof. intros. apply numeral_digits in H. tauto. Qed.

Ltac it_inv G43 G45 :=
  match goal with H : int_text _ _ _ _ _ |- _ => inv H end;
  try match goal with
  | X : numeral _ _ [] _ |- _ => exfalso; apply numeral_nonempty in X; congruence
  | X : numeral _ _ (43 :: _) _ |- _ => exfalso; apply numeral_head in X as [? X]; eapply G43; exact X
  | X : numeral _ _ (45 :: _) _ |- _ => exfalso; apply numeral_head in X as [? X]; eapply G45; exact X
  | X : false = true |- _ => discriminate X
  end; try congruence.

Lemma radix_law : forall r digit signed lo hi s z, good r digit ->
  (from_str_radix signed lo hi r s = Ok z <->
   int_text digit r signed s z /\ (- Z.of_N lo <= z <= Z.of_N hi)%Z
   \/ int_text digit r signed s z /\ (0 <= z <= Z.of_N hi)%Z).
Proof.
  intros r digit signed lo hi s z G. pose proof G as (Hr & GD & G43 & G45).
  assert (PN : forall t, t <> [] -> forall z,
     (match digits_pos r hi t 0 with Ok n => Ok (Z.of_N n) | Err e => Err e end = Ok z <->
      exists n, z = Z.of_N n /\ numeral digit r t n /\ n <= hi)).
  { intros t NE z'. destruct (digits_pos r hi t 0) as [n|e] eqn:E.
    - split.
      + intro H; inv H. apply (pos_numeral r digit hi t n G NE) in E as [N1 L1]. eauto.
      + intros (m & -> & N2 & L2).
        assert (digits_pos r hi t 0 = Ok m) by (apply (pos_numeral r digit); auto). congruence.
    - split; [discriminate|]. intros (m & -> & N2 & L2).
      assert (digits_pos r hi t 0 = Ok m) by (apply (pos_numeral r digit); auto). congruence. }
  unfold from_str_radix. destruct s as [|c t].
  - split; [discriminate|]. intros [[H _]|[H _]]; it_inv G43 G45.
  - destruct t as [|c2 t].
    + destruct (N.eqb_spec c 43) as [->|N43]; [|destruct (N.eqb_spec c 45) as [->|N45]]; cbn [orb].
      * split; [discriminate|]. intros [[H _]|[H _]]; it_inv G43 G45.
      * split; [discriminate|]. intros [[H _]|[H _]]; it_inv G43 G45.
      * rewrite PN by discriminate. split.
        -- intros (n & -> & N1 & L). right. split; [now constructor|lia].
        -- intros [[H R]|[H R]]; it_inv G43 G45; exists n; repeat split; auto; lia.
    + destruct (N.eqb_spec c 43) as [->|N43]; [|destruct (N.eqb_spec c 45) as [->|N45]]; cbn [andb].
      * rewrite PN by discriminate. split.
        -- intros (n & -> & N1 & L). right. split; [now constructor|lia].
        -- intros [[H R]|[H R]]; it_inv G43 G45; exists n; repeat split; auto; lia.
      * destruct signed.
        -- rewrite digits_neg_pos. destruct (digits_pos r lo (c2 :: t) 0) as [n|e] eqn:E.
           ++ split.
              ** intro H; inv H. apply (pos_numeral r digit lo _ n G) in E as [N1 L1]; [|discriminate].
                 left. split; [now constructor|lia].
              ** intros [[H R]|[H R]]; it_inv G43 G45;
                 (assert (digits_pos r lo (c2 :: t) 0 = Ok n0)
                    by (apply (pos_numeral r digit); auto; [discriminate|split; auto; lia]); congruence).
           ++ split.
              ** destruct e; discriminate.
              ** intros [[H R]|[H R]]; it_inv G43 G45;
                 (assert (digits_pos r lo (c2 :: t) 0 = Ok n)
                    by (apply (pos_numeral r digit); auto; [discriminate|split; auto; lia]); congruence).
        -- rewrite PN by discriminate. split.
           ++ intros (n & -> & N1 & L). apply numeral_head in N1 as [d X]. now apply G45 in X.
           ++ intros [[H R]|[H R]]; it_inv G43 G45.
      * rewrite PN by discriminate. split.
        -- intros (n & -> & N1 & L). right. split; [now constructor|lia].
        -- intros [[H R]|[H R]]; it_inv G43 G45; exists n; repeat split; auto; lia.
Qed.

Lemma radix_ok : forall r digit signed lo hi s z, good r digit ->
  (from_str_radix signed lo hi r s = Ok z <->
   int_text digit r signed s z /\ (- Z.of_N lo <= z <= Z.of_N hi)%Z).
Proof.
  intros. rewrite (radix_law r digit) by auto. split.
  - intros [[A B]|[A B]]; split; auto; lia.
  - tauto.
Qed.

(** A proper prefix of the digits already denotes a number out of range. *)
Definition overflows (digit : N -> N -> Prop) (r bound : N) (s : str) : Prop :=
  exists p q n, s = p ++ q /\ numeral digit r p n /\ bound < n.
Lemma pos_err : forall r digit hi s e, good r digit -> digits_pos r hi s 0 = Err e ->
  (e = IInvalidDigit /\ exists c, In c s /\ forall d, ~ digit c d) \/ (e = IPosOverflow /\ overflows digit r hi s).
Proof.
  intros r digit hi s e (Hr & G & _) H. apply digits_pos_err in H; [|auto|lia].
  destruct H as [(E & c & I & X)|(E & p & q & ds & S1 & F & L)].
  - left. split; auto. exists c. split; auto. intros d D. apply G in D. congruence.
  - right. split; auto. exists p, q, (digits_val r 0 ds). repeat split; auto.
    apply numeral_digits. split.
    + intros ->. inv F. cbn in L. lia.
    + exists ds. split; auto. eapply Forall2_impl2; [|exact F]. intros; now apply G.
Qed.
Lemma radix_err : forall r digit signed lo hi s e, good r digit ->
  from_str_radix signed lo hi r s = Err e ->
  (e = IEmpty /\ s = []) \/
  (e = IInvalidDigit /\ exists c, In c s /\ forall d, ~ digit c d) \/
  (e = IPosOverflow /\ (overflows digit r hi s \/ exists t, s = 43 :: t /\ overflows digit r hi t)) \/
  (e = INegOverflow /\ signed = true /\ exists t, s = 45 :: t /\ overflows digit r lo t).
Proof.
  intros r digit signed lo hi s e G. pose proof G as (Hr & GD & G43 & G45).
  assert (PE : forall t, match digits_pos r hi t 0 with Ok n => Ok (Z.of_N n) | Err e => Err e end = Err e ->
     (e = IInvalidDigit /\ exists c, In c t /\ forall d, ~ digit c d) \/ (e = IPosOverflow /\ overflows digit r hi t)).
  { intros t X. destruct (digits_pos r hi t 0) eqn:E; inv X. now apply pos_err with (1 := G) in E. }
  unfold from_str_radix. destruct s as [|c t].
  - intro H; inv H. auto.
  - destruct t as [|c2 t].
    + destruct (N.eqb_spec c 43) as [->|N43]; [|destruct (N.eqb_spec c 45) as [->|N45]]; cbn [orb]; intro H.
      * inv H. right. left. split; auto. exists 43. split; [now left|auto].
      * inv H. right. left. split; auto. exists 45. split; [now left|auto].
      * apply PE in H as [[E X]|[E X]]; auto 6.
    + destruct (N.eqb_spec c 43) as [->|N43]; [|destruct (N.eqb_spec c 45) as [->|N45]]; cbn [andb]; intro H.
      * apply PE in H as [[E (x & I & X)]|[E X]].
        -- right. left. split; auto. exists x. split; [now right|auto].
        -- right. right. left. split; auto. right. eauto.
      * destruct signed.
        -- rewrite digits_neg_pos in H. destruct (digits_pos r lo (c2 :: t) 0) as [n|e'] eqn:E; [discriminate|].
           apply (pos_err r digit) in E; auto. destruct E as [[-> (x & I & X)]|[-> X]]; inv H.
           ++ right. left. split; auto. exists x. split; [now right|auto].
           ++ right. right. right. repeat split; auto. eauto.
        -- apply PE in H as [[E X]|[E X]]; auto 6.
      * apply PE in H as [[E X]|[E X]]; auto 6.
Qed.

Lemma dec_rev_canonical : forall f n, n < 2 ^ N.of_nat f -> (0 < f)%nat -> canonical (rev (dec_rev f n)) n.
Proof.
  induction f; intros n B P; [lia|]. cbn [dec_rev].
  assert (D : digit10 (48 + n mod 10) (n mod 10)) by (unfold digit10; lia).
  destruct (N.eqb_spec (n / 10) 0) as [Z|NZ].
  - cbn [rev app]. unfold canonical. replace (n mod 10) with n in * by lia.
    split; [now constructor|]. cbn [hd]. split; intros; [subst; reflexivity|lia].
  - rewrite Nat2N.inj_succ, N.pow_succ_r' in B.
    destruct f; [change (N.of_nat 0) with 0 in B; rewrite N.pow_0_r in B; lia|].
    assert (C : canonical (rev (dec_rev (S f) (n / 10))) (n / 10)) by (apply IHf; [generalize dependent (2 ^ N.of_nat (S f)); intros; lia|lia]).
    destruct C as (N1 & _ & H1). specialize (H1 NZ). cbn [rev]. unfold canonical.
    set (l := rev (dec_rev (S f) (n / 10))) in *.
    split; [|split].
    + replace n with (10 * (n / 10) + n mod 10) at 2 by lia. now constructor.
    + lia.
    + intros _. destruct l; [now apply numeral_nonempty in N1|]. exact H1.
Qed.
Lemma fmt_u_canonical : forall n, canonical (fmt_u n) n.
Proof.
  intro n. apply dec_rev_canonical; [|lia].
  destruct (N.eq_dec n 0) as [->|NZ]; [reflexivity|].
  rewrite Nat2N.inj_succ, N2Nat.id. apply N.log2_spec. lia.
Qed.
Lemma digit10_inj : forall c d d', digit10 c d -> digit10 c d' -> d = d'.
Proof. unfold digit10. lia. Qed.
Lemma digit16_inj : forall c d d', digit16 c d -> digit16 c d' -> d = d'.
Proof. unfold digit16, digit10. lia. Qed.
Lemma Forall2_fun : forall A B (R : A -> B -> Prop), (forall a b b', R a b -> R a b' -> b = b') ->
  forall l m m', Forall2 R l m -> Forall2 R l m' -> m = m'.
Proof.
  intros A B R H. induction l; intros m m' F F'; inv F; inv F'; auto. f_equal; eauto.
Qed.
Lemma numeral_fun : forall (digit : N -> N -> Prop) r s n n', (forall c d d', digit c d -> digit c d' -> d = d') ->
  numeral digit r s n -> numeral digit r s n' -> n = n'.
Proof.
  intros digit r s n n' H A B. apply numeral_digits in A as (_ & ds & F & ->).
  apply numeral_digits in B as (_ & ds' & F' & ->). f_equal. eapply Forall2_fun; eauto.
Qed.

(** the decimal text without leading zeros is unique *)
Lemma digits_val_app : forall r a b acc, digits_val r acc (a ++ b) = digits_val r (digits_val r acc a) b.
Proof. intros. unfold digits_val. apply fold_left_app. Qed.
Lemma digits10_lt : forall s ds, Forall2 digit10 s ds -> Forall (fun d => d < 10) ds.
Proof. induction 1; constructor; auto. destruct H; auto. Qed.
Lemma numeral_lead : forall s n, numeral digit10 10 s n -> hd 0 s <> 48 -> n <> 0.
Proof.
  intros s n H. apply numeral_digits in H as (NE & ds & F & ->). destruct s; [congruence|].
  inv F. cbn [hd]. intros Hn. unfold digits_val. cbn [fold_left].
  pose proof (digits_val_mono 10 l' (0 * 10 + y) ltac:(lia)) as H. unfold digits_val in H.
  destruct H1 as [A ->]. lia.
Qed.
Lemma numeral_inv : forall digit r s n, numeral digit r s n ->
  (exists c, s = [c] /\ digit c n) \/
  (exists s' n' c d, s = s' ++ [c] /\ n = r * n' + d /\ numeral digit r s' n' /\ digit c d).
Proof. intros digit r s n H. inv H; [left|right]; eauto 10. Qed.
Lemma canonical_unique : forall s s' n, canonical s n -> canonical s' n -> s = s'.
Proof.
  induction s as [|c s IH] using rev_ind; intros s' n C C'.
  - destruct C as (X & _). now apply numeral_nonempty in X.
  - destruct (N.eq_dec n 0) as [->|NZ].
    + destruct C as (_ & A & _), C' as (_ & B & _). rewrite A, B; auto.
    + destruct C as (N1 & _ & H1), C' as (N2 & _ & H2). specialize (H1 NZ). specialize (H2 NZ).
      apply numeral_inv in N1 as [(c1 & E1 & D1)|(t1 & n1 & c1 & d1 & E1 & V1 & N1 & D1)];
      apply numeral_inv in N2 as [(c2 & E2 & D2)|(t2 & n2 & c2 & d2 & E2 & V2 & N2 & D2)].
      * rewrite E1, E2. destruct D1 as [_ ->], D2 as [_ ->]. reflexivity.
      * exfalso. destruct D1 as [L1 _]. subst s'. rewrite V2 in L1.
        assert (n2 <> 0); [|lia]. apply (numeral_lead t2); auto.
        destruct t2; [now apply numeral_nonempty in N2|exact H2].
      * exfalso. destruct D2 as [L1 _]. rewrite E1 in H1. rewrite V1 in L1.
        assert (n1 <> 0); [|lia]. apply (numeral_lead t1); auto.
        destruct t1; [now apply numeral_nonempty in N1|exact H1].
      * apply app_inj_tail in E1 as [-> ->]. subst s'.
        destruct D1 as [L1 ->], D2 as [L2 ->].
        assert (n1 = n2 /\ d1 = d2) as [-> ->] by lia. f_equal.
        assert (HD1 : hd 0 t1 <> 48) by (destruct t1; [now apply numeral_nonempty in N1|exact H1]).
        assert (HD2 : hd 0 t2 <> 48) by (destruct t2; [now apply numeral_nonempty in N2|exact H2]).
        pose proof (numeral_lead t1 n2 N1 HD1).
        apply (IH t2 n2); split; auto; split; intros; auto; congruence.
Qed.
Lemma fmt_u_unique : forall s n, canonical s n -> s = fmt_u n.
Proof. intros. eapply canonical_unique; eauto. apply fmt_u_canonical. Qed.

(** a numeral whose first digit is not zero, or that has one digit, is the printed text *)
Lemma numeral_canonical : forall s n, numeral digit10 10 s n -> (length s = 1%nat \/ hd 0 s <> 48) -> s = fmt_u n.
Proof.
  intros s n H C. apply fmt_u_unique. split; auto.
  destruct C as [C|C].
  - destruct s as [|c [|? ?]]; try discriminate. apply numeral_digits in H as (_ & ds & F & E).
    inv F. inv H3. cbn [hd digits_val fold_left]. destruct H1 as [A ->]. split; intros; [f_equal; lia|lia].
  - pose proof (numeral_lead s n H C). split; intros; auto; congruence.
Qed.

Lemma hex_char_digit : forall u d, d < 16 -> digit16 (hex_char u d) d.
Proof.
  intros u d H. unfold hex_char, digit16, digit10. destruct (N.ltb_spec d 10); [left; lia|right].
  split; [lia|]. destruct u; [right|left]; lia.
Qed.
Lemma hex_rev_numeral : forall f u n, n < 2 ^ N.of_nat f -> (0 < f)%nat -> numeral digit16 16 (rev (hex_rev f u n)) n.
Proof.
  induction f; intros u n B P; [lia|]. cbn [hex_rev].
  assert (D : digit16 (hex_char u (n mod 16)) (n mod 16)) by (apply hex_char_digit; lia).
  destruct (N.eqb_spec (n / 16) 0) as [Z|NZ].
  - cbn [rev app]. replace (n mod 16) with n in * by lia. now constructor.
  - rewrite Nat2N.inj_succ, N.pow_succ_r' in B.
    destruct f; [change (N.of_nat 0) with 0 in B; rewrite N.pow_0_r in B; lia|].
    assert (C : numeral digit16 16 (rev (hex_rev (S f) u (n / 16))) (n / 16)) by (apply IHf; [generalize dependent (2 ^ N.of_nat (S f)); intros; lia|lia]).
    cbn [rev]. replace n with (16 * (n / 16) + n mod 16) at 3 by lia. now constructor.
Qed.
Lemma fmt_x_numeral : forall u n, numeral digit16 16 (fmt_x u n) n.
Proof.
  intros u n. apply hex_rev_numeral; [|lia].
  destruct (N.eq_dec n 0) as [->|NZ]; [reflexivity|].
  rewrite Nat2N.inj_succ, N2Nat.id. apply N.log2_spec. lia.
Qed.

Lemma digits_val_acc : forall r ds acc, digits_val r acc ds = acc * r ^ lenN ds + digits_val r 0 ds.
Proof.
  induction ds as [|d ds IH]; intros acc; unfold digits_val in *; cbn [fold_left].
  - rewrite lenN_nil, N.pow_0_r. lia.
  - rewrite IH, (IH (0 * r + d)), lenN_cons. rewrite N.add_1_l, N.pow_succ_r'. lia.
Qed.
Lemma Forall2_lenN : forall A B (R : A -> B -> Prop) l m, Forall2 R l m -> lenN l = lenN m.
Proof. intros. unfold lenN. f_equal. induction H; cbn; auto. Qed.
Lemma numeral_app : forall digit r a b n, a <> [] -> b <> [] ->
  (numeral digit r (a ++ b) n <->
   exists na nb, numeral digit r a na /\ numeral digit r b nb /\ n = na * r ^ lenN b + nb).
Proof.
  intros digit r a b n NA NB. split.
  - intro H. apply numeral_digits in H as (_ & ds & F & E). apply Forall2_app_inv_l in F as (da & db & Fa & Fb & ->).
    exists (digits_val r 0 da), (digits_val r 0 db). rewrite !numeral_digits. repeat split; eauto.
    rewrite E, digits_val_app, digits_val_acc. rewrite (Forall2_lenN _ _ _ _ _ Fb). reflexivity.
  - intros (na & nb & Ha & Hb & E). apply numeral_digits in Ha as (_ & da & Fa & Ea).
    apply numeral_digits in Hb as (_ & db & Fb & Eb). apply numeral_digits. split.
    + intro X. now apply app_eq_nil in X.
    + exists (da ++ db). split; [now apply Forall2_app|].
      rewrite E, digits_val_app, (digits_val_acc r db), Ea, Eb. rewrite (Forall2_lenN _ _ _ _ _ Fb). reflexivity.
Qed.
Lemma numeral_bound : forall (digit : N -> N -> Prop) r s n, (forall c d, digit c d -> d < r) -> numeral digit r s n -> n < r ^ lenN s.
Proof.
  intros digit r s n B H. induction H.
  - change (lenN [c]) with 1. rewrite N.pow_1_r. eauto.
  - rewrite lenN_app. change (lenN [c]) with 1. rewrite N.add_1_r, N.pow_succ_r'.
    specialize (B _ _ H0). nia.
Qed.
Lemma digit16_lt : forall c d, digit16 c d -> d < 16.
Proof. unfold digit16, digit10. lia. Qed.
Lemma digit10_lt : forall c d, digit10 c d -> d < 10.
Proof. unfold digit10. lia. Qed.
Lemma digit16_ascii : forall c d, digit16 c d -> c < 128.
Proof. unfold digit16, digit10. lia. Qed.
Lemma ascii_app : forall a b, is_ascii (a ++ b) = is_ascii a && is_ascii b.
Proof. intros. unfold is_ascii. apply forallb_app. Qed.
Lemma numeral_ascii : forall s n, numeral digit16 16 s n -> is_ascii s = true.
Proof.
  intros s n H. induction H; [|rewrite ascii_app, IHnumeral]; cbn [is_ascii forallb andb].
  - rewrite andb_true_r. apply N.ltb_lt. eapply digit16_ascii; eauto.
  - rewrite andb_true_r. apply N.ltb_lt. eapply digit16_ascii; eauto.
Qed.
Lemma digit10_16 : forall c d, digit10 c d -> digit16 c d.
Proof. unfold digit16. auto. Qed.
Lemma int_text_ascii : forall s z, int_text digit16 16 false s z -> is_ascii s = true.
Proof. intros s z H. inv H; [| |discriminate]; apply numeral_ascii in H0; cbn; auto. Qed.
Lemma ascii_len : forall s, is_ascii s = true -> str_len s = lenN s.
Proof.
  induction s as [|c s IH]; cbn [is_ascii forallb str_len fold_right]; intro H; [reflexivity|].
  apply andb_true_iff in H as [A B]. fold (str_len s). rewrite IH by exact B. rewrite lenN_cons.
  unfold char_len. rewrite A. reflexivity.
Qed.
Lemma int_text_noplus : forall digit r s z, ~ In 43 s ->
  (int_text digit r false s z <-> exists n, z = Z.of_N n /\ numeral digit r s n).
Proof.
  intros digit r s z H. split.
  - intro I. inv I; eauto; [|discriminate]. exfalso. apply H. now left.
  - intros (n & -> & N1). now constructor.
Qed.

(** hex_unchecked as a predicate *)
Lemma hex_unchecked_ok : forall bits s n, hex_unchecked bits s = Ok n <->
  int_text digit16 16 false s (Z.of_N n) /\ n < 2 ^ bits.
Proof.
  intros bits s n. unfold hex_unchecked.
  assert (P : 0 < 2 ^ bits) by (apply N.neq_0_lt_0, N.pow_nonzero; lia).
  destruct (from_str_radix false 0 (2 ^ bits - 1) 16 s) as [z|e] eqn:E.
  - apply (radix_ok 16 digit16) in E as [T R]; [|exact good16]. split.
    + intro H; inv H. assert (0 <= z)%Z by (inv T; lia || discriminate).
      rewrite Z2N.id by auto. split; [auto|lia].
    + intros [T' L]. assert (X : z = Z.of_N n); [|subst; now rewrite N2Z.id].
      assert (Y : from_str_radix false 0 (2 ^ bits - 1) 16 s = Ok (Z.of_N n)).
      { apply (radix_ok 16 digit16); [exact good16|]. split; auto. lia. }
      assert (Y' : from_str_radix false 0 (2 ^ bits - 1) 16 s = Ok z).
      { apply (radix_ok 16 digit16); [exact good16|]. split; auto. }
      congruence.
  - split; [discriminate|]. intros [T' L].
    assert (Y : from_str_radix false 0 (2 ^ bits - 1) 16 s = Ok (Z.of_N n)).
    { apply (radix_ok 16 digit16); [exact good16|]. split; auto. lia. }
    congruence.
Qed.
Lemma le_val_pair : forall a b, a < 2 ^ 128 -> b < 2 ^ 128 -> le_val (le_bytes 16 a ++ le_bytes 16 b) = a + 2 ^ 128 * b.
Proof.
  intros a b A B. rewrite le_val_app. unfold lenN. rewrite le_bytes_length.
  change (256 ^ N.of_nat 16) with (2 ^ 128). rewrite !le_val_bytes; auto.
Qed.
Lemma hex256_ok : forall s n, ~ In 43 s ->
  (hex_u256_unchecked s = Ok n <-> numeral digit16 16 s n /\ n < 2 ^ 256).
Proof.
  intros s n NP. unfold hex_u256_unchecked.
  destruct (is_ascii s) eqn:AS; cbn [negb].
  2:{ split; intro H.
      - exfalso. destruct (from_str_radix false 0 (2 ^ 128 - 1) 16 s) as [z|e] eqn:E; [|discriminate].
        apply (radix_ok 16 digit16) in E as [T R]; [|exact good16]. apply int_text_ascii in T. congruence.
      - destruct H as [H _]. apply numeral_ascii in H. congruence. }
  rewrite (ascii_len s AS).
  change (2 ^ 256) with (2 ^ 128 * 2 ^ 128).
  assert (P128 : 16 ^ 32 = 2 ^ 128) by reflexivity.
  assert (HU : forall t m, ~ In 43 t -> (hex_unchecked 128 t = Ok m <-> numeral digit16 16 t m /\ m < 2 ^ 128)).
  { intros t m NT. rewrite hex_unchecked_ok. rewrite int_text_noplus by auto. split.
    - intros ((k & E & H) & L). assert (m = k) by lia. subst. auto.
    - intros (H & L). split; [|auto]. eauto. }
  destruct (N.leb_spec (lenN s) 32) as [L|L].
  - transitivity (hex_unchecked 128 s = Ok n).
    { destruct (hex_unchecked 128 s); split; congruence. }
    rewrite HU by auto. split; intros [A B]; split; auto.
    + generalize dependent (2 ^ 128). intros; nia.
    + apply (numeral_bound _ _ _ _ digit16_lt) in A.
      eapply N.lt_le_trans; [exact A|]. rewrite <- P128. apply N.pow_le_mono_r; lia.
  - set (k := N.to_nat (lenN s - 32)).
    assert (LB : lenN (skipn k s) = 32) by (unfold lenN in *; rewrite skipn_length; lia).
    assert (NA : firstn k s <> []).
    { intro X. apply (f_equal (@length N)) in X. rewrite firstn_length in X. cbn in X. unfold lenN in *. lia. }
    assert (NB : skipn k s <> []) by (intro X; rewrite X, lenN_nil in LB; lia).
    assert (NPA : ~ In 43 (firstn k s)) by (intro X; apply NP; rewrite <- (firstn_skipn k s); apply in_or_app; auto).
    assert (NPB : ~ In 43 (skipn k s)) by (intro X; apply NP; rewrite <- (firstn_skipn k s); apply in_or_app; auto).
    assert (SP : numeral digit16 16 s n <-> exists na nb, numeral digit16 16 (firstn k s) na /\ numeral digit16 16 (skipn k s) nb /\ n = na * 2 ^ 128 + nb).
    { rewrite <- (firstn_skipn k s) at 1. rewrite numeral_app by auto. rewrite LB, P128. reflexivity. }
    rewrite SP. clear SP. split.
    + intro H. destruct (hex_unchecked 128 (firstn k s)) as [h|] eqn:E1; [|discriminate].
      destruct (hex_unchecked 128 (skipn k s)) as [l|] eqn:E2; [|discriminate].
      apply HU in E1 as [N1 L1]; auto. apply HU in E2 as [N2 L2]; auto.
      assert (EN : n = le_val (le_bytes 16 l ++ le_bytes 16 h)) by congruence. clear H.
      rewrite le_val_pair in EN by auto. split; [exists h, l; repeat split; auto|].
      * rewrite EN. generalize (2 ^ 128). intros; lia.
      * rewrite EN. revert L1 L2. generalize (2 ^ 128). intros; nia.
    + intros ((na & nb & N1 & N2 & E) & B).
      assert (L2 : nb < 2 ^ 128) by (apply (numeral_bound _ _ _ _ digit16_lt) in N2; rewrite LB, P128 in N2; auto).
      assert (L1 : na < 2 ^ 128) by (revert B E; generalize (2 ^ 128); intros; nia).
      assert (E1 : hex_unchecked 128 (firstn k s) = Ok na) by (apply HU; auto).
      assert (E2 : hex_unchecked 128 (skipn k s) = Ok nb) by (apply HU; auto).
      rewrite E1, E2, le_val_pair by auto. f_equal. rewrite E. generalize (2 ^ 128). intros; lia.
Qed.

(** hex of bytes *)
Lemma hex_pairs_of : forall s b, hex_of s b -> hex_pairs s = Some b.
Proof.
  induction 1; cbn [hex_pairs]; auto. apply to_digit16 in H, H0. now rewrite H, H0, IHhex_of.
Qed.
Lemma hex_of_pairs : forall s b, hex_pairs s = Some b -> hex_of s b.
Proof.
  intro s. remember (length s) as n eqn:L. assert (LE : (length s <= n)%nat) by lia. clear L. revert s LE.
  induction n; intros s L b H.
  - destruct s; [|cbn in L; lia]. inv H. constructor.
  - destruct s as [|x [|y s]]; [inv H; constructor|discriminate|]. cbn [hex_pairs] in H.
    destruct (to_digit 16 x) eqn:D1; [|discriminate]. destruct (to_digit 16 y) eqn:D2; [|discriminate].
    destruct (hex_pairs s) as [r|] eqn:HP; [|discriminate].
    assert (b = 16 * n0 + n1 :: r) by congruence. subst b.
    constructor; [now apply to_digit16|now apply to_digit16|]. apply IHn; auto. cbn in L. lia.
Qed.
Lemma hex_of_length : forall s b, hex_of s b -> length s = (2 * length b)%nat.
Proof. induction 1; cbn [length]; lia. Qed.
Lemma hex_of_ascii : forall s b, hex_of s b -> is_ascii s = true.
Proof.
  induction 1; auto. cbn [is_ascii forallb]. fold (is_ascii s). rewrite IHhex_of, andb_true_r.
  apply andb_true_iff. split; apply N.ltb_lt; eapply digit16_ascii; eauto.
Qed.
Lemma hex_of_bytes : forall s b, hex_of s b -> bytes_ok b.
Proof.
  induction 1; constructor; auto. apply digit16_lt in H, H0. unfold byte_ok. lia.
Qed.
Lemma hex_bytes_of : forall u b, bytes_ok b -> hex_of (hex_bytes u b) b.
Proof.
  induction b as [|x b IH]; intro H; cbn; [constructor|].
  apply bytes_ok_cons in H as [A B]. unfold byte_ok in A.
  replace (x :: b) with (16 * (x / 16) + x mod 16 :: b) by (f_equal; lia).
  constructor; auto; apply hex_char_digit; lia.
Qed.
Lemma lower_digit : forall c d, digit16 c d -> lower c = hex_char false d.
Proof.
  intros c d H. unfold lower, hex_char, digit16, digit10 in *.
  destruct (N.leb_spec 65 c), (N.leb_spec c 90); cbn [andb]; cbv iota; destruct (N.ltb_spec d 10); lia.
Qed.
Lemma lower_hex : forall s b, hex_of s b -> map lower s = hex_bytes false b.
Proof.
  induction 1; auto. cbn [map hex_bytes flat_map hex_byte app]. fold (hex_bytes false b). rewrite IHhex_of.
  rewrite (lower_digit _ _ H), (lower_digit _ _ H0).
  apply digit16_lt in H, H0.
  f_equal; [|f_equal]; f_equal; lia.
Qed.
Lemma hash_from_str_ok : forall len bw s h, hash_from_str len bw s = Ok h <->
  lenN h = len /\ hex_of s (if bw then rev h else h).
Proof.
  intros len bw s h. unfold hash_from_str, decode_to_array. split.
  - destruct (N.eqb_spec (str_len s) (2 * len)) as [L|L]; cbn [negb]; [|discriminate].
    destruct (hex_pairs s) as [b|] eqn:P; [|discriminate]. intro H.
    injection H as <-.
    apply hex_of_pairs in P. pose proof (hex_of_length _ _ P). rewrite ascii_len in L by now apply hex_of_ascii in P.
    unfold lenN in *. destruct bw; rewrite ?rev_length, ?rev_involutive; (split; [lia|auto]).
  - intros [L P]. pose proof (hex_of_length _ _ P) as LL. rewrite (ascii_len s) by now apply hex_of_ascii in P.
    assert (lenN s = 2 * len) as ->.
    { unfold lenN in *. destruct bw; rewrite ?rev_length in LL; lia. }
    rewrite N.eqb_refl. cbn [negb]. rewrite (hex_pairs_of _ _ P). destruct bw; rewrite ?rev_involutive; auto.
Qed.

Lemma split_first_some : forall c s a b, split_first c s = Some (a, b) -> s = a ++ c :: b /\ ~ In c a.
Proof.
  induction s as [|x s IH]; intros a b; cbn [split_first]; [discriminate|].
  destruct (N.eqb_spec x c) as [->|NE].
  - intro H; inv H. split; auto.
  - destruct (split_first c s) as [[a' b']|]; [|discriminate]. intro H; inv H.
    destruct (IH _ _ eq_refl) as [-> NI]. split; auto. intros [X|X]; auto.
Qed.
Lemma split_first_none : forall c s, split_first c s = None <-> ~ In c s.
Proof.
  induction s as [|x s IH]; cbn [split_first].
  - split; auto.
  - destruct (N.eqb_spec x c) as [->|NE].
    + split; [discriminate|]. intro X. exfalso. apply X. now left.
    + destruct (split_first c s) as [[a' b']|].
      * split; [discriminate|]. intro X. destruct IH as [_ IH].
        assert (~ In c s) as Y by (intro Y; apply X; now right). discriminate (IH Y).
      * split; auto. intros _ [X|X]; [congruence|]. now apply IH.
Qed.
Lemma split_first_app : forall c a b, ~ In c a -> split_first c (a ++ c :: b) = Some (a, b).
Proof.
  induction a as [|x a IH]; intros b H; cbn [app split_first].
  - now rewrite N.eqb_refl.
  - destruct (N.eqb_spec x c) as [->|NE]; [exfalso; apply H; now left|].
    rewrite IH; auto. intro X. apply H. now right.
Qed.

Lemma numeral_in : forall (digit : N -> N -> Prop) r s n c, numeral digit r s n -> In c s -> exists d, digit c d.
Proof.
  intros digit r s n c H. induction H; intro I.
  - destruct I as [<-|[]]. eauto.
  - apply in_app_or in I as [I|[<-|[]]]; eauto.
Qed.
Lemma hex_of_in : forall s b c, hex_of s b -> In c s -> exists d, digit16 c d.
Proof. induction 1; intro I; [destruct I|]. destruct I as [<-|[<-|I]]; eauto. Qed.
Lemma numeral10_ascii : forall s n, numeral digit10 10 s n -> is_ascii s = true.
Proof.
  intros s n H. apply forallb_forall. intros c I. destruct (numeral_in _ _ _ _ _ H I) as [d [A ->]]. apply N.ltb_lt. lia.
Qed.
Lemma numeral_lower : forall s n, numeral digit10 10 s n -> hd 0 s <> 48 -> 10 ^ (lenN s - 1) <= n.
Proof.
  intros s n H. induction H; intro HD.
  - cbn [hd] in HD. change (lenN [c] - 1) with 0. rewrite N.pow_0_r. destruct H as [A ->]. lia.
  - assert (NE : s <> []) by now apply numeral_nonempty in H.
    destruct s as [|x s]; [congruence|]. cbn [hd app] in *. specialize (IHnumeral HD).
    change (x :: s ++ [c]) with ((x :: s) ++ [c]). rewrite lenN_app. change (lenN [c]) with 1.
    rewrite lenN_cons in *. replace (1 + lenN s + 1 - 1) with (N.succ (lenN s)) by lia.
    replace (1 + lenN s - 1) with (lenN s) in IHnumeral by lia. rewrite N.pow_succ_r'. lia.
Qed.
Lemma fmt_u_hd : forall v, hd 0 (fmt_u v) <> 43 /\ fmt_u v <> [] /\ ((1 < lenN (fmt_u v)) -> hd 0 (fmt_u v) <> 48).
Proof.
  intros v. destruct (fmt_u_canonical v) as (N1 & Z0 & NZ).
  assert (NE : fmt_u v <> []) by now apply numeral_nonempty in N1.
  split; [|split; auto].
  - destruct (fmt_u v) as [|c l]; [congruence|]. apply numeral_head in N1 as [d [A B]]. cbn. lia.
  - intro L. destruct (N.eq_dec v 0) as [->|X]; [rewrite Z0 in L by auto; cbn in L; lia|auto].
Qed.
Lemma fmt_u_len : forall v k, v < 10 ^ k -> 1 <= k -> lenN (fmt_u v) <= k.
Proof.
  intros v k B K. destruct (N.le_gt_cases (lenN (fmt_u v)) k) as [|L]; auto. exfalso.
  destruct (fmt_u_hd v) as (_ & _ & H). specialize (H ltac:(lia)).
  pose proof (numeral_lower _ _ (proj1 (fmt_u_canonical v)) H).
  assert (10 ^ k <= 10 ^ (lenN (fmt_u v) - 1)) by (apply N.pow_le_mono_r; lia). lia.
Qed.

Lemma int_from_str_u : forall bits s n, int_from_str {| i_bits := bits; i_signed := false |} s = Ok (Z.of_N n) <->
  (exists t, (s = t \/ s = 43 :: t) /\ numeral digit10 10 t n) /\ n < 2 ^ bits.
Proof.
  intros bits s n. unfold int_from_str. cbn [i_signed i_bits i_lo i_hi].
  assert (P : 0 < 2 ^ bits) by (apply N.neq_0_lt_0, N.pow_nonzero; lia).
  set (t := {| i_bits := bits; i_signed := false |}).
  change (i_lo t) with 0. change (i_hi t) with (2 ^ bits - 1).
  transitivity (from_str_radix false 0 (2 ^ bits - 1) 10 s = Ok (Z.of_N n)).
  { destruct (from_str_radix false 0 (2 ^ bits - 1) 10 s); split; congruence. }
  rewrite (radix_ok 10 digit10) by exact good10. split.
  - intros [T R]. split; [|lia]. inv T.
    + assert (n0 = n) by lia. subst. eauto.
    + assert (n0 = n) by lia. subst. eauto.
    + discriminate.
  - intros [(u & [->| ->] & N1) L]; (split; [|lia]); now constructor.
Qed.
Lemma str_len_one : forall s, s <> [] -> str_len s <= 1 -> length s = 1%nat.
Proof.
  intros [|a [|b s]] NE H; [congruence|auto|]. cbn [str_len fold_right] in H.
  assert (forall c, 1 <= char_len c) by (intro; unfold char_len; repeat destr_if; lia).
  pose proof (H0 a). pose proof (H0 b). lia.
Qed.
Lemma parse_vout_ok : forall s v, parse_vout s = Ok v <-> s = fmt_u v /\ v < 2 ^ 32.
Proof.
  intros s v. unfold parse_vout.
  assert (B : match int_from_str U32t s with Ok z => Ok (Z.to_N z) | Err e => Err (OpVout e) end = Ok v <->
              (exists t, (s = t \/ s = 43 :: t) /\ numeral digit10 10 t v) /\ v < 2 ^ 32).
  { rewrite <- int_from_str_u. destruct (int_from_str U32t s) as [z|e] eqn:E.
    - unfold U32t in E. split.
      + intro H. assert (v = Z.to_N z) by congruence. subst. rewrite Z2N.id; auto.
        unfold int_from_str in E. cbn [i_signed] in E.
        destruct (from_str_radix _ _ _ _ _) eqn:F in E; [|discriminate].
        apply (radix_ok 10 digit10) in F as [T _]; [|exact good10]. assert (a = z) by congruence. subst. inv T; lia || discriminate.
      + intro H. rewrite E in H. assert (z = Z.of_N v) by congruence. subst. now rewrite N2Z.id.
    - unfold U32t in E. rewrite E. split; discriminate. }
  assert (BK : s = fmt_u v /\ v < 2 ^ 32 -> (exists t, (s = t \/ s = 43 :: t) /\ numeral digit10 10 t v) /\ v < 2 ^ 32).
  { intros [-> L]. split; auto. exists (fmt_u v). split; auto. apply fmt_u_canonical. }
  destruct (N.ltb_spec 1 (str_len s)) as [L|L].
  - destruct s as [|f s]; [cbn in L; lia|].
    destruct (N.eqb_spec f 48) as [->|N48]; [|destruct (N.eqb_spec f 43) as [->|N43]]; cbn [orb].
    + split; [discriminate|]. intros [E _]. exfalso. destruct (fmt_u_hd v) as (_ & _ & H).
      rewrite E in L. rewrite ascii_len in L by (eapply numeral10_ascii; apply fmt_u_canonical).
      specialize (H L). rewrite <- E in H. now cbn in H.
    + split; [discriminate|]. intros [E _]. exfalso. destruct (fmt_u_hd v) as (H & _). rewrite <- E in H. now cbn in H.
    + rewrite B. split; auto. intros [(t & [<-|X] & N1) R]; [|inv X; congruence].
      split; auto. apply numeral_canonical; auto.
  - rewrite B. split; auto. intros [(t & [->|X] & N1) R].
    + split; auto. apply numeral_canonical; auto. left. apply str_len_one; auto. now apply numeral_nonempty in N1.
    + exfalso. subst s. apply numeral_nonempty in N1. apply str_len_one in L; [|discriminate]. destruct t; [congruence|discriminate].
Qed.
Lemma outpoint_from_str_ok : forall s o, outpoint_from_str s = Ok o <->
  exists h, s = h ++ 58 :: fmt_u (op_vout o) /\ hex_of h (rev (op_txid o)) /\ lenN (op_txid o) = 32 /\ op_vout o < 2 ^ 32.
Proof.
  intros s o. unfold outpoint_from_str. split.
  - destruct (N.ltb_spec 75 (str_len s)); [discriminate|].
    destruct (split_first 58 s) as [[a b]|] eqn:SP; [|discriminate].
    destruct (split_first 58 b) as [|] eqn:SP2; [discriminate|].
    apply split_first_some in SP as [-> NI]. intro X.
    assert (Y : match hash_from_str 32 true a with
                | Err e => Err (OpTxid e)
                | Ok txid => match parse_vout b with Err e => Err e | Ok vout => Ok {| op_txid := txid; op_vout := vout |} end
                end = Ok o) by (destruct a, b; auto; discriminate).
    clear X. destruct (hash_from_str 32 true a) as [h|] eqn:E1; [|discriminate].
    destruct (parse_vout b) as [v|] eqn:E2; [|discriminate]. inv Y. cbn [op_vout op_txid].
    apply parse_vout_ok in E2 as [-> LV]. apply hash_from_str_ok in E1 as [L1 H1]. exists a. auto.
  - intros (h & -> & HX & L1 & LV).
    assert (NI : ~ In 58 h).
    { intro I. destruct (hex_of_in _ _ _ HX I) as [d D]. unfold digit16, digit10 in D. lia. }
    assert (NV : ~ In 58 (fmt_u (op_vout o))).
    { intro I. destruct (numeral_in _ _ _ _ _ (proj1 (fmt_u_canonical _)) I) as [d D]. unfold digit10 in D. lia. }
    assert (AS : is_ascii (h ++ 58 :: fmt_u (op_vout o)) = true).
    { rewrite ascii_app, (hex_of_ascii _ _ HX). cbn [andb is_ascii forallb].
      fold (is_ascii (fmt_u (op_vout o))). rewrite (numeral10_ascii _ _ (proj1 (fmt_u_canonical _))). reflexivity. }
    pose proof (hex_of_length _ _ HX) as LH. rewrite rev_length in LH.
    assert (LU : lenN (fmt_u (op_vout o)) <= 10).
    { apply fmt_u_len; [|lia]. eapply N.lt_trans; [exact LV|reflexivity]. }
    rewrite (ascii_len _ AS), lenN_app, lenN_cons.
    destruct (N.ltb_spec 75 (lenN h + (1 + lenN (fmt_u (op_vout o))))) as [X|X]; [unfold lenN in *; lia|].
    rewrite split_first_app by auto. rewrite (proj2 (split_first_none _ _) NV).
    assert (NE1 : h <> []) by (intros ->; unfold lenN in L1; cbn in LH; lia).
    destruct (fmt_u_hd (op_vout o)) as (_ & NE2 & _).
    assert (E1 : hash_from_str 32 true h = Ok (op_txid o)) by (apply hash_from_str_ok; auto).
    assert (E2 : parse_vout (fmt_u (op_vout o)) = Ok (op_vout o)) by (apply parse_vout_ok; auto).
    destruct h as [|x h]; [congruence|]. rewrite E1, E2.
    destruct (fmt_u (op_vout o)); [congruence|]. destruct o; reflexivity.
Qed.

Lemma pow2_pos : forall b, 1 <= 2 ^ b.
Proof. intro b. assert (2 ^ b <> 0) by (apply N.pow_nonzero; lia). lia. Qed.
Lemma int_range_bounds : forall t z, 1 <= i_bits t ->
  (int_range t z <-> (- Z.of_N (i_lo t) <= z <= Z.of_N (i_hi t))%Z).
Proof.
  intros [b s] z B. unfold int_range, i_lo, i_hi. cbn [i_bits i_signed] in *. destruct s.
  - rewrite N2Z.inj_sub by apply pow2_pos.
    rewrite N2Z.inj_pow, N2Z.inj_sub by lia. change (Z.of_N 2) with 2%Z. change (Z.of_N 1) with 1%Z. lia.
  - rewrite N2Z.inj_sub by apply pow2_pos.
    rewrite N2Z.inj_pow. change (Z.of_N 2) with 2%Z. change (Z.of_N 1) with 1%Z. lia.
Qed.
Lemma int_ok : forall t s z, 1 <= i_bits t ->
  (int_from_str t s = Ok z <-> int_text digit10 10 (i_signed t) s z /\ int_range t z).
Proof.
  intros t s z B. rewrite int_range_bounds by auto. rewrite <- (radix_ok 10 digit10) by exact good10.
  unfold int_from_str. destruct (from_str_radix _ _ _ _ _); split; congruence.
Qed.
Lemma fmt_i_text : forall signed z, (signed = true \/ (0 <= z)%Z) -> int_text digit10 10 signed (fmt_i z) z.
Proof.
  intros signed z H. unfold fmt_i. destruct (Z.ltb_spec z 0).
  - replace z with (- Z.of_N (Z.abs_N z))%Z at 2 by lia. apply it_minus; [destruct H; [auto|lia]|]. apply fmt_u_canonical.
  - replace z with (Z.of_N (Z.to_N z)) at 2 by lia. apply it_plain. apply fmt_u_canonical.
Qed.
Lemma int_text_u : forall s z, int_text digit10 10 false s z -> (0 <= z)%Z.
Proof. intros s z H. inv H; lia || discriminate. Qed.
Lemma strip_prefix_some : forall p s t, strip_prefix p s = Some t <-> s = p ++ t.
Proof.
  induction p as [|x p IH]; intros [|y s] t; cbn [strip_prefix app]; try (split; congruence).
  destruct (N.eqb_spec x y) as [->|NE].
  - rewrite IH. split; congruence.
  - split; congruence.
Qed.
Lemma px_cases : forall s t, (exists p, hex_prefix p /\ s = p ++ t) <->
  strip_prefix px_lower s = Some t \/ (strip_prefix px_lower s = None /\ strip_prefix px_upper s = Some t).
Proof.
  intros s t. unfold hex_prefix. change px_lower with [48; 120]. change px_upper with [48; 88]. split.
  - intros (p & [->| ->] & ->); [left; now apply strip_prefix_some|right; split; [reflexivity|now apply strip_prefix_some]].
  - intros [H|[_ H]]; apply strip_prefix_some in H; eauto.
Qed.
Lemma remove_prefix_ok : forall s t, hex_remove_prefix s = Ok t <-> exists p, hex_prefix p /\ s = p ++ t.
Proof.
  intros s t. rewrite px_cases. unfold hex_remove_prefix.
  destruct (strip_prefix px_lower s) eqn:A; [|destruct (strip_prefix px_upper s) eqn:B]; split; intro H.
  - left. inv H. reflexivity.
  - destruct H as [H|[H _]]; [inv H; reflexivity|discriminate].
  - right. inv H. auto.
  - destruct H as [H|[_ H]]; [discriminate|inv H; reflexivity].
  - discriminate.
  - destruct H as [H|[_ H]]; discriminate.
Qed.
Lemma check_unprefixed_ok : forall s t, hex_check_unprefixed s = Ok t <-> s = t /\ forall p u, hex_prefix p -> s <> p ++ u.
Proof.
  intros s t. unfold hex_check_unprefixed, starts_with.
  destruct (strip_prefix px_lower s) as [u|] eqn:A; cbn [orb].
  - split; [discriminate|]. intros [_ H]. apply strip_prefix_some in A. exfalso. apply (H px_lower u); auto. now left.
  - destruct (strip_prefix px_upper s) as [u|] eqn:B.
    + split; [discriminate|]. intros [_ H]. apply strip_prefix_some in B. exfalso. apply (H px_upper u); auto. now right.
    + split.
      * intro H; inv H. split; auto. intros p u [->| ->] E; apply strip_prefix_some in E; [change px_lower with [48; 120] in A; rewrite E in A|change px_upper with [48; 88] in B; rewrite E in B]; discriminate.
      * intros [-> _]; auto.
Qed.
Lemma optional_prefix : forall s, (exists p, hex_prefix p /\ s = p ++ hex_remove_optional_prefix s) \/
  (hex_remove_optional_prefix s = s /\ forall p u, hex_prefix p -> s <> p ++ u).
Proof.
  intro s. unfold hex_remove_optional_prefix.
  destruct (strip_prefix px_lower s) as [u|] eqn:A; [|destruct (strip_prefix px_upper s) as [u|] eqn:B].
  - left. apply strip_prefix_some in A. exists px_lower. split; [now left|auto].
  - left. apply strip_prefix_some in B. exists px_upper. split; [now right|auto].
  - right. split; auto. intros p u [->| ->] E; apply strip_prefix_some in E; [change px_lower with [48; 120] in A; rewrite E in A|change px_upper with [48; 88] in B; rewrite E in B]; discriminate.
Qed.
Lemma height_parse : forall (f : N -> result N conv_err) s h, (forall n m, f n = Ok m -> m = n) ->
  (lock_parser f s = Ok h <-> int_text digit10 10 true s (Z.of_N h) /\ h < 2 ^ 32 /\ f h = Ok h).
Proof.
  intros f s h FI. unfold lock_parser.
  destruct (from_str_radix true (i_lo I64t) (i_hi I64t) 10 s) as [z|e] eqn:E.
  - pose proof E as E'. apply (radix_ok 10 digit10) in E as [T R]; [|exact good10].
    destruct (Z.ltb_spec z 0); [|destruct (Z.ltb_spec 4294967295 z)]; cbn [orb].
    + split; [discriminate|]. intros (T' & L & F).
      assert (X : from_str_radix true (i_lo I64t) (i_hi I64t) 10 s = Ok (Z.of_N h)).
      { apply (radix_ok 10 digit10); [exact good10|]. split; auto.
        change (Z.of_N (i_lo I64t)) with (2^63)%Z. change (Z.of_N (i_hi I64t)) with (2^63 - 1)%Z. lia. }
      assert (z = Z.of_N h) by congruence. lia.
    + split; [discriminate|]. intros (T' & L & F).
      assert (X : from_str_radix true (i_lo I64t) (i_hi I64t) 10 s = Ok (Z.of_N h)).
      { apply (radix_ok 10 digit10); [exact good10|]. split; auto.
        change (Z.of_N (i_lo I64t)) with (2^63)%Z. change (Z.of_N (i_hi I64t)) with (2^63 - 1)%Z. lia. }
      assert (z = Z.of_N h) by congruence. lia.
    + destruct (f (Z.to_N z)) as [m|] eqn:F.
      * pose proof (FI _ _ F). subst m. split.
        -- intro H1. assert (h = Z.to_N z) by congruence. subst h. rewrite Z2N.id by lia. repeat split; auto. lia.
        -- intros (T' & L & F').
           assert (X : from_str_radix true (i_lo I64t) (i_hi I64t) 10 s = Ok (Z.of_N h)).
           { apply (radix_ok 10 digit10); [exact good10|]. split; auto.
             change (Z.of_N (i_lo I64t)) with (2^63)%Z. change (Z.of_N (i_hi I64t)) with (2^63 - 1)%Z. lia. }
           assert (z = Z.of_N h) by congruence. subst. now rewrite N2Z.id.
      * split; [discriminate|]. intros (T' & L & F').
           assert (X : from_str_radix true (i_lo I64t) (i_hi I64t) 10 s = Ok (Z.of_N h)).
           { apply (radix_ok 10 digit10); [exact good10|]. split; auto.
             change (Z.of_N (i_lo I64t)) with (2^63)%Z. change (Z.of_N (i_hi I64t)) with (2^63 - 1)%Z. lia. }
           assert (z = Z.of_N h) by congruence. subst. rewrite N2Z.id in F. congruence.
  - split; [discriminate|]. intros (T' & L & F').
    assert (X : from_str_radix true (i_lo I64t) (i_hi I64t) 10 s = Ok (Z.of_N h)).
    { apply (radix_ok 10 digit10); [exact good10|]. split; auto.
      change (Z.of_N (i_lo I64t)) with (2^63)%Z. change (Z.of_N (i_hi I64t)) with (2^63 - 1)%Z. lia. }
    congruence.
Qed.
