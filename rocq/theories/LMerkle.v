(** Lemmas about Merkle trees. *)
From Verif Require Import Base MMerkle SMerkle.

Lemma pow_pos : forall h, 1 <= 2 ^ h.
Proof. induction h; cbn; lia. Qed.
Lemma even_pow : forall h, Nat.even (2 ^ S h) = true.
Proof. intro h. cbn [Nat.pow]. apply Nat.even_spec. exists (2 ^ h). lia. Qed.
Section Merkle.
Context {T : Type} (eqb : T -> T -> bool) (eqb_spec : forall a b, eqb a b = true <-> a = b) (combine : T -> T -> T).
Local Notation next := (next_level combine).
Local Notation root := (root_rec combine).
Local Notation siblings := (equal_siblings combine).

Lemma list_ind2 : forall (P : list T -> Prop), P [] -> (forall x, P [x]) -> (forall x y l, P l -> P (x :: y :: l)) -> forall l, P l.
Proof.
  intros P H0 H1 H2 l. assert (K : P l /\ forall x, P (x :: l)); [|tauto].
  induction l as [|a l [IH1 IH2]]; split; auto.
Qed.
Fixpoint lp (l : list T) (x y : T) : Prop :=
  match l with a :: b :: l' => (x = a /\ y = b) \/ lp l' x y | [a] => x = a /\ y = a | [] => False end.
Local Notation eqp := (equal_pair eqb).

Lemma next_pad : forall l, hash_pairs combine (pad l) = next l.
Proof.
  intro l. unfold pad. destruct l as [|z0 l0] eqn:El; [reflexivity|]. rewrite <- El. assert (Hne : l <> []) by (subst; discriminate). clear El.
  assert (K : hash_pairs combine (if Nat.even (length l) then l else l ++ [last l z0]) = next l).
  { clear Hne. induction l as [|x|x y l IH] using list_ind2; auto. cbn [length Nat.even]. cbn [next_level]. destruct (Nat.even (length l)) eqn:E.
    - cbn [hash_pairs]. now rewrite IH.
    - destruct l as [|w l]; [discriminate|]. change (last (x :: y :: w :: l) z0) with (last (w :: l) z0). rewrite <- !app_comm_cons. cbn [hash_pairs]. f_equal. exact IH. }
  destruct (Nat.even (length l)); auto. destruct (rev l) as [|a t] eqn:Er.
  - apply (f_equal (@rev T)) in Er. rewrite rev_involutive in Er. now subst.
  - replace a with (last l z0); auto. apply (f_equal (@rev T)) in Er. rewrite rev_involutive in Er. rewrite Er. cbn. apply last_last.
Qed.
Lemma next_length : forall l, (2 * length (next l) = length l + (if Nat.even (length l) then 0 else 1))%nat.
Proof. induction l as [|x|x y l IH] using list_ind2; auto. cbn [next_level length Nat.even]. lia. Qed.
Lemma even_app_next : forall a b, Nat.even (length a) = true -> next (a ++ b) = next a ++ next b.
Proof. induction a as [|x|x y a IH] using list_ind2; intros b H; auto; [discriminate|]. cbn [app next_level]. now rewrite IH. Qed.
Lemma even_app_eqp : forall a b, Nat.even (length a) = true -> eqp (a ++ b) = eqp a || eqp b.
Proof. induction a as [|x|x y a IH] using list_ind2; intros b H; auto; [discriminate|]. cbn [app equal_pair]. now rewrite IH, orb_assoc. Qed.
Lemma even_app_lp : forall a b x y, Nat.even (length a) = true -> (lp (a ++ b) x y <-> lp a x y \/ lp b x y).
Proof. induction a as [|u|u v a IH] using list_ind2; intros b x y H; cbn; [tauto|discriminate|]. rewrite IH by exact H. tauto. Qed.
Lemma eqp_spec : forall l, eqp l = true <-> exists p x q, l = p ++ x :: x :: q /\ Nat.Even (length p).
Proof using eqb_spec combine.
  induction l as [|x|x y l IH] using list_ind2; cbn [equal_pair].
  - split; [discriminate|]. intros (p & x & q & H & _). now destruct p.
  - split; [discriminate|]. intros (p & z & q & H & _). destruct p as [|? [|]]; discriminate.
  - rewrite orb_true_iff, eqb_spec, IH. split.
    + intros [->|(p & z & q & -> & E)]; [exists [], y, l; split; auto; now exists 0%nat|].
      exists (x :: y :: p), z, q. split; auto. destruct E as [m E]. exists (S m). cbn. lia.
    + intros (p & z & q & H & E). destruct p as [|a [|b p]]; cbn in H; [inv H; auto| |].
      * destruct E as [m E]. cbn in E. lia.
      * inv H. right. exists p, z, q. split; auto. destruct E as [m E]. exists (m - 1)%nat. cbn in E. lia.
Qed.
Lemma siblings_step : forall l, siblings l <-> eqp l = true \/ (2 <= length l /\ siblings (next l)).
Proof using eqb_spec combine.
  intro l. rewrite eqp_spec. split.
  - intro H. inv H; [left; eauto|auto].
  - intros [(p & x & q & -> & E)|[H1 H2]]; [now apply eq_here|now apply eq_above].
Qed.

(** batched *)
Lemma next_shorter : forall l, 2 <= length l -> length (next l) < length l /\ 1 <= length (next l).
Proof. intros l H. pose proof (next_length l). destruct (Nat.even (length l)) eqn:E; [lia|]. destruct l as [|a [|b [|c l]]]; cbn [length] in *; try lia; discriminate. Qed.
Lemma batched_law : forall fuel l, length l <= fuel ->
  (exists r, batched_loop eqb combine fuel l = Some (Some r) /\ merkle_root combine l r /\ ~ siblings l) \/
  (batched_loop eqb combine fuel l = Some None /\ (l = [] \/ siblings l)).
Proof using eqb_spec combine.
  assert (Hs1 : forall x, ~ siblings [x]).
  { intros x H. apply siblings_step in H as [H|[H _]]; [discriminate|cbn in H; lia]. }
  induction fuel as [|fuel IH]; intros l Hf.
  - destruct l; cbn in Hf; [|lia]. right. auto.
  - destruct l as [|x [|y l']] eqn:El.
    + right. auto.
    + left. exists x. split; auto. split; [constructor|apply Hs1].
    + rewrite <- El in *. assert (H2 : 2 <= length l) by (subst; cbn; lia).
      replace (batched_loop eqb combine (S fuel) l) with (if eqp l then Some None else batched_loop eqb combine fuel (hash_pairs combine (pad l))) by (subst; reflexivity).
      destruct (eqp l) eqn:E.
      * right. split; auto. right. apply siblings_step. auto.
      * rewrite next_pad. destruct (next_shorter l H2). destruct (IH (next l)) as [(r & H1 & H3 & H4)|(H1 & H3)]; [lia| |].
        -- left. exists r. split; auto. split; [now apply root_up|]. rewrite siblings_step, E. intros [|[_ K]]; [discriminate|tauto].
        -- right. split; auto. right. apply siblings_step. right. split; auto. destruct H3 as [H3|]; auto. rewrite H3 in *. cbn in *. lia.
Qed.
Lemma root_det : forall l r r', merkle_root combine l r -> merkle_root combine l r' -> r = r'.
Proof using Type.
  intros l r r' H. revert r'. induction H as [x|l r H1 H2 IH]; intros r' H'; inv H'; auto; match goal with K : 2 <= length [_] |- _ => inversion K as [|? K2]; inversion K2 end.
Qed.

(** the recursive definition *)
Context (d : T).
Fixpoint amb (h : nat) (l : list T) : Prop :=
  match h with
  | O => False
  | S h' => if length l <=? 2 ^ h' then amb h' l
            else root h' (firstn (2 ^ h') l) d = root h' (skipn (2 ^ h') l) d \/ amb h' (firstn (2 ^ h') l) \/ amb h' (skipn (2 ^ h') l)
  end.
Fixpoint hp (h : nat) (l : list T) (x y : T) : Prop :=
  match h with
  | O => False
  | S h' => if length l <=? 2 ^ h' then (x = root h' l d /\ y = root h' l d) \/ hp h' l x y
            else (x = root h' (firstn (2 ^ h') l) d /\ y = root h' (skipn (2 ^ h') l) d) \/ hp h' (firstn (2 ^ h') l) x y \/ hp h' (skipn (2 ^ h') l) x y
  end.
Lemma root_S : forall h l, root (S h) l d = if length l <=? 2 ^ h then combine (root h l d) (root h l d) else combine (root h (firstn (2 ^ h) l) d) (root h (skipn (2 ^ h) l) d).
Proof. reflexivity. Qed.
Lemma amb_S : forall h l, amb (S h) l = if length l <=? 2 ^ h then amb h l
            else root h (firstn (2 ^ h) l) d = root h (skipn (2 ^ h) l) d \/ amb h (firstn (2 ^ h) l) \/ amb h (skipn (2 ^ h) l).
Proof. reflexivity. Qed.
Lemma hp_S : forall h l x y, hp (S h) l x y = if length l <=? 2 ^ h then (x = root h l d /\ y = root h l d) \/ hp h l x y
            else (x = root h (firstn (2 ^ h) l) d /\ y = root h (skipn (2 ^ h) l) d) \/ hp h (firstn (2 ^ h) l) x y \/ hp h (skipn (2 ^ h) l) x y.
Proof. reflexivity. Qed.
Lemma split_next : forall h l, 2 ^ S h < length l ->
  next (firstn (2 ^ S h) l) = firstn (2 ^ h) (next l) /\ next (skipn (2 ^ S h) l) = skipn (2 ^ h) (next l) /\ 2 ^ h < length (next l) /\
  (eqp l = eqp (firstn (2 ^ S h) l) || eqp (skipn (2 ^ S h) l)) /\
  (forall x y, lp l x y <-> lp (firstn (2 ^ S h) l) x y \/ lp (skipn (2 ^ S h) l) x y).
Proof.
  intros h l H. set (a := firstn (2 ^ S h) l). set (b := skipn (2 ^ S h) l).
  assert (La : length a = 2 ^ S h) by (apply firstn_length_le; lia).
  assert (Ea : Nat.even (length a) = true) by (rewrite La; apply even_pow).
  assert (El : l = a ++ b) by (symmetry; apply firstn_skipn).
  assert (Ln : length (next a) = 2 ^ h) by (pose proof (next_length a) as K; rewrite Ea, La in K; cbn [Nat.pow] in K; lia).
  assert (Lb : 1 <= length b) by (subst b; rewrite skipn_length; lia).
  assert (Lnb : 1 <= length (next b)) by (pose proof (next_length b); lia).
  rewrite El. rewrite even_app_next, even_app_eqp by auto. rewrite app_length, <- Ln. 
  split; [symmetry; rewrite firstn_app, firstn_all, Nat.sub_diag, firstn_O; apply app_nil_r|].
  split; [symmetry; rewrite skipn_app, skipn_all, Nat.sub_diag; reflexivity|]. split; [lia|].
  split; [reflexivity|]. intros x y. now apply even_app_lp.
Qed.
Lemma up : forall h l, 1 <= length l <= 2 ^ S h ->
  root (S h) l d = root h (next l) d /\ (amb (S h) l <-> eqp l = true \/ amb h (next l)) /\
  (forall x y, hp (S h) l x y <-> lp l x y \/ hp h (next l) x y).
Proof using eqb_spec combine d.
  induction h as [|h IH]; intros l Hl.
  - destruct l as [|a [|b [|c l]]]; cbn [length Nat.pow] in Hl; try lia.
    + cbn. split; auto. split; [split; [tauto|intros [K|K]; [discriminate|tauto]]|]. intros; tauto.
    + cbn. split; auto. split.
      * rewrite orb_false_r, eqb_spec. tauto.
      * intros; tauto.
  - rewrite (root_S (S h) l), (root_S h (next l)), (amb_S (S h) l), (amb_S h (next l)). setoid_rewrite (hp_S (S h) l). setoid_rewrite (hp_S h (next l)). pose proof (next_length l) as NL. destruct (Nat.leb_spec (length l) (2 ^ S h)) as [K|K].
    + assert (K' : length (next l) <= 2 ^ h).
      { destruct (Nat.even (length l)) eqn:E; cbn [Nat.pow] in K; [lia|]. pose proof (pow_pos h). destruct (Nat.eq_dec (length l) (2 ^ S h)) as [Q|Q]; [rewrite Q, even_pow in E; discriminate|]. cbn [Nat.pow] in Q. lia. }
      destruct (Nat.leb_spec (length (next l)) (2 ^ h)); [|lia]. destruct (IH l) as (I1 & I2 & I3); [lia|].
      split; [now rewrite I1|]. split; [exact I2|]. intros x y. rewrite I3, I1. tauto.
    + destruct (split_next h l K) as (S1 & S2 & S3 & S4 & S5). destruct (Nat.leb_spec (length (next l)) (2 ^ h)); [lia|].
      destruct (IH (firstn (2 ^ S h) l)) as (I1 & I2 & I3); [rewrite firstn_length; pose proof (pow_pos (S h)); lia|].
      destruct (IH (skipn (2 ^ S h) l)) as (J1 & J2 & J3); [rewrite skipn_length; cbn [Nat.pow] in *; lia|].
      rewrite S1 in I1, I2, I3. rewrite S2 in J1, J2, J3. split; [now rewrite I1, J1|]. split.
      * rewrite I2, J2, I1, J1, S4, orb_true_iff. tauto.
      * intros x y. rewrite I3, J3, I1, J1, S5. tauto.
Qed.
Lemma siblings_amb : forall h l, 1 <= length l <= 2 ^ h -> (siblings l <-> amb h l).
Proof using eqb_spec combine d.
  induction h as [|h IH]; intros l Hl.
  - destruct l as [|a [|b l]]; cbn in Hl; try lia. split; [|intros []]. intro K. apply siblings_step in K as [K|[K _]]; [discriminate|cbn in K; lia].
  - destruct (up h l Hl) as (_ & U & _). rewrite U, siblings_step. pose proof (next_length l) as NL.
    destruct (Nat.le_gt_cases 2 (length l)) as [H2|H2].
    + rewrite IH; [tauto|]. destruct (next_shorter l H2). split; [lia|]. cbn [Nat.pow] in Hl. destruct (Nat.even (length l)) eqn:E; [lia|].
      destruct (Nat.eq_dec (length l) (2 ^ S h)) as [Q|Q]; [rewrite Q, even_pow in E; discriminate|]. cbn [Nat.pow] in Q. lia.
    + destruct l as [|a [|b l]]; cbn [length] in *; try lia. split; [intros [K|[K _]]; [discriminate|lia]|]. intros [K|K]; [discriminate|].
      exfalso. cbn [next_level] in K. clear - K. assert (G : forall h z, ~ amb h [z]); [|eapply G; exact K].
      clear. induction h as [|h IH]; intros z H; [exact H|]. cbn [amb length] in H. pose proof (pow_pos h). destruct (Nat.leb_spec 1 (2 ^ h)); [now apply IH in H|lia].
Qed.
Lemma lp_hashed : forall l x y, 2 <= length l -> lp l x y -> hashed combine l x y.
Proof.
  intros l x y H2 H.
  assert (K : (exists p q, l = p ++ x :: y :: q /\ Nat.Even (length p)) \/ (exists p, l = p ++ [x] /\ x = y /\ Nat.Even (length p))).
  { clear H2. induction l as [|a|a b l IH] using list_ind2; [destruct H| |].
    - destruct H as [-> ->]. right. exists []. repeat split; auto. now exists 0.
    - destruct H as [[-> ->]|H]; [left; exists [], l; split; auto; now exists 0|].
      destruct (IH H) as [(p & q & -> & m & E)|(p & -> & -> & m & E)].
      + left. exists (a :: b :: p), q. split; auto. exists (S m). cbn. lia.
      + right. exists (a :: b :: p). repeat split; auto. exists (S m). cbn. lia. }
  destruct K as [(p & q & -> & E)|(p & -> & -> & E)]; [now apply hashed_here|]. apply hashed_last; auto. rewrite app_length in H2. cbn in H2. lia.
Qed.
Lemma hp_hashed : forall h l x y, 1 <= length l <= 2 ^ h -> (h = 0 \/ 2 ^ (h - 1) < length l) -> hp h l x y -> hashed combine l x y.
Proof using eqb_spec combine d.
  induction h as [|h IH]; intros l x y Hl Hm H; [destruct H|]. destruct (up h l Hl) as (_ & _ & U). apply U in H.
  replace (S h - 1) with h in Hm by lia. destruct Hm as [|Hm]; [discriminate|]. pose proof (pow_pos h). pose proof (next_length l) as NL.
  destruct H as [H|H]; [apply lp_hashed; auto; lia|]. apply hashed_above; [lia|]. apply IH; auto.
  - split; [lia|]. cbn [Nat.pow] in Hl. destruct (Nat.even (length l)) eqn:E; [lia|].
    destruct (Nat.eq_dec (length l) (2 ^ S h)) as [Q|Q]; [rewrite Q, even_pow in E; discriminate|]. cbn [Nat.pow] in Q. lia.
  - destruct h as [|h]; [now left|right]. cbn [Nat.pow] in Hm. replace (S h - 1) with h by lia. destruct (Nat.even (length l)); lia.
Qed.
Lemma root_rec_spec : forall h l, 1 <= length l <= 2 ^ h -> (h = 0 \/ 2 ^ (h - 1) < length l) -> merkle_root combine l (root h l d).
Proof using eqb_spec combine d.
  induction h as [|h IH]; intros l Hl Hm.
  - destruct l as [|a [|b l]]; cbn in Hl; try lia. constructor.
  - destruct (up h l Hl) as (U & _ & _). rewrite U. replace (S h - 1) with h in Hm by lia. destruct Hm as [|Hm]; [discriminate|]. pose proof (pow_pos h). pose proof (next_length l) as NL.
    apply root_up; [lia|]. apply IH.
    + split; [lia|]. cbn [Nat.pow] in Hl. destruct (Nat.even (length l)) eqn:E; [lia|].
      destruct (Nat.eq_dec (length l) (2 ^ S h)) as [Q|Q]; [rewrite Q, even_pow in E; discriminate|]. cbn [Nat.pow] in Q. lia.
    + destruct h as [|h]; [now left|right]. cbn [Nat.pow] in Hm. replace (S h - 1) with h by lia. destruct (Nat.even (length l)); lia.
Qed.

(** ** binding *)
Lemma T_dec : forall a b : T, a = b \/ a <> b.
Proof using eqb_spec combine d.
  intros a b. destruct (eqb a b) eqn:E; [left; now apply eqb_spec|right]. intro K. apply eqb_spec in K. congruence.
Qed.
Lemma next_inj : forall A B, length A = length B \/ (eqp A = false /\ eqp B = false) -> next A = next B ->
  A = B \/ exists a b c e, lp A a b /\ lp B c e /\ (a, b) <> (c, e) /\ combine a b = combine c e.
Proof using eqb_spec combine d.
  assert (D : forall a b c e : T, (a = c /\ b = e) \/ (a, b) <> (c, e)).
  { intros. destruct (T_dec a c) as [->|]; [|right; congruence]. destruct (T_dec b e) as [->|]; [now left|right; congruence]. }
  induction A as [|x|x x' A IH] using list_ind2; intros B He H.
  - destruct B as [|? [|? ?]]; try discriminate. now left.
  - destruct B as [|y [|y' B]]; try discriminate; cbn [next_level] in H; injection H as H1.
    + destruct (D x x y y) as [[-> _]|N]; [now left|]. right. exists x, x, y, y. cbn. auto.
    + destruct (next B) eqn:EB; [|discriminate]. destruct (D x x y y') as [[<- <-]|N].
      * destruct He as [He|[_ He]]; [cbn in He; lia|]. cbn [equal_pair] in He. apply orb_false_iff in He as [He _].
        assert (eqb x x = true) by now apply eqb_spec. congruence.
      * right. exists x, x, y, y'. cbn. auto.
  - destruct B as [|y [|y' B]]; try discriminate; cbn [next_level] in H; injection H as H1 H2.
    + destruct (D x x' y y) as [[-> ->]|N].
      * destruct He as [He|[He _]]; [cbn in He; lia|]. cbn [equal_pair] in He. apply orb_false_iff in He as [He _].
        assert (eqb y y = true) by now apply eqb_spec. congruence.
      * right. exists x, x', y, y. cbn. auto.
    + destruct (D x x' y y') as [[-> ->]|N]; [|right; exists x, x', y, y'; cbn; auto].
      destruct (IH B) as [->|(a & b & c & e & K1 & K2 & K3)]; auto.
      * destruct He as [He|[He He']]; [left; cbn in He; lia|right]. cbn [equal_pair] in *. apply orb_false_iff in He as [_ ?]. apply orb_false_iff in He' as [_ ?]. auto.
      * right. exists a, b, c, e. cbn. auto.
Qed.
Lemma length_one_next : forall l r, merkle_root combine l r -> 1 <= length l.
Proof. intros l r H. inv H; cbn; lia. Qed.
Lemma level_up_S : forall k l, level_up combine (S k) l = next (level_up combine k l).
Proof. induction k; intro l; auto. change (level_up combine (S (S k)) l) with (level_up combine (S k) (next l)). now rewrite IHk. Qed.
(** the levels of a tree *)
Lemma levels : forall l r, merkle_root combine l r -> exists h, level_up combine h l = [r] /\
  forall j, j < h -> 2 <= length (level_up combine j l).
Proof.
  intros l r H. induction H as [x|l r H2 H (h & I1 & I2)].
  - exists 0. split; auto. lia.
  - exists (S h). split; auto. intros [|j] Hj; auto. apply (I2 j). lia.
Qed.
Lemma hashed_level : forall j l x y, (forall i, i <= j -> 2 <= length (level_up combine i l)) -> lp (level_up combine j l) x y -> hashed combine l x y.
Proof.
  induction j as [|j IH]; intros l x y Hl H.
  - apply lp_hashed; auto. apply (Hl 0). lia.
  - apply hashed_above; [apply (Hl 0); lia|]. apply IH; auto. intros i Hi. apply (Hl (S i)). lia.
Qed.
Lemma eqp_level : forall j l, (forall i, i < j -> 2 <= length (level_up combine i l)) -> eqp (level_up combine j l) = true -> siblings l.
Proof using eqb_spec combine d.
  induction j as [|j IH]; intros l Hl H; apply siblings_step; [now left|]. right. split; [apply (Hl 0); lia|].
  apply IH; auto. intros i Hi. apply (Hl (S i)). lia.
Qed.
Lemma same_length_levels : forall k l1 l2, length l1 = length l2 -> length (level_up combine k l1) = length (level_up combine k l2).
Proof.
  induction k as [|k IH]; intros l1 l2 E; auto. apply IH. pose proof (next_length l1). pose proof (next_length l2). rewrite E in *. lia.
Qed.
Lemma descend : forall h1 h2 l1 l2 r, h1 <= h2 -> level_up combine h1 l1 = [r] -> level_up combine h2 l2 = [r] ->
  (forall j, j < h1 -> 2 <= length (level_up combine j l1)) -> (forall j, j < h2 -> 2 <= length (level_up combine j l2)) ->
  (h1 = h2 /\ length l1 = length l2) \/ (~ siblings l1 /\ ~ siblings l2) ->
  level_up combine (h2 - h1) l2 = l1 \/ hash_collision combine l1 l2.
Proof using eqb_spec combine d.
  intros h1 h2 l1 l2 r Hle E1 E2 L1 L2 Hs.
  assert (K : forall j, j <= h1 -> level_up combine (h1 - j) l1 = level_up combine (h2 - j) l2 \/ hash_collision combine l1 l2).
  { induction j as [|j IH]; intro Hj.
    - rewrite !Nat.sub_0_r. left. congruence.
    - destruct IH as [IH|IH]; [lia| |now right].
      replace (h1 - j) with (S (h1 - S j)) in IH by lia. replace (h2 - j) with (S (h2 - S j)) in IH by lia. rewrite !level_up_S in IH.
      destruct (next_inj (level_up combine (h1 - S j) l1) (level_up combine (h2 - S j) l2)) as [K|(a & b & c & e & K1 & K2 & K3 & K4)]; auto.
      + destruct Hs as [[-> Hs]|[S1 S2]]; [left; now apply same_length_levels|right]. split.
        * apply not_true_is_false. intro Q. apply S1. eapply eqp_level; [|exact Q]. intros i Hi. apply L1. lia.
        * apply not_true_is_false. intro Q. apply S2. eapply eqp_level; [|exact Q]. intros i Hi. apply L2. lia.
      + right. exists a, b, c, e. repeat split; auto; (eapply hashed_level; [|eassumption]); intros i Hi; [apply L1|apply L2]; lia. }
  destruct (K h1) as [Q|Q]; auto. rewrite Nat.sub_diag in Q. left. now symmetry.
Qed.
Lemma same_height : forall l1 l2 h1 h2 r1 r2, length l1 = length l2 -> level_up combine h1 l1 = [r1] -> level_up combine h2 l2 = [r2] ->
  (forall j, j < h1 -> 2 <= length (level_up combine j l1)) -> (forall j, j < h2 -> 2 <= length (level_up combine j l2)) -> h1 = h2.
Proof.
  intros l1 l2 h1 h2 r1 r2 E E1 E2 L1 L2. destruct (Nat.lt_trichotomy h1 h2) as [K|[K|K]]; auto.
  - specialize (L2 h1 K). rewrite <- (same_length_levels h1 _ _ E), E1 in L2. cbn in L2. lia.
  - specialize (L1 h2 K). rewrite (same_length_levels h2 _ _ E), E2 in L1. cbn in L1. lia.
Qed.

(** ** streaming *)
Definition coll (k : nat) (l : list T) : Prop := exists x y z w, hp k l x y /\ hp k l z w /\ (x, y) <> (z, w) /\ combine x y = combine z w.
Lemma partial_tree : forall k a b, length a = 2 ^ k -> 1 <= length b < 2 ^ k -> root k a d = root k b d ->
  amb k a \/ exists x y z w, hp k a x y /\ hp k b z w /\ (x, y) <> (z, w) /\ combine x y = combine z w.
Proof using eqb_spec combine d.
  induction k as [|k IH]; intros a b La Lb H; [cbn in Lb; lia|]. rewrite !root_S in H. rewrite amb_S. setoid_rewrite hp_S.
  pose proof (pow_pos k). cbn [Nat.pow] in La, Lb. destruct (Nat.leb_spec (length a) (2 ^ k)); [lia|].
  set (a1 := firstn (2 ^ k) a) in *. set (a2 := skipn (2 ^ k) a) in *.
  assert (L1 : length a1 = 2 ^ k) by (apply firstn_length_le; lia). assert (L2 : length a2 = 2 ^ k) by (unfold a2; rewrite skipn_length; lia).
  destruct (Nat.leb_spec (length b) (2 ^ k)).
  - destruct (T_dec (root k a1 d) (root k b d)) as [Q1|Q1]; [destruct (T_dec (root k a2 d) (root k b d)) as [Q2|Q2]|].
    + left. left. congruence.
    + right. exists (root k a1 d), (root k a2 d), (root k b d), (root k b d). repeat split; auto. congruence.
    + right. exists (root k a1 d), (root k a2 d), (root k b d), (root k b d). repeat split; auto. congruence.
  - set (b1 := firstn (2 ^ k) b) in *. set (b2 := skipn (2 ^ k) b) in *.
    assert (M2 : length b2 = length b - 2 ^ k) by (unfold b2; now rewrite skipn_length).
    destruct (T_dec (root k a1 d) (root k b1 d)) as [Q1|Q1]; [destruct (T_dec (root k a2 d) (root k b2 d)) as [Q2|Q2]|].
    + destruct (IH a2 b2 L2 ltac:(lia) Q2) as [K|(x & y & z & w & K1 & K2 & K3)]; [left; auto|right]. exists x, y, z, w. tauto.
    + right. exists (root k a1 d), (root k a2 d), (root k b1 d), (root k b2 d). repeat split; auto. congruence.
    + right. exists (root k a1 d), (root k a2 d), (root k b1 d), (root k b2 d). repeat split; auto. congruence.
Qed.
Definition perfect (k : nat) (c : list T) (x : T) : Prop := length c = 2 ^ k /\ x = root k c d /\ ~ amb k c.
Fixpoint Rep (st : list (N * T)) (l : list T) : Prop :=
  match st with
  | [] => l = []
  | e :: st' => exists pre c, l = pre ++ c /\ perfect (N.to_nat (fst e)) c (snd e) /\ Rep st' pre
  end.
Definition lv (st : list (N * T)) : list nat := map (fun e => N.to_nat (fst e)) st.
Fixpoint bits (k : nat) (p : positive) : list nat :=
  match p with xI p' => k :: bits (S k) p' | xO p' => bits (S k) p' | xH => [k] end.
Definition bitsN (k : nat) (n : N) : list nat := match n with N0 => [] | Npos p => bits k p end.
Lemma Rep_length : forall p k st l, Rep st l -> lv st = bits k p -> length l = Pos.to_nat p * 2 ^ k.
Proof.
  induction p as [p IH|p IH|]; intros k st l H E; cbn [bits] in E.
  - destruct st as [|e st]; [discriminate|]. injection E as Ek E. destruct H as (pre & c & -> & (Lc & _) & H). rewrite app_length, Lc, (IH (S k) st pre H E), Ek.
    rewrite Pos2Nat.inj_xI. cbn [Nat.pow]. lia.
  - rewrite (IH (S k) st l H E), Pos2Nat.inj_xO. cbn [Nat.pow]. lia.
  - destruct st as [|e [|? ?]]; try discriminate. injection E as Ek. destruct H as (pre & c & -> & (Lc & _) & H). cbn in H. subst. cbn. rewrite Lc, Pos2Nat.inj_1. lia.
Qed.
Lemma firstn_app_exact : forall (a b : list T), firstn (length a) (a ++ b) = a.
Proof. intros. rewrite firstn_app, firstn_all, Nat.sub_diag, firstn_O. apply app_nil_r. Qed.
Lemma skipn_app_exact : forall (a b : list T), skipn (length a) (a ++ b) = b.
Proof. intros. rewrite skipn_app, skipn_all, Nat.sub_diag. reflexivity. Qed.
Lemma perfect_merge : forall k a b x y, perfect k a x -> perfect k b y ->
  (x = y -> amb (S k) (a ++ b)) /\ (x <> y -> perfect (S k) (a ++ b) (combine x y)).
Proof.
  intros k a b x y (La & -> & Na) (Lb & -> & Nb). pose proof (pow_pos k).
  assert (L : (length (a ++ b) <=? 2 ^ k) = false) by (apply Nat.leb_gt; rewrite app_length; lia).
  assert (F : firstn (2 ^ k) (a ++ b) = a) by (rewrite <- La; apply firstn_app_exact).
  assert (G : skipn (2 ^ k) (a ++ b) = b) by (rewrite <- La; apply skipn_app_exact).
  unfold perfect. rewrite amb_S, root_S, L, F, G. split; [tauto|]. intro N. split; [rewrite app_length; cbn [Nat.pow]; lia|]. split; auto. tauto.
Qed.
(** equal siblings inside an aligned complete subtree *)
Lemma amb_inside : forall j c pre post m, length c = 2 ^ j -> length pre = m * 2 ^ j -> amb j c -> siblings (pre ++ c ++ post).
Proof using eqb_spec combine d.
  induction j as [|j IH]; intros c pre post m Lc Lp H; [destruct H|]. pose proof (pow_pos j).
  destruct (up j c) as (_ & U & _); [cbn [Nat.pow] in *; lia|]. apply U in H.
  assert (Ep : Nat.even (length pre) = true) by (apply Nat.even_spec; exists (m * 2 ^ j); rewrite Lp; cbn [Nat.pow]; lia).
  assert (Ec : Nat.even (length c) = true) by (rewrite Lc; apply even_pow).
  apply siblings_step. destruct H as [H|H].
  - left. rewrite even_app_eqp, even_app_eqp, H by auto. rewrite orb_true_r. reflexivity.
  - right. split; [rewrite !app_length; cbn [Nat.pow] in *; lia|]. rewrite !even_app_next by auto. 
    pose proof (next_length c) as N1. pose proof (next_length pre) as N2. rewrite Ec, Lc in N1. rewrite Ep, Lp in N2. cbn [Nat.pow] in *.
    apply (IH _ _ _ m); auto; lia.
Qed.
Lemma merge_law : forall k x y c c' st, perfect (N.to_nat k) c' y -> perfect (N.to_nat k) c x ->
  (merge_top eqb combine ((k, x) :: (k, y) :: st) = Ret None /\ amb (S (N.to_nat k)) (c' ++ c)) \/
  (merge_top eqb combine ((k, x) :: (k, y) :: st) = Ret (Some ((N.succ k, combine y x) :: st)) /\ perfect (S (N.to_nat k)) (c' ++ c) (combine y x)).
Proof using eqb_spec combine d.
  intros k x y c c' st H' H. destruct (perfect_merge _ _ _ _ _ H' H) as [M1 M2]. cbn [merge_top fst snd]. rewrite N.eqb_refl, <- N.add_1_r.
  destruct (eqb y x) eqn:E; [left; split; auto; apply M1; now apply eqb_spec|right; split; auto].
  apply M2. intro K. apply eqb_spec in K. congruence.
Qed.
Lemma carry_law : forall p k x c st pre, perfect (N.to_nat k) c x -> Rep st pre -> lv st = bits (N.to_nat k) p ->
  (carry eqb combine p ((k, x) :: st) = Ret None /\ forall post, siblings (pre ++ c ++ post)) \/
  (exists st', carry eqb combine p ((k, x) :: st) = Ret (Some st') /\ Rep st' (pre ++ c) /\ lv st' = bits (N.to_nat k) (Pos.succ p)).
Proof using eqb_spec combine d.
  induction p as [p IH|p IH|]; intros k x c st pre Hc HR E.
  - cbn [bits] in E. destruct st as [|[k' y] st]; [discriminate|]. injection E as Ek E. cbn [fst snd] in Ek. apply N2Nat.inj in Ek as ->. destruct HR as (pre' & c' & -> & Hc' & HR). cbn [fst snd] in Hc'.
    cbn [carry]. destruct (merge_law k x y c c' st Hc' Hc) as [[M A]|[M A]].
    + left. rewrite M. split; auto. intro post. rewrite <- !app_assoc. rewrite (app_assoc c' c post).
      eapply (amb_inside (S (N.to_nat k)) _ pre' post (Pos.to_nat p)); auto.
      * destruct Hc' as (L' & _), Hc as (L & _). rewrite app_length, L, L'. cbn [Nat.pow]. lia.
      * now apply (Rep_length p _ st).
    + rewrite M. cbn [rbind]. rewrite <- N2Nat.inj_succ in A, E. destruct (IH (N.succ k) (combine y x) (c' ++ c) st pre' A HR E) as [[I1 I2]|(st' & I1 & I2 & I3)].
      * left. split; auto. intro post. specialize (I2 post). rewrite <- !app_assoc in *. exact I2.
      * right. exists st'. split; auto. rewrite <- app_assoc. split; auto. cbn [Pos.succ bits]. now rewrite <- N2Nat.inj_succ.
  - right. exists ((k, x) :: st). cbn [carry bits Pos.succ]. split; auto. split; [exists pre, c; auto|]. cbn [lv map fst]. f_equal. exact E.
  - cbn [bits] in E. destruct st as [|[k' y] [|? ?]]; try discriminate. injection E as Ek. cbn [fst] in Ek. apply N2Nat.inj in Ek as ->. destruct HR as (pre' & c' & -> & Hc' & HR). cbn in HR. subst pre'. cbn [snd fst app] in *.
    cbn [carry]. destruct (merge_law k x y c c' [] Hc' Hc) as [[M A]|[M A]].
    + left. split; auto. intro post. rewrite app_assoc.
      eapply (amb_inside (S (N.to_nat k)) _ [] post 0); auto. destruct Hc' as (L' & _), Hc as (L & _). rewrite app_length, L, L'. cbn [Nat.pow]. lia.
    + right. eexists. split; [exact M|]. split.
      * exists [], (c' ++ c). cbn [fst snd]. rewrite N2Nat.inj_succ. cbn. auto.
      * cbn [lv map fst bits Pos.succ]. now rewrite N2Nat.inj_succ.
Qed.
Lemma perfect_leaf : forall x, perfect 0 [x] x.
Proof. intro x. repeat split; auto. Qed.
Lemma push_law : forall leaves n st pre, Rep st pre -> lv st = bitsN 0 n ->
  (push_leaves eqb combine n leaves st = Ret None /\ siblings (pre ++ leaves)) \/
  (exists st', push_leaves eqb combine n leaves st = Ret (Some st') /\ Rep st' (pre ++ leaves) /\ lv st' = bitsN 0 (n + lenN leaves)).
Proof using eqb_spec combine d.
  induction leaves as [|x leaves IH]; intros n st pre HR E.
  - right. exists st. rewrite app_nil_r. cbn [push_leaves]. rewrite N.add_0_r. auto.
  - cbn [push_leaves].
    assert (K : ((match n with 0%N => Ret (Some ((0%N, x) :: st)) | Npos p => carry eqb combine p ((0%N, x) :: st) end) = Ret None /\ forall post, siblings (pre ++ [x] ++ post)) \/
      exists st', (match n with 0%N => Ret (Some ((0%N, x) :: st)) | Npos p => carry eqb combine p ((0%N, x) :: st) end) = Ret (Some st') /\ Rep st' (pre ++ [x]) /\ lv st' = bitsN 0 (n + 1)).
    { destruct n as [|p].
      - right. destruct st; [|discriminate]. cbn in HR. subst. eexists. split; [reflexivity|]. split; [|reflexivity]. exists [], [x]. split; auto. split; [apply perfect_leaf|reflexivity].
      - destruct (carry_law p 0 x [x] st pre (perfect_leaf x) HR E) as [K|(st' & K1 & K2 & K3)]; auto. right. exists st'. rewrite N.add_1_r. auto. }
    destruct K as [[-> K]|(st' & -> & K2 & K3)]; cbn [rbind]; [left; split; auto; apply (K leaves)|].
    destruct (IH (n + 1)%N st' (pre ++ [x]) K2 K3) as [[I1 I2]|(st2 & I1 & I2 & I3)]; rewrite <- app_assoc in I2; cbn [app] in I2; [now left|].
    right. exists st2. split; auto. split; auto. rewrite I3. f_equal. unfold lenN. cbn [length]. lia.
Qed.
Fixpoint increasing (lo : nat) (l : list nat) : Prop := match l with [] => True | k :: l' => lo <= k /\ increasing (S k) l' end.
Lemma bits_incr : forall p k lo, lo <= k -> increasing lo (bits k p).
Proof. induction p; intros k lo H; cbn [bits increasing]; auto. Qed.
Lemma lift_law : forall t k x c, 1 <= length c <= 2 ^ k -> x = root k c d ->
  snd (lift combine t (N.of_nat k, x)) = root (k + t) c d.
Proof.
  induction t as [|t IH]; intros k x c Hc ->; cbn [lift fst snd]; [now rewrite Nat.add_0_r|].
  replace (N.of_nat k + 1)%N with (N.of_nat (S k)) by lia. rewrite (IH (S k) _ c).
  - f_equal. lia.
  - cbn [Nat.pow]. lia.
  - rewrite root_S. destruct (Nat.leb_spec (length c) (2 ^ k)); [auto|lia].
Qed.
Lemma amb_lift : forall t k c, 1 <= length c <= 2 ^ k -> amb (k + t) c -> amb k c.
Proof.
  induction t as [|t IH]; intros k c Hc H; [now rewrite Nat.add_0_r in H|]. rewrite Nat.add_succ_r, amb_S in H.
  assert (2 ^ k <= 2 ^ (k + t)) by (apply Nat.pow_le_mono_r; lia). destruct (Nat.leb_spec (length c) (2 ^ (k + t))); [auto|lia].
Qed.
Lemma hp_lift : forall t k c x y, 1 <= length c <= 2 ^ k -> hp k c x y -> hp (k + t) c x y.
Proof.
  induction t as [|t IH]; intros k c x y Hc H; [now rewrite Nat.add_0_r|]. rewrite Nat.add_succ_r, hp_S.
  assert (2 ^ k <= 2 ^ (k + t)) by (apply Nat.pow_le_mono_r; lia). destruct (Nat.leb_spec (length c) (2 ^ (k + t))); [auto|lia].
Qed.
Lemma collapse_law : forall st k x c pre, Rep st pre -> increasing k (lv st) -> 1 <= length c <= 2 ^ k -> x = root k c d ->
  (amb k c -> coll k c) -> (st = [] -> k = 0 \/ 2 ^ (k - 1) < length c) -> (forall e st', st = e :: st' -> length c < 2 ^ N.to_nat (fst e)) ->
  exists K, collapse combine (N.of_nat k, x) st = Ret (root K (pre ++ c) d) /\ 1 <= length (pre ++ c) <= 2 ^ K /\
    (K = 0 \/ 2 ^ (K - 1) < length (pre ++ c)) /\ (amb K (pre ++ c) -> coll K (pre ++ c)).
Proof using eqb_spec combine d.
  induction st as [|[k' y] st IH]; intros k x c pre HR HI Hc Hx Ha Hm Hlt.
  - cbn in HR. subst pre. exists k. cbn. subst x. auto.
  - destruct HR as (pre' & a & -> & (La & Hy & Na) & HR). destruct HI as [Hk HI]. cbn [fst snd] in *. specialize (Hlt _ _ eq_refl). cbn [fst] in Hlt.
    cbn [collapse fst]. destruct (N.ltb_spec k' (N.of_nat k)); [lia|]. set (n := N.to_nat k') in *.
    replace (N.to_nat (k' - N.of_nat k)) with (n - k) by lia. rewrite (lift_law (n - k) k x c Hc Hx). replace (k + (n - k)) with n by lia.
    assert (P : 2 ^ k <= 2 ^ n) by (apply Nat.pow_le_mono_r; lia). pose proof (pow_pos n).
    assert (L : (length (a ++ c) <=? 2 ^ n) = false) by (apply Nat.leb_gt; rewrite app_length; lia).
    assert (F : firstn (2 ^ n) (a ++ c) = a) by (rewrite <- La; apply firstn_app_exact).
    assert (G : skipn (2 ^ n) (a ++ c) = c) by (rewrite <- La; apply skipn_app_exact).
    replace (k' + 1)%N with (N.of_nat (S n)) by lia. rewrite <- app_assoc. apply IH; auto.
    + rewrite app_length. cbn [Nat.pow]. lia.
    + rewrite root_S, L, F, G, Hy. reflexivity.
    + rewrite amb_S, L, F, G. intros [K|[K|K]].
      * destruct (partial_tree n a c La) as [Q|(u & v & z & w & Q1 & Q2 & Q3)]; [lia|auto|tauto|].
        exists u, v, z, w. rewrite !hp_S, L, F, G. tauto.
      * tauto.
      * replace n with (k + (n - k)) in K by lia. apply amb_lift in K; auto. destruct (Ha K) as (u & v & z & w & Q1 & Q2 & Q3).
        apply (hp_lift (n - k)) in Q1, Q2; auto. replace (k + (n - k)) with n in * by lia. exists u, v, z, w. rewrite !hp_S, L, F, G. tauto.
    + intros _. right. replace (S n - 1) with n by lia. rewrite app_length. lia.
    + intros [k2 y2] st' ->. cbn [fst]. destruct HI as [HI _]. cbn [fst] in HI. assert (2 ^ S n <= 2 ^ N.to_nat k2) by (apply Nat.pow_le_mono_r; lia). rewrite app_length. cbn [Nat.pow] in *. lia.
Qed.
Lemma streaming_law : forall l,
  (calculate_root eqb combine l = Ret None /\ (l = [] \/ siblings l)) \/
  (exists r, calculate_root eqb combine l = Ret (Some r) /\ merkle_root combine l r /\ (siblings l -> hash_collision combine l l)).
Proof using eqb_spec combine d.
  intro l. unfold calculate_root. destruct (push_law l 0 [] [] eq_refl eq_refl) as [[-> P]|(st & -> & P1 & P2)]; cbn [rbind]; [left; auto|].
  cbn [app] in P1. destruct st as [|[k x] st]; [left; cbn in P1; auto|]. right.
  destruct P1 as (pre & c & E & (Lc & Hx & Na) & HR). cbn [fst snd] in *. rewrite N.add_0_l in P2.
  assert (I : increasing 0 (lv ((k, x) :: st))) by (rewrite P2; destruct (lenN l); cbn [bitsN]; [exact Logic.I|now apply bits_incr]).
  cbn [lv map fst increasing] in I. destruct I as [_ I].
  pose proof (pow_pos (N.to_nat k)).
  destruct (collapse_law st (N.to_nat k) x c pre) as (K & C1 & C2 & C3 & C4); auto.
  - destruct st as [|e st]; [exact Logic.I|]. cbn [map increasing] in *. split; [lia|tauto].
  - lia.
  - tauto.
  - intros _. rewrite Lc. destruct (N.to_nat k); [now left|right]. replace (S n - 1) with n by lia. cbn [Nat.pow] in *. pose proof (pow_pos n). lia.
  - intros e st' ->. cbn [map increasing] in I. rewrite Lc. apply Nat.pow_lt_mono_r; lia.
  - rewrite N2Nat.id in C1. rewrite <- E in *. exists (root K l d). rewrite C1. split; auto. split; [now apply root_rec_spec|].
    intro Q. apply (siblings_amb K l C2) in Q. destruct (C4 Q) as (u & v & z & w & Q1 & Q2 & Q3). exists u, v, z, w. split; [eapply hp_hashed; eauto|]. split; [eapply hp_hashed; eauto|]. tauto.
Qed.
End Merkle.
