(** Laws of push decoders: every decoder state denotes a prefix parser, and [push]/[fin]/[lim]
    agree with it. *)
From Verif Require Import Base MDec.
Local Open Scope N_scope.

(** [Boom]: decoding panics (in [end]) once these bytes have been read. *)
Inductive outcome (A E : Type) := Done (v : A) (rest : bytes) | More (e : E) | Fail (e : E) | Boom.
Arguments Done {A E} _ _.
Arguments More {A E} _.
Arguments Fail {A E} _.
Arguments Boom {A E}.

Definition of_res {A E} (x : result A E) (rest : bytes) : outcome A E :=
  match x with Ok v => Done v rest | Err e => Fail e end.
Definition of_fin {A E} (x : rust (result A E)) (rest : bytes) : outcome A E :=
  match x with Ret y => of_res y rest | Panic => Boom end.

Record lawful {A E} (D : decoder A E) (good : st D -> Prop) (den : st D -> bytes -> outcome A E)
  : Prop := {
  law_init : good (init D);
  law_push : forall s l, good s ->
    match push D s l with
    | (s', r, NeedsMore) =>
        good s' /\ (exists p, l = p ++ r /\ (l <> [] -> p <> [])) /\
        forall t, den s (l ++ t) = den s' (r ++ t)
    | (s', r, Ready) =>
        (exists p, l = p ++ r) /\ forall t, den s (l ++ t) = of_fin (fin D s') (r ++ t)
    | (s', r, PErr e) => (exists p, l = p ++ r) /\ forall t, den s (l ++ t) = Fail e
    | (_, _, PPanic) => forall t, den s (l ++ t) = Boom
    end;
  law_fin : forall s, good s ->
    match den s [] with
    | Done v _ => fin D s = Ret (Ok v)
    | More e | Fail e => fin D s = Ret (Err e)
    | Boom => fin D s = Panic
    end;
  law_done : forall s l v r, good s -> den s l = Done v r ->
    exists p, l = p ++ r /\ forall t, den s (p ++ t) = Done v t;
  law_fail : forall s l e t, good s -> den s l = Fail e -> den s (l ++ t) = Fail e;
  law_boom : forall s l t, good s -> den s l = Boom -> den s (l ++ t) = Boom;
  (** [lim] never asks for more than is needed ... *)
  law_lim : forall s l v r, good s -> den s l = Done v r -> lim D s + lenN r <= lenN l;
  (** ... and asks for something as long as something is needed *)
  law_lim0 : forall s, good s -> lim D s = 0 -> forall t, den s t = of_fin (fin D s) t }.

Lemma takeN_dropN : forall {A} n (l : list A), takeN n l ++ dropN n l = l.
Proof. intros. apply firstn_skipn. Qed.
Lemma lenN_takeN : forall {A} n (l : list A), lenN (takeN n l) = N.min n (lenN l).
Proof. intros. unfold lenN, takeN. rewrite firstn_length. lia. Qed.
Lemma lenN_dropN : forall {A} n (l : list A), lenN (dropN n l) = lenN l - n.
Proof. intros. unfold lenN, dropN. rewrite skipn_length. lia. Qed.
Lemma takeN_all : forall {A} n (l : list A), lenN l <= n -> takeN n l = l.
Proof. intros. unfold lenN, takeN in *. apply firstn_all2. lia. Qed.
Lemma dropN_all : forall {A} n (l : list A), lenN l <= n -> dropN n l = [].
Proof. intros. unfold lenN, dropN in *. apply skipn_all2. lia. Qed.
Lemma takeN_app_le : forall {A} n (l t : list A), n <= lenN l -> takeN n (l ++ t) = takeN n l.
Proof.
  intros. unfold takeN, lenN in *. rewrite firstn_app.
  replace (N.to_nat n - length l)%nat with 0%nat by lia. simpl. now rewrite app_nil_r.
Qed.
Lemma dropN_app_le : forall {A} n (l t : list A), n <= lenN l -> dropN n (l ++ t) = dropN n l ++ t.
Proof.
  intros. unfold dropN, lenN in *. rewrite skipn_app.
  replace (N.to_nat n - length l)%nat with 0%nat by lia. simpl. reflexivity.
Qed.
Lemma takeN_app_ge : forall {A} n (l t : list A), lenN l <= n -> takeN n (l ++ t) = l ++ takeN (n - lenN l) t.
Proof.
  intros. unfold takeN, lenN in *. rewrite firstn_app, firstn_all2 by lia.
  f_equal. f_equal. lia.
Qed.
Lemma dropN_app_ge : forall {A} n (l t : list A), lenN l <= n -> dropN n (l ++ t) = dropN (n - lenN l) t.
Proof.
  intros. unfold dropN, lenN in *. rewrite skipn_app, skipn_all2 by lia.
  simpl. f_equal. lia.
Qed.
Lemma lenN_nil_inv : forall {A} (l : list A), lenN l = 0 -> l = [].
Proof. intros A [|x l]; auto. unfold lenN. simpl length. lia. Qed.
Lemma takeN_0 : forall {A} (l : list A), takeN 0 l = [].
Proof. reflexivity. Qed.
Lemma dropN_0 : forall {A} (l : list A), dropN 0 l = l.
Proof. reflexivity. Qed.

(** A fixed-width window: shared by arrays, compact sizes, byte vectors. *)
Lemma window_more : forall (s l t : bytes) n,
  lenN s + lenN l <= n ->
  takeN n (s ++ l ++ t) = (s ++ l) ++ takeN (n - lenN s - lenN l) t /\
  dropN n (s ++ l ++ t) = dropN (n - lenN s - lenN l) t.
Proof.
  intros. rewrite app_assoc. rewrite takeN_app_ge, dropN_app_ge by (rewrite lenN_app; lia).
  rewrite lenN_app. now replace (n - (lenN s + lenN l)) with (n - lenN s - lenN l) by lia.
Qed.

(** ** ArrayDecoder *)
Definition array_good (n : N) (s : bytes) : Prop := lenN s < n \/ (n = 0 /\ s = []).
Definition array_den (n : N) (s l : bytes) : outcome bytes eof_err :=
  let w := s ++ l in
  if lenN w <? n then More (n - lenN w) else Done (takeN n w) (dropN n w).

Lemma array_lawful : forall n, lawful (array_dec n) (array_good n) (array_den n).
Proof.
  intro n. constructor; cbn [st init push fin lim array_dec].
  - unfold array_good. destruct (N.eq_dec n 0); [right; auto|left]. unfold lenN; simpl; lia.
  - intros s l G. unfold array_push.
    assert (Hs : lenN s <= n) by (destruct G as [|[-> ->]]; unfold lenN in *; simpl; lia).
    destruct (n <? lenN s) eqn:H0; [apply N.ltb_lt in H0; lia|].
    set (k := N.min (lenN l) (n - lenN s)).
    rewrite lenN_app, lenN_takeN.
    assert (Hk : N.min k (lenN l) = k) by (unfold k; lia). rewrite Hk.
    destruct (lenN s + k <? n) eqn:H1.
    + apply N.ltb_lt in H1. assert (k = lenN l) as E by (unfold k in *; lia).
      rewrite E. rewrite takeN_all, dropN_all by lia. split; [|split].
      * left. rewrite lenN_app. lia.
      * exists l. rewrite app_nil_r. auto.
      * intro t. unfold array_den. simpl. now rewrite app_assoc.
    + apply N.ltb_ge in H1. assert (E : k = n - lenN s) by (unfold k in *; lia). split.
      * exists (takeN k l). now rewrite takeN_dropN.
      * replace (array_fin n (s ++ takeN k l)) with (Ret (Ok (s ++ takeN k l)) : rust (result bytes eof_err)).
        -- intro t. unfold array_den. rewrite !lenN_app.
           replace (lenN s + (lenN l + lenN t) <? n) with false by (symmetry; apply N.ltb_ge; unfold k in *; lia).
           cbn [of_fin of_res]. rewrite takeN_app_ge, dropN_app_ge by lia. rewrite <- E.
           rewrite takeN_app_le, dropN_app_le by (unfold k in *; lia). reflexivity.
        -- unfold array_fin. rewrite lenN_app, lenN_takeN, Hk.
           replace (lenN s + k =? n) with true; auto. symmetry. apply N.eqb_eq. lia.
  - intros s G. unfold array_fin, array_den. rewrite app_nil_r.
    destruct (lenN s =? n) eqn:H.
    + apply N.eqb_eq in H.
      replace (lenN s <? n) with false by (symmetry; apply N.ltb_ge; lia).
      rewrite takeN_all by lia. reflexivity.
    + apply N.eqb_neq in H.
      destruct G as [G|[-> ->]]; [|unfold lenN in H; simpl in H; lia].
      apply N.ltb_lt in G. rewrite G. reflexivity.
  - intros s l v r G H. unfold array_den in H. destruct (lenN (s ++ l) <? n) eqn:H1; inv H.
    apply N.ltb_ge in H1. rewrite lenN_app in H1.
    assert (Hs : lenN s <= n) by (destruct G as [|[-> ->]]; unfold lenN in *; simpl; lia).
    exists (takeN (n - lenN s) l). rewrite dropN_app_ge by lia. rewrite takeN_dropN. split; auto.
    intro t. unfold array_den. rewrite !lenN_app, lenN_takeN.
    replace (lenN s + (N.min (n - lenN s) (lenN l) + lenN t) <? n) with false
      by (symmetry; apply N.ltb_ge; lia).
    rewrite (takeN_app_ge n s (_ ++ _)), dropN_app_ge by lia.
    rewrite takeN_app_le by (rewrite lenN_takeN; lia).
    rewrite dropN_app_le by (rewrite lenN_takeN; lia).
    rewrite (takeN_all (n - lenN s) (takeN _ _)) by (rewrite lenN_takeN; lia).
    rewrite dropN_all by (rewrite lenN_takeN; lia). rewrite takeN_app_ge by lia. reflexivity.
  - intros s l e t G H. unfold array_den in H. destr_if; discriminate.
  - intros s l t G H. unfold array_den in H. destr_if; discriminate.
  - intros s l v r G H. unfold array_den in H. destruct (lenN (s ++ l) <? n) eqn:H1; inv H.
    apply N.ltb_ge in H1. rewrite lenN_app in H1. rewrite lenN_dropN, lenN_app.
    assert (Hs : lenN s <= n) by (destruct G as [|[-> ->]]; unfold lenN in *; simpl; lia). lia.
  - intros s G H. destruct G as [G|[-> ->]]; [lia|].
    intro t. unfold array_den. simpl app.
    replace (lenN t <? 0) with false by (symmetry; apply N.ltb_ge; lia). reflexivity.
Qed.

(** ** CompactSize *)
Definition cs_good (buf : bytes) : Prop :=
  match buf with [] => True | b :: _ => lenN buf < cs_len b end.

Definition cs_den (dv : bytes -> result N cs_err) (buf l : bytes) : outcome N cs_err :=
  match buf ++ l with
  | [] => More (CsEof 1 0)
  | b :: w' =>
      if lenN (b :: w') <? cs_len b then More (CsEof (cs_len b - 1) (lenN w'))
      else of_res (dv (takeN (cs_len b) (b :: w'))) (dropN (cs_len b) (b :: w'))
  end.

Definition cs_incomplete (dv : bytes -> result N cs_err) : Prop :=
  dv [] = Err (CsEof 1 0) /\
  forall b p, lenN (b :: p) < cs_len b -> dv (b :: p) = Err (CsEof (cs_len b - 1) (lenN p)).

Lemma cs_len_bounds : forall b, 1 <= cs_len b <= 9.
Proof. intro b. unfold cs_len. repeat destr_if; lia. Qed.

Lemma cs_decode_incomplete : cs_incomplete cs_decode_u64.
Proof.
  split; [reflexivity|]. intros b p H. rewrite lenN_cons in H. unfold cs_len in *.
  unfold cs_decode_u64, cs_arr.
  destruct (b =? 255). { replace (lenN p =? 8) with false by (symmetry; apply N.eqb_neq; lia). reflexivity. }
  destruct (b =? 254). { replace (lenN p =? 4) with false by (symmetry; apply N.eqb_neq; lia). reflexivity. }
  destruct (b =? 253). { replace (lenN p =? 2) with false by (symmetry; apply N.eqb_neq; lia). reflexivity. }
  lia.
Qed.

Lemma cs_fin_incomplete : forall limit, cs_incomplete (cs_fin limit).
Proof.
  intro limit. destruct cs_decode_incomplete as [H1 H2]. split.
  - reflexivity.
  - intros b p H. unfold cs_fin. now rewrite H2.
Qed.

(** What [cs_push] does on a good buffer. *)
Lemma cs_push_spec : forall buf l, cs_good buf ->
  match cs_push buf l with
  | (buf', r, NeedsMore) => cs_good buf' /\ r = [] /\ buf' = buf ++ l
  | (buf', r, Ready) => l <> [] /\ exists p b q, l = p ++ r /\ p <> [] /\ buf' = buf ++ p /\ buf' = b :: q /\ lenN buf' = cs_len b
  | _ => False
  end.
Proof.
  intros buf l G. unfold cs_push. destruct l as [|x l']; [rewrite app_nil_r; auto|].
  assert (exists b q l1 p1, (match buf with [] => ([x], l') | _ => (buf, x :: l') end) = (b :: q, l1)
     /\ x :: l' = p1 ++ l1 /\ buf ++ p1 = b :: q /\ lenN (b :: q) <= cs_len b /\
     (p1 = [] -> l1 <> [] /\ lenN (b :: q) < cs_len b)) as (b & q & l1 & p1 & E & E1 & E2 & E3 & E4).
  { destruct buf as [|b q].
    - exists x, [], l', [x]. pose proof (cs_len_bounds x). repeat split; auto; try discriminate.
      unfold lenN; simpl; lia.
    - exists b, q, (x :: l'), []. rewrite app_nil_r. cbn [cs_good] in G.
      repeat split; auto; try discriminate; lia. }
  unfold bytes, byte in *. rewrite E. cbn [hd].
  destruct (cs_len b <? lenN (b :: q)) eqn:H0; [apply N.ltb_lt in H0; lia|].
  set (k := N.min (lenN l1) (cs_len b - lenN (b :: q))).
  rewrite lenN_app, lenN_takeN. replace (N.min k (lenN l1)) with k by (unfold k; lia).
  destruct (lenN (b :: q) + k =? cs_len b) eqn:H1.
  - apply N.eqb_eq in H1. split; [discriminate|].
    exists (p1 ++ takeN k l1), b, (q ++ takeN k l1). rewrite <- app_assoc, takeN_dropN, app_assoc, E2.
    repeat split; auto.
    + intro Hn. apply app_eq_nil in Hn as [-> Hn]. destruct (E4 eq_refl) as [Hl Hlt].
      apply (f_equal lenN) in Hn. rewrite lenN_takeN, lenN_nil in Hn. unfold k in *.
      destruct l1; [congruence|]. rewrite (lenN_cons _ n l1) in *. lia.
    + rewrite lenN_app, lenN_takeN. unfold k in *. lia.
  - apply N.eqb_neq in H1. assert (k = lenN l1) as Ek by (unfold k in *; lia).
    rewrite Ek, takeN_all, dropN_all by lia. split; [|split; auto].
    + cbn [app cs_good]. change (lenN ((b :: q) ++ l1) < cs_len b). rewrite lenN_app. unfold k in *. lia.
    + rewrite <- E2, E1, app_assoc. reflexivity.
Qed.

Lemma cs_den_app : forall dv buf l t, cs_den dv buf (l ++ t) = cs_den dv (buf ++ l) t.
Proof. intros. unfold cs_den. now rewrite app_assoc. Qed.

Lemma cs_den_complete : forall dv b q t, lenN (b :: q) = cs_len b ->
  cs_den dv (b :: q) t = of_res (dv (b :: q)) t.
Proof.
  intros dv b q t H. unfold cs_den. cbn [app].
  change (b :: q ++ t) with ((b :: q) ++ t).
  replace (lenN ((b :: q) ++ t) <? cs_len b) with false by (symmetry; apply N.ltb_ge; rewrite lenN_app; lia).
  rewrite takeN_app_le, dropN_app_le by lia.
  rewrite takeN_all, dropN_all by lia. reflexivity.
Qed.

Lemma cs_den_incomplete : forall dv b q, lenN (b :: q) < cs_len b ->
  cs_den dv (b :: q) [] = More (CsEof (cs_len b - 1) (lenN q)).
Proof.
  intros. unfold cs_den. rewrite app_nil_r. apply N.ltb_lt in H. now rewrite H.
Qed.

(** Shape of a completed parse. *)
Lemma cs_den_inv : forall dv buf l,
  match cs_den dv buf l with
  | More _ => True
  | Boom => False
  | o => exists b w', buf ++ l = b :: w' /\ cs_len b <= lenN (b :: w') /\
         o = of_res (dv (takeN (cs_len b) (b :: w'))) (dropN (cs_len b) (b :: w'))
  end.
Proof.
  intros. unfold cs_den. destruct (buf ++ l) as [|b w']; auto.
  destruct (lenN (b :: w') <? cs_len b) eqn:H; auto. apply N.ltb_ge in H.
  destruct (dv _) as [v|e] eqn:Hd; cbn [of_res]; exists b, w'; rewrite Hd; auto.
Qed.

Lemma cs_good_len : forall buf b w, cs_good buf -> forall l, buf ++ l = b :: w -> cs_len b <= lenN (b :: w) ->
  exists q r, b :: w = buf ++ q ++ r /\ l = q ++ r /\ lenN (buf ++ q) = cs_len b /\
     takeN (cs_len b) (b :: w) = buf ++ q /\ dropN (cs_len b) (b :: w) = r /\ q <> [].
Proof.
  intros buf b w G l E H. rewrite <- E in *. rewrite lenN_app in H.
  pose proof (cs_len_bounds b) as Hb.
  assert (lenN buf < cs_len b) as Hlt.
  { destruct buf as [|b' q]; [unfold lenN; simpl; lia|]. inversion E; subst b'. exact G. }
  exists (takeN (cs_len b - lenN buf) l), (dropN (cs_len b - lenN buf) l).
  rewrite takeN_dropN, lenN_app, lenN_takeN.
  rewrite takeN_app_ge, dropN_app_ge by lia. repeat split; auto; try lia.
  intro Hn. apply (f_equal lenN) in Hn. rewrite lenN_takeN, lenN_nil in Hn. lia.
Qed.

Lemma cs_den_prefix : forall dv b q buf t, buf ++ q <> [] -> hd 0 (buf ++ q) = b -> lenN (buf ++ q) = cs_len b ->
  cs_den dv buf (q ++ t) = of_res (dv (buf ++ q)) t.
Proof.
  intros dv b q buf t Hn Hb H. rewrite cs_den_app. destruct (buf ++ q) as [|b' w]; [congruence|].
  cbn in Hb; subst b'. now apply cs_den_complete.
Qed.

Lemma cs_lim_incomplete : forall b q, lenN (b :: q) < cs_len b -> cs_lim (b :: q) = cs_len b - lenN (b :: q).
Proof.
  intros b q H. unfold cs_lim, cs_len in *. repeat destr_if; auto. rewrite lenN_cons in H. lia.
Qed.

Lemma cs_lim_pos : forall buf, cs_good buf -> 0 < cs_lim buf.
Proof.
  intros [|b q] H; [cbn; lia|]. cbn [cs_good] in H. rewrite cs_lim_incomplete by auto. lia.
Qed.

Lemma cs_lawful_gen : forall dv, cs_incomplete dv ->
  lawful {| st := bytes; init := []; push := cs_push; fin := fun b => Ret (dv b); lim := cs_lim |}
         cs_good (cs_den dv).
Proof.
  intros dv [I0 I1]. constructor; cbn [st init push fin lim].
  - exact I.
  - intros s l G. pose proof (cs_push_spec s l G) as H.
    destruct (cs_push s l) as [[s' r] []]; try contradiction.
    + destruct H as (G' & -> & ->). split; auto. split.
      * exists l. now rewrite app_nil_r.
      * intro t. now rewrite cs_den_app.
    + destruct H as (Hl & p & b & q & -> & Hp & -> & E & Hlen). split; eauto.
      intro t. rewrite <- app_assoc. cbn [of_fin].
      apply cs_den_prefix with b; auto; rewrite E; try discriminate; try reflexivity; congruence.
  - intros s G. destruct s as [|b q].
    + cbn. now rewrite I0.
    + rewrite cs_den_incomplete by exact G. now rewrite I1.
  - intros s l v r G H. pose proof (cs_den_inv dv s l) as K. rewrite H in K.
    destruct K as (b & w & E & Hlen & K).
    destruct (cs_good_len s b w G l E Hlen) as (q & r' & E1 & -> & E2 & E3 & E4 & E5).
    rewrite E3, E4 in K. destruct (dv (s ++ q)) eqn:Hdv; inv K. exists q. split; auto.
    intro t. rewrite cs_den_prefix with (b := b); auto.
    + now rewrite Hdv.
    + intro Hn. apply app_eq_nil in Hn as [_ ->]. congruence.
    + rewrite app_assoc in E. destruct (s ++ q) eqn:Hsq; [apply app_eq_nil in Hsq as [_ ->]; congruence|]. now inversion E.
  - intros s l e t G H. pose proof (cs_den_inv dv s l) as K. rewrite H in K.
    destruct K as (b & w & E & Hlen & K).
    destruct (cs_good_len s b w G l E Hlen) as (q & r' & E1 & -> & E2 & E3 & E4 & E5).
    rewrite E3, E4 in K. destruct (dv (s ++ q)) eqn:Hdv; inv K.
    rewrite <- app_assoc, cs_den_prefix with (b := b); auto.
    + now rewrite Hdv.
    + intro Hn. apply app_eq_nil in Hn as [_ ->]. congruence.
    + rewrite app_assoc in E. destruct (s ++ q) eqn:Hsq; [apply app_eq_nil in Hsq as [_ ->]; congruence|]. now inversion E.
  - intros s l t G H. pose proof (cs_den_inv dv s l) as K. rewrite H in K. contradiction.
  - intros s l v r G H. pose proof (cs_den_inv dv s l) as K. rewrite H in K.
    destruct K as (b & w & E & Hlen & K).
    destruct (cs_good_len s b w G l E Hlen) as (q & r' & E1 & -> & E2 & E3 & E4 & E5).
    rewrite E3, E4 in K. destruct (dv (s ++ q)) eqn:Hdv; inv K.
    rewrite lenN_app. enough (cs_lim s <= lenN q) by lia.
    destruct s as [|b' q'].
    + cbn. destruct q; [congruence|]. rewrite lenN_cons. lia.
    + inversion E; subst b'. rewrite cs_lim_incomplete by exact G. rewrite lenN_app in E2. lia.
  - intros s G H. pose proof (cs_lim_pos s G). lia.
Qed.

Lemma cs_lawful : forall limit, lawful (cs_dec limit) cs_good (cs_den (cs_fin limit)).
Proof. intro. apply cs_lawful_gen, cs_fin_incomplete. Qed.
Lemma cs_u64_lawful : lawful cs_u64_dec cs_good (cs_den cs_decode_u64).
Proof. apply cs_lawful_gen, cs_decode_incomplete. Qed.
