(** Laws for the combinators: byte vectors, vectors, pairs, new types. *)
From Verif Require Import Base MDec LDec.
Local Open Scope N_scope.

Definition nontrivial {A E} {D : decoder A E} (good : st D -> Prop) (den : st D -> bytes -> outcome A E) : Prop :=
  forall s, good s -> exists e, den s [] = More e.

Lemma cs_nontrivial : forall limit, nontrivial (D := cs_dec limit) cs_good (cs_den (cs_fin limit)).
Proof.
  intros limit s G. destruct s as [|b q].
  - eexists. reflexivity.
  - eexists. apply cs_den_incomplete. exact G.
Qed.

Lemma array_nontrivial : forall n, 0 < n -> nontrivial (D := array_dec n) (array_good n) (array_den n).
Proof.
  intros n Hn s G. destruct G as [G|[-> _]]; [|lia]. unfold array_den. rewrite app_nil_r.
  apply N.ltb_lt in G. rewrite G. eauto.
Qed.

(** *** Pairs *)
Section Dec2.
Context {A EA B EB : Type} (DA : decoder A EA) (DB : decoder B EB).
Context (ga : st DA -> Prop) (dena : st DA -> bytes -> outcome A EA).
Context (gb : st DB -> Prop) (denb : st DB -> bytes -> outcome B EB).
Context (LA : lawful DA ga dena) (LB : lawful DB gb denb).

Definition d2_good (s : d2_state DA DB) : Prop :=
  match s with D2First _ _ a b => ga a /\ gb b | D2Second _ _ _ b => gb b | D2Errored _ _ => False end.

Definition d2_second (va : A) (o : outcome B EB) : outcome (A * B) (err2 EA EB) :=
  match o with
  | Done vb r => Done (va, vb) r
  | More e => More (E2Second e)
  | Fail e => Fail (E2Second e)
  | Boom => Boom
  end.
Definition d2_then (o : outcome A EA) (b : st DB) : outcome (A * B) (err2 EA EB) :=
  match o with
  | Done va r => d2_second va (denb b r)
  | More e => More (E2First e)
  | Fail e => Fail (E2First e)
  | Boom => Boom
  end.
Definition d2_den (s : d2_state DA DB) (l : bytes) : outcome (A * B) (err2 EA EB) :=
  match s with
  | D2First _ _ a b => d2_then (dena a l) b
  | D2Second _ _ va b => d2_second va (denb b l)
  | D2Errored _ _ => Boom
  end.

Lemma d2_push_second_law : forall va b l, gb b ->
  match d2_push_second DA DB va b l with
  | (s', r, NeedsMore) =>
      d2_good s' /\ (exists p, l = p ++ r /\ (l <> [] -> p <> [])) /\
      forall t, d2_second va (denb b (l ++ t)) = d2_den s' (r ++ t)
  | (s', r, Ready) =>
      (exists p, l = p ++ r) /\
      forall t, d2_second va (denb b (l ++ t)) = of_fin (d2_fin DA DB s') (r ++ t)
  | (s', r, PErr e) => (exists p, l = p ++ r) /\ forall t, d2_second va (denb b (l ++ t)) = Fail e
  | (_, _, PPanic) => forall t, d2_second va (denb b (l ++ t)) = Boom
  end.
Proof.
  intros va b l G. unfold d2_push_second. pose proof (law_push _ _ _ LB b l G) as H.
  destruct (push DB b l) as [[b' r] []].
  - destruct H as (G' & Hp & Hd). split; auto. split; auto. intro t. cbn. now rewrite Hd.
  - destruct H as (Hp & Hd). split; auto. intro t. rewrite Hd. cbn.
    destruct (fin DB b') as [[]|]; reflexivity.
  - destruct H as (Hp & Hd). split; auto. intro t. now rewrite Hd.
  - intro t. now rewrite H.
Qed.

Lemma dec2_lawful : lawful (dec2 DA DB) d2_good d2_den.
Proof.
  constructor; cbn [st init push fin lim dec2].
  - split; [apply (law_init _ _ _ LA)|apply (law_init _ _ _ LB)].
  - intros [a b|va b|] l G; cbn [d2_good] in G; [|apply d2_push_second_law; auto|contradiction].
    destruct G as [Ga Gb]. cbn [d2_push]. pose proof (law_push _ _ _ LA a l Ga) as H.
    destruct (push DA a l) as [[a' r] []].
    + destruct H as (G' & Hp & Hd). split; [split; auto|]. split; auto. intro t. cbn. now rewrite Hd.
    + destruct H as (Hp & Hd). destruct (fin DA a') as [[va|e]|] eqn:Hf.
      * pose proof (d2_push_second_law va b r Gb) as K.
        destruct (d2_push_second DA DB va b r) as [[s' r'] []]; auto.
        -- destruct K as (G' & (p' & -> & Hp') & Kd). split; auto. split.
           ++ destruct Hp as (p & ->). exists (p ++ p'). rewrite app_assoc. split; auto.
              intros Hn Hz. apply app_eq_nil in Hz as [-> ->]. cbn in Hn. destruct r'; [congruence|].
              apply Hp'; [discriminate|reflexivity].
           ++ intro t. cbn [d2_den]. rewrite Hd. cbn [of_fin of_res d2_then]. apply Kd.
        -- destruct K as ((p' & ->) & Kd). split.
           ++ destruct Hp as (p & ->). exists (p ++ p'). now rewrite app_assoc.
           ++ intro t. cbn [d2_den]. rewrite Hd. apply Kd.
        -- destruct K as ((p' & ->) & Kd). split.
           ++ destruct Hp as (p & ->). exists (p ++ p'). now rewrite app_assoc.
           ++ intro t. cbn [d2_den]. rewrite Hd. apply Kd.
        -- intro t. cbn [d2_den]. rewrite Hd. apply K.
      * split; auto. intro t. cbn [d2_den]. now rewrite Hd.
      * intro t. cbn [d2_den]. now rewrite Hd.
    + destruct H as (Hp & Hd). split; auto. intro t. cbn [d2_den]. now rewrite Hd.
    + intro t. cbn [d2_den]. now rewrite H.
  - intros [a b|va b|] G; cbn [d2_good] in G; [| |contradiction].
    + destruct G as [Ga Gb]. cbn [d2_fin d2_den]. pose proof (law_fin _ _ _ LA a Ga) as Hf.
      destruct (dena a []) as [va r|e|e|] eqn:E; rewrite Hf; cbn; auto.
      destruct (law_done _ _ _ LA _ _ _ _ Ga E) as (p & Hp & _).
      symmetry in Hp. apply app_eq_nil in Hp as [-> ->].
      pose proof (law_fin _ _ _ LB b Gb) as Hg. destruct (denb b []); rewrite Hg; reflexivity.
    + cbn [d2_fin d2_den]. pose proof (law_fin _ _ _ LB b G) as Hg. destruct (denb b []); rewrite Hg; reflexivity.
  - assert (HS : forall va b l v r, gb b -> d2_second va (denb b l) = Done v r ->
      exists p, l = p ++ r /\ forall t, d2_second va (denb b (p ++ t)) = Done v t).
    { intros va b l v r Gb H. destruct (denb b l) as [vb r'|e|e|] eqn:E; inv H.
      destruct (law_done _ _ _ LB _ _ _ _ Gb E) as (p & Hp & Ht). exists p. split; auto.
      intro t. now rewrite Ht. }
    intros [a b|va b|] l v r G H; cbn [d2_good d2_den] in *; [|eauto|contradiction].
    destruct G as [Ga Gb]. destruct (dena a l) as [va r'|e|e|] eqn:E; try discriminate.
    destruct (law_done _ _ _ LA _ _ _ _ Ga E) as (p & -> & Ht).
    destruct (HS _ _ _ _ _ Gb H) as (p' & -> & Ht'). exists (p ++ p'). rewrite app_assoc. split; auto.
    intro t. rewrite <- app_assoc, Ht. apply Ht'.
  - assert (HS : forall va b l t e, gb b -> d2_second va (denb b l) = Fail e ->
      d2_second va (denb b (l ++ t)) = Fail e).
    { intros va b l t e Gb H. destruct (denb b l) as [vb r'|e'|e'|] eqn:E; inv H.
      now rewrite (law_fail _ _ _ LB _ _ _ t Gb E). }
    intros [a b|va b|] l e t G H; cbn [d2_good d2_den] in *; [|eauto|contradiction].
    destruct G as [Ga Gb]. destruct (dena a l) as [va r'|e'|e'|] eqn:E; try discriminate.
    + destruct (law_done _ _ _ LA _ _ _ _ Ga E) as (p & -> & Ht).
      rewrite <- app_assoc, Ht. apply HS; auto.
    + inv H. now rewrite (law_fail _ _ _ LA _ _ _ t Ga E).
  - assert (HS : forall va b l t, gb b -> d2_second va (denb b l) = Boom ->
      d2_second va (denb b (l ++ t)) = Boom).
    { intros va b l t Gb H. destruct (denb b l) as [vb r'|e'|e'|] eqn:E; inv H.
      now rewrite (law_boom _ _ _ LB _ _ t Gb E). }
    intros [a b|va b|] l t G H; cbn [d2_good d2_den] in *; [|eauto|contradiction].
    destruct G as [Ga Gb]. destruct (dena a l) as [va r'|e'|e'|] eqn:E; try discriminate.
    + destruct (law_done _ _ _ LA _ _ _ _ Ga E) as (p & -> & Ht).
      rewrite <- app_assoc, Ht. apply HS; auto.
    + now rewrite (law_boom _ _ _ LA _ _ t Ga E).
  - assert (HS : forall va b l v r, gb b -> d2_second va (denb b l) = Done v r ->
      lim DB b + lenN r <= lenN l).
    { intros va b l v r Gb H. destruct (denb b l) as [vb r'|e'|e'|] eqn:E; inv H.
      apply (law_lim _ _ _ LB _ _ _ _ Gb E). }
    intros [a b|va b|] l v r G H; cbn [d2_good d2_den d2_lim] in *; [|eauto|contradiction].
    destruct G as [Ga Gb]. destruct (dena a l) as [va r'|e'|e'|] eqn:E; try discriminate.
    pose proof (law_lim _ _ _ LA _ _ _ _ Ga E). pose proof (HS _ _ _ _ _ Gb H). lia.
  - intros [a b|va b|] G H t; cbn [d2_good d2_den d2_lim d2_fin] in *; [| |contradiction].
    + destruct G as [Ga Gb]. rewrite (law_lim0 _ _ _ LA a Ga) by lia.
      destruct (fin DA a) as [[va|e]|]; cbn; auto.
      rewrite (law_lim0 _ _ _ LB b Gb) by lia. destruct (fin DB b) as [[]|]; reflexivity.
    + rewrite (law_lim0 _ _ _ LB b G) by lia. destruct (fin DB b) as [[]|]; reflexivity.
Qed.

Lemma dec2_nontrivial : nontrivial ga dena -> nontrivial gb denb -> nontrivial (D := dec2 DA DB) d2_good d2_den.
Proof.
  intros NA NB [a b|va b|] G; cbn [d2_good d2_den] in *; [| |contradiction].
  - destruct (NA a) as [e ->]; [tauto|]. cbn. eauto.
  - destruct (NB b) as [e ->]; [tauto|]. cbn. eauto.
Qed.

End Dec2.

(** *** New types *)
Section NewType.
Context {A E B F : Type} (D : decoder A E) (me : E -> F) (f : A -> result B F).
Context (g : st D -> Prop) (den : st D -> bytes -> outcome A E) (L : lawful D g den).

Definition nt_out (o : outcome A E) : outcome B F :=
  match o with
  | Done a r => of_res (f a) r
  | More e => More (me e)
  | Fail e => Fail (me e)
  | Boom => Boom
  end.
Definition nt_den (s : st D) (l : bytes) : outcome B F := nt_out (den s l).

Lemma newtype_lawful : lawful (newtype_dec D me f) g nt_den.
Proof.
  constructor; cbn [st init push fin lim newtype_dec].
  - apply (law_init _ _ _ L).
  - intros s l G. unfold nt_push, nt_den, nt_fin. pose proof (law_push _ _ _ L s l G) as H.
    destruct (push D s l) as [[s' r] []].
    + destruct H as (G' & Hp & Hd). split; auto. split; auto. intro t. now rewrite Hd.
    + destruct H as (Hp & Hd). split; auto. intro t. rewrite Hd. destruct (fin D s') as [[]|]; reflexivity.
    + destruct H as (Hp & Hd). split; auto. intro t. now rewrite Hd.
    + intro t. now rewrite H.
  - intros s G. unfold nt_fin, nt_den. pose proof (law_fin _ _ _ L s G) as Hf.
    destruct (den s []) as [v r|e|e|]; rewrite Hf; cbn; auto. destruct (f v); reflexivity.
  - intros s l v r G H. unfold nt_den in *. destruct (den s l) as [a r'|e|e|] eqn:E1; try discriminate.
    destruct (law_done _ _ _ L _ _ _ _ G E1) as (p & -> & Ht). cbn in H.
    destruct (f a) eqn:Hf; inv H. exists p. split; auto. intro t. rewrite Ht. cbn. rewrite Hf. reflexivity.
  - intros s l e t G H. unfold nt_den in *. destruct (den s l) as [a r'|e'|e'|] eqn:E1; try discriminate.
    + destruct (law_done _ _ _ L _ _ _ _ G E1) as (p & -> & Ht). cbn in H.
      destruct (f a) eqn:Hf; inv H. rewrite <- app_assoc, Ht. cbn. rewrite Hf. reflexivity.
    + inv H. now rewrite (law_fail _ _ _ L _ _ _ t G E1).
  - intros s l t G H. unfold nt_den in *. destruct (den s l) as [a r'|e'|e'|] eqn:E1; try discriminate.
    + cbn in H. destruct (f a); discriminate.
    + now rewrite (law_boom _ _ _ L _ _ t G E1).
  - intros s l v r G H. unfold nt_den in *. destruct (den s l) as [a r'|e|e|] eqn:E1; try discriminate.
    cbn in H. destruct (f a) eqn:Hf; inv H. apply (law_lim _ _ _ L _ _ _ _ G E1).
  - intros s G H t. unfold nt_fin, nt_den. rewrite (law_lim0 _ _ _ L s G H).
    destruct (fin D s) as [[]|]; reflexivity.
Qed.

Lemma newtype_nontrivial : nontrivial g den -> nontrivial (D := newtype_dec D me f) g nt_den.
Proof. intros H s G. unfold nt_den. destruct (H s G) as [e ->]. cbn. eauto. Qed.
End NewType.

(** *** Byte vectors *)
Definition bv_good (s : bv_state) : Prop :=
  bv_written s = lenN (bv_buffer s) /\ bv_written s <= bv_cap s /\
  match bv_prefix s with
  | Some p => cs_good p /\ bv_buffer s = []
  | None => bv_written s < bv_expected s
  end.

Definition bv_body (n : N) (buf l : bytes) : outcome bytes bv_err :=
  match array_den n buf l with
  | Done v r => Done v r | More e => More (BvEof e) | Fail e => Fail (BvEof e) | Boom => Boom
  end.

Definition bv_den (limit : N) (s : bv_state) (l : bytes) : outcome bytes bv_err :=
  match bv_prefix s with
  | Some p => match cs_den (cs_fin limit) p l with
              | Done n r => bv_body n [] r
              | More _ => More (BvEof (cs_lim (p ++ l)))
              | Fail e => Fail (BvPrefix e)
              | Boom => Boom
              end
  | None => bv_body (bv_expected s) (bv_buffer s) l
  end.

Lemma bv_body_more : forall n buf l, lenN buf + lenN l < n -> bv_body n buf l = More (BvEof (n - (lenN buf + lenN l))).
Proof.
  intros. unfold bv_body, array_den. rewrite lenN_app. apply N.ltb_lt in H. now rewrite H.
Qed.
Lemma bv_body_done : forall n buf l, n <= lenN buf + lenN l ->
  bv_body n buf l = Done (takeN n (buf ++ l)) (dropN n (buf ++ l)).
Proof.
  intros. unfold bv_body, array_den. rewrite lenN_app. apply N.ltb_ge in H. now rewrite H.
Qed.

Lemma bv_copy_law : forall s l limit, bv_prefix s = None -> bv_written s = lenN (bv_buffer s) ->
  bv_written s <= bv_cap s -> bv_written s < bv_expected s \/ (bv_buffer s = [] /\ bv_expected s = 0) ->
  match bv_copy s l with
  | (s', r, NeedsMore) =>
      bv_good s' /\ (exists p, l = p ++ r /\ (l <> [] -> p <> [])) /\
      forall t, bv_body (bv_expected s) (bv_buffer s) (l ++ t) = bv_den limit s' (r ++ t)
  | (s', r, Ready) =>
      (exists p, l = p ++ r) /\
      forall t, bv_body (bv_expected s) (bv_buffer s) (l ++ t) = of_fin (bv_fin s') (r ++ t)
  | _ => False
  end.
Proof.
  intros s l limit P W C X. unfold bv_copy.
  assert (bv_written s <= bv_expected s) by (destruct X as [|[E1 E2]]; [lia|rewrite W, E1, E2; unfold lenN; simpl; lia]).
  destruct (bv_expected s <? bv_written s) eqn:H0; [apply N.ltb_lt in H0; lia|].
  set (s1 := bv_reserve s).
  assert (R : bv_prefix s1 = None /\ bv_buffer s1 = bv_buffer s /\ bv_expected s1 = bv_expected s /\
              bv_written s1 = bv_written s /\ bv_written s <= bv_cap s1 /\
              (bv_written s < bv_expected s -> bv_written s < bv_cap s1)).
  { unfold s1, bv_reserve. destruct (lenN (bv_buffer s) =? bv_cap s) eqn:Hc.
    - cbn. unfold MAX_VECTOR_ALLOCATE. repeat split; auto; lia.
    - apply N.eqb_neq in Hc. repeat split; auto. intro. lia. }
  destruct R as (R1 & R2 & R3 & R4 & R5 & R6). cbn [bv_written bv_expected]. rewrite R1, R2, R3, R4.
  set (k := N.min (N.min (lenN l) (bv_expected s - bv_written s)) (bv_cap s1 - lenN (bv_buffer s))).
  assert (Hk : k <= lenN l) by (unfold k; lia).
  assert (Hk2 : lenN (takeN k l) = k) by (rewrite lenN_takeN; lia).
  destruct (bv_written s + k <? bv_expected s) eqn:H1.
  - apply N.ltb_lt in H1. split; [|split].
    + unfold bv_good. cbn. rewrite lenN_app, Hk2, <- W. repeat split; auto. unfold k. lia.
    + exists (takeN k l). rewrite takeN_dropN. split; auto. intros Hl Hz.
      apply (f_equal lenN) in Hz. rewrite Hk2, lenN_nil in Hz.
      destruct l as [|b l]; [congruence|]. unfold k in Hz. rewrite lenN_cons in Hz. lia.
    + intro t. unfold bv_den. cbn [bv_prefix bv_expected bv_buffer]. unfold bv_body, array_den.
      replace (l ++ t) with (takeN k l ++ dropN k l ++ t) by (now rewrite app_assoc, takeN_dropN). now rewrite !app_assoc.
  - apply N.ltb_ge in H1. assert (Ek : bv_written s + k = bv_expected s) by (unfold k in *; lia). split.
    + exists (takeN k l). now rewrite takeN_dropN.
    + intro t. replace (bv_fin _) with (Ret (Ok (bv_buffer s ++ takeN k l)) : rust (result bytes bv_err)).
      2:{ unfold bv_fin. cbn. replace (bv_written s + k =? bv_expected s) with true; auto.
          symmetry. now apply N.eqb_eq. }
        cbn [of_fin of_res]. rewrite bv_body_done by (rewrite lenN_app; lia).
        rewrite takeN_app_ge, dropN_app_ge by lia.
        replace (bv_expected s - lenN (bv_buffer s)) with k by lia.
        rewrite takeN_app_le, dropN_app_le by lia. reflexivity.
Qed.

Lemma bv_body_stable : forall n buf l v r, lenN buf < n \/ (n = 0 /\ buf = []) -> bv_body n buf l = Done v r ->
  exists p, l = p ++ r /\ forall t, bv_body n buf (p ++ t) = Done v t.
Proof.
  intros n buf l v r G H. unfold bv_body in *.
  destruct (array_den n buf l) eqn:E; inv H.
  destruct (law_done _ _ _ (array_lawful n) buf l v r G E) as (p & Hp & Ht). exists p. split; auto.
  intro t. now rewrite Ht.
Qed.

Lemma bytevec_lawful : forall limit, lawful (bytevec_dec limit) bv_good (bv_den limit).
Proof.
  intro limit. pose proof (cs_lawful limit) as LC. constructor; cbn [st init push fin lim bytevec_dec].
  - unfold bv_good. cbn. repeat split; auto. unfold lenN. simpl. lia.
  - intros s l (W & C & G). unfold bv_push, bv_den. destruct (bv_prefix s) as [p|] eqn:P.
    + destruct G as [Gp Gb]. pose proof (law_push _ _ _ LC p l Gp) as H. cbn [push cs_dec fin] in H.
      destruct (cs_push p l) as [[p' r] []] eqn:Ecs.
      * destruct H as (G' & Hp & Hd). pose proof (cs_push_spec p l Gp) as K. rewrite Ecs in K.
        destruct K as (_ & -> & ->). split; [unfold bv_good; cbn; auto|]. split; auto.
        intro t. cbn [bv_prefix]. rewrite Hd. cbn [app]. now rewrite app_assoc.
      * destruct H as (Hp & Hd). cbn [of_fin] in Hd.
        destruct (cs_fin limit p') as [n|e].
        -- set (s1 := {| bv_prefix := None; bv_buffer := bv_buffer s; bv_expected := n; bv_written := bv_written s; bv_cap := bv_cap s |}).
           pose proof (bv_copy_law s1 r limit eq_refl W C) as K.
           cbn in K. rewrite Gb, lenN_nil in *. rewrite W in K.
           assert (X : 0 < n \/ ([] : bytes) = [] /\ n = 0) by (destruct (N.eq_dec n 0); [right; auto|left; lia]).
           specialize (K X). destruct (bv_copy s1 r) as [[s' r'] []]; try contradiction.
           ++ destruct K as (G' & (q & -> & Hq) & Kd). split; auto. split.
              ** destruct Hp as (p1 & ->). exists (p1 ++ q). rewrite app_assoc. split; auto.
                 intros Hn Hz. apply app_eq_nil in Hz as [-> ->]. cbn in Hn. destruct r'; [congruence|].
                 apply Hq; [discriminate|reflexivity].
              ** intro t. rewrite Hd. cbn [of_res]. apply Kd.
           ++ destruct K as ((q & ->) & Kd). split.
              ** destruct Hp as (p1 & ->). exists (p1 ++ q). now rewrite app_assoc.
              ** intro t. rewrite Hd. apply Kd.
        -- split; auto. intro t. now rewrite Hd.
      * exfalso. pose proof (cs_push_spec p l Gp) as K. now rewrite Ecs in K.
      * exfalso. pose proof (cs_push_spec p l Gp) as K. now rewrite Ecs in K.
    + pose proof (bv_copy_law s l limit P W C (or_introl G)) as K.
      destruct (bv_copy s l) as [[s' r] []]; auto; contradiction.
  - intros s (W & C & G). unfold bv_fin, bv_den. destruct (bv_prefix s) as [p|].
    + destruct G as [Gp _]. destruct (cs_nontrivial limit p Gp) as [e He]. rewrite He, app_nil_r. reflexivity.
    + rewrite bv_body_more by (rewrite lenN_nil; lia). rewrite lenN_nil, N.add_0_r, <- W.
      replace (bv_written s =? bv_expected s) with false by (symmetry; apply N.eqb_neq; lia).
      reflexivity.
  - intros s l v r (W & C & G) H. unfold bv_den in *. destruct (bv_prefix s) as [p|].
    + destruct (cs_den (cs_fin limit) p l) as [n r'| | |] eqn:E; try discriminate.
      destruct (law_done _ _ _ LC p _ _ _ (proj1 G) E) as (q & -> & Ht).
      destruct (bv_body_stable n [] _ _ _ ltac:(destruct (N.eq_dec n 0); [right; auto|left; unfold lenN; simpl; lia]) H) as (q' & -> & Ht').
      exists (q ++ q'). rewrite app_assoc. split; auto. intro t. rewrite <- app_assoc, Ht. apply Ht'.
    + apply bv_body_stable; auto. left. lia.
  - intros s l e t (W & C & G) H. unfold bv_den in *. destruct (bv_prefix s) as [p|].
    + destruct (cs_den (cs_fin limit) p l) as [n r'|e'|e'|] eqn:E; try discriminate.
      * exfalso. unfold bv_body, array_den in H. destr_if; discriminate.
      * inv H. now rewrite (law_fail _ _ _ LC p _ _ t (proj1 G) E).
    + exfalso. unfold bv_body, array_den in H. destr_if; discriminate.
  - intros s l t (W & C & G) H. exfalso. unfold bv_den in *. destruct (bv_prefix s) as [p|].
    + destruct (cs_den (cs_fin limit) p l) as [n r'|e'|e'|] eqn:E; try discriminate.
      * unfold bv_body, array_den in H. destr_if; discriminate.
      * pose proof (cs_den_inv (cs_fin limit) p l) as K. now rewrite E in K.
    + unfold bv_body, array_den in H. destr_if; discriminate.
  - intros s l v r (W & C & G) H. unfold bv_den, bv_lim in *. destruct (bv_prefix s) as [p|].
    + destruct (cs_den (cs_fin limit) p l) as [n r'| | |] eqn:E; try discriminate.
      pose proof (law_lim _ _ _ LC p _ _ _ (proj1 G) E) as K. cbn [lim cs_dec] in K.
      destruct (bv_body_stable n [] _ _ _ ltac:(destruct (N.eq_dec n 0); [right; auto|left; unfold lenN; simpl; lia]) H) as (q' & -> & Ht').
      rewrite lenN_app in K. lia.
    + unfold bv_body, array_den in H. destr_if; inv H. apply N.ltb_ge in Heqb. rewrite lenN_app in Heqb.
      rewrite lenN_dropN, lenN_app. lia.
  - intros s (W & C & G) H. exfalso. unfold bv_lim in H. destruct (bv_prefix s) as [p|].
    + pose proof (cs_lim_pos p (proj1 G)). lia.
    + lia.
Qed.

Lemma bytevec_nontrivial : forall limit, nontrivial (D := bytevec_dec limit) bv_good (bv_den limit).
Proof.
  intros limit s (W & C & G). unfold bv_den. destruct (bv_prefix s) as [p|].
  - destruct (cs_nontrivial limit p (proj1 G)) as [e ->]. eauto.
  - rewrite bv_body_more by (rewrite lenN_nil; lia). eauto.
Qed.

(** *** Vectors of items *)
Section Vec.
Context {A E : Type} (D : decoder A E) (g : st D -> Prop) (den : st D -> bytes -> outcome A E).
Context (L : lawful D g den) (NT : nontrivial g den).

Fixpoint items_den (k : nat) (acc : list A) (d : st D) (l : bytes) : outcome (list A) (vec_err E) :=
  match k with
  | O => Done acc l
  | S k' => match den d l with
            | Done a r => items_den k' (acc ++ [a]) (init D) r
            | More _ => More (VecEof (N.of_nat k))
            | Fail e => Fail (VecItem e)
            | Boom => Boom
            end
  end.

Definition ev_cur (s : ev_state D) : st D := match ev_decoder D s with Some d => d | None => init D end.
Definition ev_left (s : ev_state D) : nat := N.to_nat (ev_length D s - lenN (ev_buffer D s)).

Definition ev_good (s : ev_state D) : Prop :=
  (lenN (ev_buffer D s) < ev_length D s /\ g (ev_cur s)) \/ s = ev_new D 0.
Definition ev_den (s : ev_state D) (l : bytes) : outcome (list A) (vec_err E) :=
  items_den (ev_left s) (ev_buffer D s) (ev_cur s) l.

(** an item that completes has consumed something *)
Lemma nontrivial_consumes : forall d l v r, g d -> den d l = Done v r -> exists p, l = p ++ r /\ p <> [] /\
  forall t, den d (p ++ t) = Done v t.
Proof.
  intros d l v r G H. destruct (law_done _ _ _ L _ _ _ _ G H) as (p & -> & Ht). exists p. repeat split; auto.
  intros ->. specialize (Ht []). cbn in Ht. destruct (NT d G) as [e He]. congruence.
Qed.

Lemma nontrivial_lim : forall d, g d -> 0 < lim D d.
Proof.
  intros d G. destruct (N.eq_dec (lim D d) 0) as [Hz|]; [|lia].
  pose proof (law_lim0 _ _ _ L d G Hz []) as Ht.
  destruct (NT d G) as [e He]. rewrite He in Ht. destruct (fin D d) as [[]|]; discriminate.
Qed.

Lemma ev_loop_law : forall k s l, k = ev_left s -> lenN (ev_buffer D s) < ev_length D s -> g (ev_cur s) ->
  match ev_loop D k s l with
  | (s', r, NeedsMore) =>
      lenN (ev_buffer D s') < ev_length D s' /\ g (ev_cur s') /\
      (exists p, l = p ++ r /\ (l <> [] -> p <> [])) /\
      forall t, ev_den s (l ++ t) = ev_den s' (r ++ t)
  | (s', r, Ready) =>
      (exists p, l = p ++ r) /\
      forall t, ev_den s (l ++ t) = of_fin (ev_fin D s') (r ++ t)
  | (s', r, PErr e) => (exists p, l = p ++ r) /\ forall t, ev_den s (l ++ t) = Fail e
  | (_, _, PPanic) => forall t, ev_den s (l ++ t) = Boom
  end.
Proof.
  induction k as [|k IH]; intros s l Hk Hlt G; [unfold ev_left in Hk; lia|].
  cbn [ev_loop]. destruct l as [|x l].
  { replace (lenN (ev_buffer D s) =? ev_length D s) with false by (symmetry; apply N.eqb_neq; lia).
    repeat split; auto. exists []. auto. }
  fold (ev_cur s). set (l0 := x :: l) in *. assert (Hl0 : l0 <> []) by discriminate. clearbody l0. clear x l.
  pose proof (law_push _ _ _ L (ev_cur s) l0 G) as H.
  destruct (push D (ev_cur s) l0) as [[d' r] []].
  - destruct H as (G' & Hp & Hd). cbn [ev_buffer ev_length]. repeat split; auto.
    intro t. unfold ev_den, ev_left, ev_cur. cbn [ev_decoder ev_buffer ev_length].
    fold (ev_left s) (ev_cur s). rewrite <- Hk. cbn [items_den]. now rewrite Hd.
  - destruct H as (Hp & Hd). destruct (fin D d') as [[a|e]|] eqn:Hf.
    + set (s1 := {| ev_length := ev_length D s; ev_buffer := ev_buffer D s ++ [a]; ev_decoder := None |}).
      assert (Hlen1 : lenN (ev_buffer D s1) = lenN (ev_buffer D s) + 1) by (cbn; rewrite lenN_app; reflexivity).
      assert (Hden1 : forall t, ev_den s (l0 ++ t) = ev_den s1 (r ++ t)).
      { intro t. unfold ev_den. rewrite <- Hk. cbn [items_den]. rewrite Hd. cbn [of_fin of_res].
        replace (ev_left s1) with k; auto. unfold ev_left in *. cbn [ev_length s1]. rewrite Hlen1. lia. }
      assert (Hcons : exists p, l0 = p ++ r /\ p <> []).
      { pose proof (Hd []) as K. rewrite !app_nil_r in K.
        destruct (nontrivial_consumes _ _ _ _ G K) as (p & ? & ? & _). eauto. }
      destruct Hcons as (p & Hl0' & Hpne).
      destruct (lenN (ev_buffer D s1) =? ev_length D s1) eqn:Hfull.
      * split; [eauto|]. intro t. unfold ev_fin. rewrite Hfull.
        rewrite Hden1. unfold ev_den, ev_left. apply N.eqb_eq in Hfull.
        rewrite Hfull, N.sub_diag. reflexivity.
      * apply N.eqb_neq in Hfull.
        assert (Hk1 : k = ev_left s1) by (unfold ev_left in *; cbn [ev_length s1]; rewrite Hlen1; lia).
        assert (Hlt1 : lenN (ev_buffer D s1) < ev_length D s1) by (cbn [ev_length s1] in *; lia).
        specialize (IH s1 r Hk1 Hlt1 (law_init _ _ _ L)).
        destruct (ev_loop D k s1 r) as [[s' r'] []]; auto.
        -- destruct IH as (I1 & I2 & (q & -> & _) & Id). repeat split; auto.
           ++ exists (p ++ q). rewrite <- app_assoc. split; auto.
              intros _ Hz. now apply app_eq_nil in Hz as [? _].
           ++ intro t. now rewrite Hden1, Id.
        -- destruct IH as ((q & ->) & Id). split.
           ++ exists (p ++ q). now rewrite <- app_assoc.
           ++ intro t. now rewrite Hden1, Id.
        -- destruct IH as ((q & ->) & Id). split.
           ++ exists (p ++ q). now rewrite <- app_assoc.
           ++ intro t. now rewrite Hden1, Id.
        -- intro t. now rewrite Hden1, IH.
    + split; auto. intro t. unfold ev_den. rewrite <- Hk. cbn [items_den]. now rewrite Hd.
    + intro t. unfold ev_den. rewrite <- Hk. cbn [items_den]. now rewrite Hd.
  - destruct H as (Hp & Hd). split; auto. intro t. unfold ev_den. rewrite <- Hk. cbn [items_den]. now rewrite Hd.
  - intro t. unfold ev_den. rewrite <- Hk. cbn [items_den]. now rewrite H.
Qed.

Lemma items_done : forall k acc d l v r, g d -> items_den k acc d l = Done v r ->
  exists p, l = p ++ r /\ forall t, items_den k acc d (p ++ t) = Done v t.
Proof.
  induction k as [|k IH]; intros acc d l v r G H; cbn [items_den] in *.
  - inv H. exists []. auto.
  - destruct (den d l) as [a r'|e|e|] eqn:E1; try discriminate.
    destruct (law_done _ _ _ L _ _ _ _ G E1) as (p & -> & Ht).
    destruct (IH _ _ _ _ _ (law_init _ _ _ L) H) as (q & -> & Ht'). exists (p ++ q).
    rewrite app_assoc. split; auto. intro t. rewrite <- app_assoc, Ht. apply Ht'.
Qed.

Lemma items_fail : forall k acc d l e t, g d -> items_den k acc d l = Fail e ->
  items_den k acc d (l ++ t) = Fail e.
Proof.
  induction k as [|k IH]; intros acc d l e t G H; cbn [items_den] in *; [discriminate|].
  destruct (den d l) as [a r'|e'|e'|] eqn:E1; try discriminate.
  - destruct (law_done _ _ _ L _ _ _ _ G E1) as (p & -> & Ht). rewrite <- app_assoc, Ht.
    apply IH; auto. apply (law_init _ _ _ L).
  - rewrite (law_fail _ _ _ L _ _ _ t G E1). inv H. reflexivity.
Qed.

Lemma items_boom : forall k acc d l t, g d -> items_den k acc d l = Boom ->
  items_den k acc d (l ++ t) = Boom.
Proof.
  induction k as [|k IH]; intros acc d l t G H; cbn [items_den] in *; [discriminate|].
  destruct (den d l) as [a r'|e'|e'|] eqn:E1; try discriminate.
  - destruct (law_done _ _ _ L _ _ _ _ G E1) as (p & -> & Ht). rewrite <- app_assoc, Ht.
    apply IH; auto. apply (law_init _ _ _ L).
  - rewrite (law_boom _ _ _ L _ _ t G E1). reflexivity.
Qed.

Lemma items_lim : forall k acc d l v r, g d -> items_den k acc d l = Done v r -> (0 < k)%nat ->
  lim D d + (N.of_nat k - 1) * lim D (init D) + lenN r <= lenN l.
Proof.
  induction k as [|k IH]; intros acc d l v r G H Hk; [lia|]. cbn [items_den] in *.
  destruct (den d l) as [a r'|e'|e'|] eqn:E1; try discriminate.
  pose proof (law_lim _ _ _ L _ _ _ _ G E1) as K.
  destruct k as [|k].
  - cbn [items_den] in H. inv H. lia.
  - pose proof (IH _ _ _ _ _ (law_init _ _ _ L) H ltac:(lia)) as K2. nia.
Qed.

Lemma ev_new0_den : forall l, ev_den (ev_new D 0) l = Done [] l.
Proof. reflexivity. Qed.

Lemma ev_push_law : forall s l, ev_good s ->
  match ev_push D s l with
  | (s', r, NeedsMore) =>
      ev_good s' /\ lenN (ev_buffer D s') < ev_length D s' /\ (exists p, l = p ++ r /\ (l <> [] -> p <> [])) /\
      forall t, ev_den s (l ++ t) = ev_den s' (r ++ t)
  | (s', r, Ready) =>
      (exists p, l = p ++ r) /\
      forall t, ev_den s (l ++ t) = of_fin (ev_fin D s') (r ++ t)
  | (s', r, PErr e) => (exists p, l = p ++ r) /\ forall t, ev_den s (l ++ t) = Fail e
  | (_, _, PPanic) => forall t, ev_den s (l ++ t) = Boom
  end.
Proof.
  intros s l [[Hlt G] | ->].
  - unfold ev_push. replace (lenN (ev_buffer D s) =? ev_length D s) with false by (symmetry; apply N.eqb_neq; lia).
    pose proof (ev_loop_law _ s l eq_refl Hlt G) as H. unfold ev_left in H.
    destruct (ev_loop D _ s l) as [[s' r] []]; auto.
    destruct H as (H1 & H2 & H3 & H4). repeat split; auto. left; auto.
  - cbn. split; [exists []; auto|]. auto.
Qed.

Lemma exactvec_lawful : forall n, lawful (exactvec_dec D n) ev_good ev_den.
Proof.
  intro n. constructor; cbn [st init push fin lim exactvec_dec].
  - destruct (N.eq_dec n 0) as [->|]; [right; auto|left]. cbn. split; [unfold lenN; simpl; lia|].
    apply (law_init _ _ _ L).
  - intros s l G. pose proof (ev_push_law s l G) as H.
    destruct (ev_push D s l) as [[s' r] []]; auto. tauto.
  - intros s [[Hlt G] | ->].
    + unfold ev_fin, ev_den. replace (lenN (ev_buffer D s) =? ev_length D s) with false by (symmetry; apply N.eqb_neq; lia).
      unfold ev_left.
      destruct (N.to_nat (ev_length D s - lenN (ev_buffer D s))) eqn:Ek; [lia|]. cbn [items_den].
      destruct (NT _ G) as [e ->]. do 3 f_equal. lia.
    + reflexivity.
  - intros s l v r G H. unfold ev_den in *. destruct G as [[Hlt G] | ->].
    + eapply items_done; eauto.
    + eapply items_done; eauto. apply (law_init _ _ _ L).
  - intros s l e t G H. unfold ev_den in *. destruct G as [[Hlt G] | ->].
    + apply items_fail; auto.
    + discriminate.
  - intros s l t G H. unfold ev_den in *. destruct G as [[Hlt G] | ->].
    + apply items_boom; auto.
    + discriminate.
  - intros s l v r [[Hlt G] | ->] H.
    + unfold ev_den in H. assert (Hk : (0 < ev_left s)%nat) by (unfold ev_left; lia).
      pose proof (items_lim _ _ _ _ _ _ G H Hk) as K. unfold ev_lim, ev_cur, ev_left in *.
      destruct (ev_decoder D s).
      * nia.
      * replace (lenN (ev_buffer D s) =? ev_length D s) with false by (symmetry; apply N.eqb_neq; lia). nia.
    + cbn in H. inv H. cbn. lia.
  - intros s [[Hlt G] | ->] H.
    + exfalso. pose proof (nontrivial_lim _ G). pose proof (nontrivial_lim _ (law_init _ _ _ L)).
      unfold ev_lim, ev_cur in *. destruct (ev_decoder D s); [lia|].
      replace (lenN (ev_buffer D s) =? ev_length D s) with false in H by (symmetry; apply N.eqb_neq; lia). nia.
    + reflexivity.
Qed.

Definition vec_good (s : vec_state D) : Prop :=
  match vd_prefix D s with
  | Some p => cs_good p
  | None => lenN (ev_buffer D (vd_items D s)) < ev_length D (vd_items D s) /\ g (ev_cur (vd_items D s))
  end.
Definition vec_den (limit : N) (s : vec_state D) (l : bytes) : outcome (list A) (vec_err E) :=
  match vd_prefix D s with
  | Some p => match cs_den (cs_fin limit) p l with
              | Done n r => items_den (N.to_nat n) [] (init D) r
              | More _ => More (VecEof (cs_lim (p ++ l)))
              | Fail e => Fail (VecPrefix e)
              | Boom => Boom
              end
  | None => ev_den (vd_items D s) l
  end.

Lemma ev_new_den : forall n l, ev_den (ev_new D n) l = items_den (N.to_nat n) [] (init D) l.
Proof. intros. unfold ev_den, ev_left, ev_cur. cbn. now rewrite N.sub_0_r. Qed.

Lemma vec_lawful : forall limit, lawful (vec_dec D limit) vec_good (vec_den limit).
Proof.
  intro limit. pose proof (cs_lawful limit) as LC. pose proof (exactvec_lawful 0) as LE.
  constructor; cbn [st init push fin lim vec_dec].
  - exact I.
  - intros s l G. unfold vec_push. destruct (vd_prefix D s) as [p|] eqn:P.
    + unfold vec_good in G. rewrite P in G. unfold vec_den at 1 3 4 5. rewrite P.
      pose proof (law_push _ _ _ LC p l G) as H. cbn [push cs_dec fin] in H.
      destruct (cs_push p l) as [[p' r] []] eqn:Ecs.
      * destruct H as (G' & Hp & Hd). pose proof (cs_push_spec p l G) as K. rewrite Ecs in K.
        destruct K as (_ & -> & ->). repeat split; auto.
        intro t. unfold vec_den. cbn [vd_prefix]. rewrite Hd. cbn [app]. now rewrite app_assoc.
      * destruct H as (Hp & Hd). cbn [of_fin] in Hd.
        destruct (cs_fin limit p') as [n|e].
        -- pose proof (ev_push_law (ev_new D n) r (law_init _ _ _ (exactvec_lawful n))) as K.
           cbn [vd_items vd_prefix]. destruct (ev_push D (ev_new D n) r) as [[i' r'] []]; auto.
           ++ destruct K as (G' & K0 & (q & -> & Hq) & Kd). split; [|split].
              ** cbn. destruct G' as [|Hz]; auto. subst i'. cbn in K0. unfold lenN in K0. simpl in K0. lia.
              ** destruct Hp as (p1 & ->). exists (p1 ++ q). rewrite app_assoc. split; auto.
                 intros Hn Hz. apply app_eq_nil in Hz as [-> ->]. cbn in Hn. destruct r'; [congruence|].
                 apply Hq; [discriminate|reflexivity].
              ** intro t. rewrite Hd. cbn [of_res]. rewrite <- ev_new_den. apply Kd.
           ++ destruct K as ((q & ->) & Kd). split.
              ** destruct Hp as (p1 & ->). exists (p1 ++ q). now rewrite app_assoc.
              ** intro t. rewrite Hd. cbn [of_res]. rewrite <- ev_new_den. apply Kd.
           ++ destruct K as ((q & ->) & Kd). split.
              ** destruct Hp as (p1 & ->). exists (p1 ++ q). now rewrite app_assoc.
              ** intro t. rewrite Hd. cbn [of_res]. rewrite <- ev_new_den. apply Kd.
           ++ intro t. rewrite Hd. cbn [of_res]. rewrite <- ev_new_den. apply K.
        -- split; auto. intro t. now rewrite Hd.
      * exfalso. pose proof (cs_push_spec p l G) as K. now rewrite Ecs in K.
      * exfalso. pose proof (cs_push_spec p l G) as K. now rewrite Ecs in K.
    + unfold vec_good in G. rewrite P in G.
      pose proof (ev_push_law (vd_items D s) l (or_introl G)) as K.
      unfold vec_den at 1 3 4 5. rewrite P.
      destruct (ev_push D (vd_items D s) l) as [[i' r'] []]; auto.
      destruct K as (G' & K0 & Hp & Kd). split; [|split; auto].
      unfold vec_good. cbn. destruct G' as [|Hz]; auto. subst i'. cbn in K0. unfold lenN in K0. simpl in K0. lia.
  - intros s G. unfold vec_good, vec_fin, vec_den in *. destruct (vd_prefix D s) as [p|].
    + destruct (cs_nontrivial limit p G) as [e He]. rewrite He, app_nil_r. reflexivity.
    + apply (law_fin _ _ _ LE). left; auto.
  - intros s l v r G H. unfold vec_good, vec_den in *. destruct (vd_prefix D s) as [p|].
    + destruct (cs_den (cs_fin limit) p l) as [n r'| | |] eqn:E1; try discriminate.
      destruct (law_done _ _ _ LC p _ _ _ G E1) as (q & -> & Ht).
      destruct (items_done _ _ _ _ _ _ (law_init _ _ _ L) H) as (q' & -> & Ht').
      exists (q ++ q'). rewrite app_assoc. split; auto. intro t. rewrite <- app_assoc, Ht. apply Ht'.
    + apply (law_done _ _ _ LE) with (s := vd_items D s); auto. left; auto.
  - intros s l e t G H. unfold vec_good, vec_den in *. destruct (vd_prefix D s) as [p|].
    + destruct (cs_den (cs_fin limit) p l) as [n r'|e'|e'|] eqn:E1; try discriminate.
      * destruct (law_done _ _ _ LC p _ _ _ G E1) as (q & -> & Ht). rewrite <- app_assoc, Ht.
        apply items_fail; auto. apply (law_init _ _ _ L).
      * inv H. now rewrite (law_fail _ _ _ LC p _ _ t G E1).
    + apply (law_fail _ _ _ LE) with (s := vd_items D s); auto. left; auto.
  - intros s l t G H. unfold vec_good, vec_den in *. destruct (vd_prefix D s) as [p|].
    + destruct (cs_den (cs_fin limit) p l) as [n r'|e'|e'|] eqn:E1; try discriminate.
      * destruct (law_done _ _ _ LC p _ _ _ G E1) as (q & -> & Ht). rewrite <- app_assoc, Ht.
        apply items_boom; auto. apply (law_init _ _ _ L).
      * pose proof (cs_den_inv (cs_fin limit) p l) as K. now rewrite E1 in K.
    + apply (law_boom _ _ _ LE) with (s := vd_items D s); auto. left; auto.
  - intros s l v r G H. unfold vec_good, vec_den, vec_lim in *. destruct (vd_prefix D s) as [p|].
    + destruct (cs_den (cs_fin limit) p l) as [n r'| | |] eqn:E1; try discriminate.
      pose proof (law_lim _ _ _ LC p _ _ _ G E1) as K. cbn [lim cs_dec] in K.
      destruct (items_done _ _ _ _ _ _ (law_init _ _ _ L) H) as (q' & -> & _). rewrite lenN_app in K. lia.
    + apply (law_lim _ _ _ LE (vd_items D s) _ v); auto. left; auto.
  - intros s G H. unfold vec_good, vec_lim in *. unfold vec_fin, vec_den. destruct (vd_prefix D s) as [p|].
    + pose proof (cs_lim_pos p G). lia.
    + apply (law_lim0 _ _ _ LE); auto. left; auto.
Qed.

Lemma vec_nontrivial : forall limit, nontrivial (D := vec_dec D limit) vec_good (vec_den limit).
Proof.
  intros limit s G. unfold vec_good, vec_den in *. destruct (vd_prefix D s) as [p|].
  - destruct (cs_nontrivial limit p G) as [e ->]. eauto.
  - destruct G as [Hlt G]. unfold ev_den, ev_left.
    destruct (N.to_nat _) eqn:Ek; [lia|]. cbn [items_den]. destruct (NT _ G) as [e ->]. eauto.
Qed.
End Vec.
