(** Lemmas about encoders. *)
From Verif Require Import Base MDec LDec MWitness LWitness LCompact MTx MEnc SEnc.
Local Open Scope N_scope.

Fixpoint enc_ind' (P : enc -> Prop)
  (HB : forall b, P (EBytes b)) (HO0 : P (EOpt None)) (HO : forall e, P e -> P (EOpt (Some e)))
  (HI0 : P (EIter None)) (HI : forall c rem, P c -> Forall P rem -> P (EIter (Some (c, rem))))
  (HN : forall i es, Forall P es -> P (EN i es)) (e : enc) : P e.
Proof.
  assert (L : forall es, (fix F (es : list enc) : Forall P es :=
    match es with [] => Forall_nil P | e :: es' => Forall_cons e (enc_ind' P HB HO0 HO HI0 HI HN e) (F es') end) es =
    (fix F (es : list enc) : Forall P es :=
    match es with [] => Forall_nil P | e :: es' => Forall_cons e (enc_ind' P HB HO0 HO HI0 HI HN e) (F es') end) es) by reflexivity.
  clear L.
  destruct e as [b|[e|]|[[c rem]|]|i es].
  - apply HB.
  - apply HO. now apply enc_ind'.
  - apply HO0.
  - apply HI; [now apply enc_ind'|]. 
    refine ((fix F (es : list enc) : Forall P es := match es with [] => Forall_nil P | e :: es' => Forall_cons e _ (F es') end) rem). now apply enc_ind'.
  - apply HI0.
  - apply HN. refine ((fix F (es : list enc) : Forall P es := match es with [] => Forall_nil P | e :: es' => Forall_cons e _ (F es') end) es). now apply enc_ind'.
Defined.

Lemma steps_pos : forall e, sound e -> (1 <= steps e)%nat.
Proof.
  induction e as [b| |e IH| |c rem IHc IHr|i es IH] using enc_ind'; cbn [steps sound]; intro H; auto; try lia.
  - destruct H as [H _]. specialize (IHc H). lia.
  - destruct H as [Hi Hs]. revert es IH Hi Hs. induction i as [|i IHi]; intros es IH Hi Hs; destruct es as [|e es]; cbn [length] in Hi; try lia.
    + cbn. inv IH. cbn in Hs. destruct Hs as [Hs _]. specialize (H1 Hs). lia.
    + cbn [map skipn]. inv IH. apply IHi; auto; [lia|]. now destruct Hs.
Qed.

(** what one advance does *)
Definition adv_ok (e : enc) : Prop :=
  exists ch, chunk e = Ret ch /\
  match adv e with
  | Panic => False
  | Ret (e', true) => content e = ch ++ content e' /\ sound e' /\ (steps e' < steps e)%nat
  | Ret (e', false) => content e = ch /\ adv e' = Ret (e', false) /\ (chunk e' = Ret ch \/ chunk e' = Ret []) /\ sound e'
  end.

Lemma adv_law : forall e, sound e -> adv_ok e.
Proof.
  induction e as [b| |e IH| |c rem IHc IHr|i es IH] using enc_ind'; intro S.
  - exists b. cbn. tauto.
  - exists []. cbn. tauto.
  - destruct (IH S) as (ch & Hc & H). exists ch. split; [exact Hc|]. cbn [adv]. destruct (adv e) as [[e' [|]]|]; cbn [rbind].
    + destruct H as (H1 & H2 & H3). auto.
    + destruct H as (H1 & H2 & H3). split; [exact H1|]. split; [cbn [adv]; rewrite H2; reflexivity|exact H3].
    + contradiction.
  - exists []. cbn. tauto.
  - destruct S as [Sc Sr]. destruct (IHc Sc) as (ch & Hc & H). exists ch. split; [exact Hc|].
    cbn [adv]. set (go := fix go (r : rust (enc * bool)) (rem : list enc) {struct rem} : rust (enc * bool) := _).
    assert (G : forall rem c ch, Forall (fun e => sound e -> adv_ok e) rem -> fold_right and True (map sound rem) -> sound c -> 
      chunk c = Ret ch -> adv_ok c ->
      match go (adv c) rem with
      | Panic => False
      | Ret (e', true) => content (EIter (Some (c, rem))) = ch ++ content e' /\ sound e' /\ (steps e' < steps (EIter (Some (c, rem))))%nat
      | Ret (e', false) => content (EIter (Some (c, rem))) = ch /\ e' = EIter None
      end).
    { clear. induction rem as [|n rem IH]; intros c ch Hr Sr Sc Hc (ch' & Hc' & H); rewrite Hc in Hc'; inv Hc'; cbn [go].
      - destruct (adv c) as [[c' [|]]|]; cbn [rbind]; [| |contradiction].
        + destruct H as (H1 & H2 & H3). cbn [content sound steps map concat fold_right list_sum]. rewrite !app_nil_r. repeat split; auto. cbn. lia.
        + destruct H as (H1 & H2). cbn [content map concat]. rewrite app_nil_r. auto.
      - inv Hr. destruct Sr as [Sn Sr]. specialize (H2 Sn). fold sound in Sn.
        assert (Pn := steps_pos n Sn). assert (Pc := steps_pos c Sc).
        destruct (adv c) as [[c' [|]]|]; cbn [rbind]; [| |contradiction].
        + destruct H as (K1 & K2 & K3). cbn [content sound steps]. rewrite K1, app_assoc. repeat split; auto. lia.
        + destruct H as (K1 & K2). pose proof H2 as H2'. destruct H2' as (chn & Hn & Hn').
          rewrite Hn. cbn [rbind]. destruct chn as [|x chn].
          * specialize (IH n [] H3 Sr Sn Hn H2). fold go. destruct (go (adv n) rem) as [[e' [|]]|]; [| |contradiction].
            -- destruct IH as (I1 & I2 & I3). cbn [content map concat] in *. rewrite K1. rewrite I1. split; [reflexivity|]. split; auto.
               cbn [steps map] in *. change (list_sum (steps n :: map steps rem)) with (steps n + list_sum (map steps rem))%nat. lia.
            -- destruct IH as (I1 & I2). cbn [content map concat] in *. rewrite K1, I1, app_nil_r. auto.
          * cbn [content map concat sound steps]. rewrite K1. split; [reflexivity|]. split; [split; auto|].
            change (list_sum (steps n :: map steps rem)) with (steps n + list_sum (map steps rem))%nat. lia. }
    specialize (G rem c ch IHr Sr Sc Hc (IHc Sc)). destruct (go (adv c) rem) as [[e' [|]]|]; auto.
    destruct G as [G1 ->]. cbn. tauto.
  - destruct S as [Hi Ss].
    assert (G : forall es i, Forall (fun e => sound e -> adv_ok e) es -> (i < length es)%nat -> fold_right and True (map sound es) ->
      exists ch, chunk (EN i es) = Ret ch /\
      match (fix at_ (es : list enc) (i : nat) {struct es} : rust (option (list enc * bool * bool)) :=
         match es, i with
         | [], _ => Ret None
         | e :: es', O => rbind (adv e) (fun '(e', m) => Ret (Some (e' :: es', m, match es' with [] => true | _ => false end)))
         | e :: es', S i' => rbind (at_ es' i') (fun o =>
             Ret match o with Some (es'', m, last) => Some (e :: es'', m, last) | None => None end)
         end) es i with
      | Panic => False
      | Ret None => False
      | Ret (Some (es', true, last)) => content (EN i es) = ch ++ content (EN i es') /\ sound (EN i es') /\ (steps (EN i es') < steps (EN i es))%nat
      | Ret (Some (es', false, true)) => content (EN i es) = ch /\ adv (EN i es') = Ret (EN i es', false) /\
                                         (chunk (EN i es') = Ret ch \/ chunk (EN i es') = Ret []) /\ sound (EN i es')
      | Ret (Some (es', false, false)) => content (EN i es) = ch ++ content (EN (S i) es') /\ sound (EN (S i) es') /\ (steps (EN (S i) es') < steps (EN i es))%nat
      end).
    { clear. induction es as [|e es IH]; intros i He Hi Ss; cbn [length] in Hi; [lia|]. inv He. destruct Ss as [Se Ss]. fold sound in Se. destruct i as [|i].
      - destruct (H1 Se) as (ch & Hc & H). assert (Pe := steps_pos e Se). exists ch. split; [exact Hc|].
        destruct (adv e) as [[e' [|]]|]; cbn [rbind]; [| |contradiction].
        + destruct H as (K1 & K2 & K3). cbn [content map skipn concat sound steps length fold_right].
          change (list_sum (steps e :: map steps es)) with (steps e + list_sum (map steps es))%nat.
          change (list_sum (steps e' :: map steps es)) with (steps e' + list_sum (map steps es))%nat.
          rewrite K1, app_assoc. repeat split; auto; lia.
        + destruct H as (K1 & K2 & K3). destruct es as [|e2 es].
          * cbn [content map skipn concat]. rewrite app_nil_r. split; [exact K1|]. split; [cbn [adv]; rewrite K2; reflexivity|]. destruct K3 as [K3 K4]. split; [exact K3|]. cbn. auto.
          * cbn [content map skipn concat sound steps length fold_right] in *.
            change (list_sum (steps e :: steps e2 :: map steps es)) with (steps e + list_sum (steps e2 :: map steps es))%nat.
            rewrite K1. repeat split; auto; try lia; try tauto; now destruct Ss.
      - assert (Hi' : (i < length es)%nat) by lia. destruct (IH i H2 Hi' Ss) as (ch & Hc & H). exists ch. split; [exact Hc|].
        match type of H with match ?X with _ => _ end => destruct X as [[[[es' [|]] last]|]|] end; cbn [rbind]; try contradiction.
        + destruct H as (K1 & K2 & K3). cbn [content map skipn sound steps length fold_right] in *. split; [exact K1|]. split; [|exact K3]. destruct K2. repeat split; auto. lia.
        + destruct last.
          * destruct H as (K1 & K2 & K3 & K4 & K5). split; [exact K1|]. split; [|split; [exact K3|cbn [sound length map fold_right] in *; repeat split; auto; lia]]. cbn [adv] in K2 |- *.
            match type of K2 with rbind ?X _ = _ => destruct X as [[[[es'' m] l]|]|] eqn:E2 end; cbn [rbind] in K2 |- *; try discriminate.
            -- destruct l; inv K2; auto.
            -- reflexivity.
          * destruct H as (K1 & K2 & K3). cbn [content map skipn sound steps length fold_right] in *. split; [exact K1|]. split; [|exact K3]. destruct K2. repeat split; auto. lia. }
    destruct (G es i IH Hi Ss) as (ch & Hc & H). exists ch. split; [exact Hc|]. cbn [adv].
    match type of H with match ?X with _ => _ end => destruct X as [[[[es' [|]] [|]]|]|] end; cbn [rbind]; auto; try contradiction.
Qed.

Lemma drain_law : forall fuel e, sound e -> (steps e <= fuel)%nat -> drain_to_vec fuel e = Some (Ret (content e)).
Proof.
  induction fuel as [|fuel IH]; intros e S Hf; [pose proof (steps_pos e S); lia|].
  destruct (adv_law e S) as (ch & Hc & H). cbn [drain_to_vec]. rewrite Hc. destruct (adv e) as [[e' [|]]|]; [| |contradiction].
  - destruct H as (H1 & H2 & H3). rewrite IH by (auto; lia). now rewrite H1.
  - destruct H as (H1 & _). now rewrite H1.
Qed.
Lemma writer_drain : forall W IoE (got : W -> bytes) (write_all : W -> bytes -> W * result unit IoE), writer_law got write_all ->
  forall fuel e w, sound e -> (steps e <= fuel)%nat ->
  exists w' r, drain_to_writer write_all fuel e w = Some (Ret (w', r)) /\
    match r with
    | Ok _ => got w' = got w ++ content e
    | Err _ => exists p q, content e = p ++ q /\ got w' = got w ++ p
    end.
Proof.
  intros W IoE got wa L. induction fuel as [|fuel IH]; intros e w S Hf; [pose proof (steps_pos e S); lia|].
  destruct (adv_law e S) as (ch & Hc & H). cbn [drain_to_writer]. rewrite Hc. specialize (L w ch).
  destruct (wa w ch) as [w1 [u|x]].
  - destruct (adv e) as [[e' [|]]|]; [| |contradiction].
    + destruct H as (H1 & H2 & H3). destruct (IH e' w1 H2) as (w' & r & Hd & Hr); [lia|]. exists w', r. split; [exact Hd|].
      rewrite H1. destruct r.
      * now rewrite Hr, L, app_assoc.
      * destruct Hr as (p & q & Hp & Hg). exists (ch ++ p), q. rewrite Hp, Hg, L, !app_assoc. auto.
    + destruct H as (H1 & _). exists w1, (Ok tt). split; auto. now rewrite L, H1.
  - exists w1, (Err x). split; auto. destruct L as (p & q & -> & Hg).
    destruct (adv e) as [[e' [|]]|]; [| |contradiction].
    + destruct H as (H1 & _). exists p, (q ++ content e'). now rewrite H1, <- app_assoc.
    + destruct H as (H1 & _). exists p, q. auto.
Qed.
Lemma strip_spec : forall a b r, strip a b = Some r <-> b = a ++ r.
Proof.
  induction a as [|x a IH]; intros b r; cbn [strip]; [split; [intro H; now inv H|intros ->; reflexivity]|].
  destruct b as [|y b]; [split; discriminate|]. destruct (N.eqb_spec x y) as [->|Hn].
  - rewrite IH. split; [intros ->; reflexivity|]. intro H. now inv H.
  - split; [discriminate|]. intro H. inv H. now destruct Hn.
Qed.
Lemma check_law : forall fuel e x, sound e -> (steps e <= fuel)%nat ->
  exists r, check_encoder fuel e x = Some r /\ (r = Ret tt <-> x = content e).
Proof.
  induction fuel as [|fuel IH]; intros e x S Hf; [pose proof (steps_pos e S); lia|].
  destruct (adv_law e S) as (ch & Hc & H). cbn [check_encoder]. rewrite Hc.
  destruct (strip ch x) as [x'|] eqn:Es.
  - apply strip_spec in Es. subst x. destruct (adv e) as [[e' [|]]|]; [| |contradiction].
    + destruct H as (H1 & H2 & H3). destruct (IH e' x' H2) as (r & Hr & Hx); [lia|]. exists r. split; auto. rewrite Hx, H1. split; [now intros ->|apply app_inv_head].
    + destruct H as (H1 & _). eexists. split; [reflexivity|]. rewrite H1. destruct x' as [|y x']; split; intro K; auto.
      * now rewrite app_nil_r.
      * discriminate.
      * apply (f_equal (@length N)) in K. rewrite app_length in K. cbn in K. lia.
  - exists Panic. split; auto. split; [discriminate|]. intros ->. exfalso. destruct (adv e) as [[e' [|]]|]; [| |contradiction].
    + destruct H as (H1 & _). rewrite H1 in Es. assert (strip ch (ch ++ content e') = Some (content e')) by (now apply strip_spec). congruence.
    + destruct H as (H1 & _). rewrite H1 in Es. assert (strip ch ch = Some []) by (apply strip_spec; now rewrite app_nil_r). congruence.
Qed.

(** the byte iterator *)
(** what it still has to give *)
Definition bi_rest (s : biter) : bytes := dropN (bi_pos s) (content (bi_enc s)).
Definition bi_ok (s : biter) : Prop := sound (bi_enc s) /\ exists ch, chunk (bi_enc s) = Ret ch /\ bi_pos s <= lenN ch.
(** after the end: every read fails again *)
Definition bi_over (s : biter) : Prop := adv (bi_enc s) = Ret (bi_enc s, false) /\ exists ch, chunk (bi_enc s) = Ret ch /\ lenN ch <= bi_pos s.

Lemma getN_some : forall l i b, getN l i = Some b <-> exists p q, l = p ++ b :: q /\ lenN p = i.
Proof.
  intros l i b. unfold getN. split.
  - intro H. apply nth_error_split in H as (p & q & -> & Hp). exists p, q. split; auto. unfold lenN. lia.
  - intros (p & q & -> & <-). unfold lenN. rewrite Nat2N.id. rewrite nth_error_app2 by lia. now rewrite Nat.sub_diag.
Qed.
Lemma getN_none : forall l i, getN l i = None <-> lenN l <= i.
Proof. intros. unfold getN, lenN. rewrite nth_error_None. lia. Qed.
Lemma getN_app1 : forall a b i, i < lenN a -> getN (a ++ b) i = getN a i.
Proof. intros. unfold getN. apply nth_error_app1. unfold lenN in H. lia. Qed.
Lemma getN_drop : forall l n i, getN (dropN n l) i = getN l (n + i).
Proof.
  intros l n i. unfold getN, dropN. replace (N.to_nat (n + i)) with (N.to_nat n + N.to_nat i)%nat by lia.
  generalize (N.to_nat n) as k. clear n. induction l as [|x l IH]; intros [|k]; cbn; auto.
  - destruct (N.to_nat i); reflexivity.
Qed.
Lemma dropN_ge : forall A (l : list A) n, lenN l <= n -> dropN n l = [].
Proof. intros. unfold dropN. apply skipn_all2. unfold lenN in H. lia. Qed.
Lemma dropN_app2 : forall A (a b : list A) n, lenN a <= n -> dropN n (a ++ b) = dropN (n - lenN a) b.
Proof.
  intros A a b n H. unfold dropN, lenN in *. rewrite skipn_app. rewrite skipn_all2 by lia. cbn. f_equal. lia.
Qed.
Lemma dropN_get : forall (l : bytes) n b, getN l n = Some b -> dropN n l = b :: dropN (n + 1) l.
Proof.
  intros l n b H. apply getN_some in H as (p & q & -> & <-). rewrite dropN_exact by auto. rewrite dropN_app2 by lia.
  replace (lenN p + 1 - lenN p) with 1 by lia. reflexivity.
Qed.

Lemma content_chunk : forall e ch, sound e -> chunk e = Ret ch -> exists t, content e = ch ++ t.
Proof.
  intros e ch S H. destruct (adv_law e S) as (ch' & Hc & K). rewrite H in Hc. inv Hc. destruct (adv e) as [[e' [|]]|]; [| |contradiction].
  - destruct K as [K _]. eauto.
  - destruct K as [K _]. exists []. now rewrite app_nil_r.
Qed.

Lemma over_after : forall e e' ch pos, sound e -> chunk e = Ret ch -> adv e = Ret (e', false) -> lenN ch <= pos -> bi_over {| bi_enc := e'; bi_pos := pos |}.
Proof.
  intros e e' ch pos S Hc Ha Hp. destruct (adv_law e S) as (ch' & Hc' & K). rewrite Hc in Hc'. inv Hc'. rewrite Ha in K.
  destruct K as (_ & K1 & K2 & _). split; [exact K1|]. cbn [bi_enc bi_pos]. destruct K2 as [->| ->]; eexists; split; eauto. cbn. lia.
Qed.
Lemma next_law : forall fuel s, bi_ok s -> (steps (bi_enc s) <= fuel)%nat ->
  exists s' o, bi_next fuel s = Some (Ret (s', o)) /\ (steps (bi_enc s') <= steps (bi_enc s) \/ o = None)%nat /\
  match o with
  | Some b => bi_rest s = b :: bi_rest s' /\ bi_ok s'
  | None => bi_rest s = [] /\ bi_over s'
  end.
Proof.
  induction fuel as [|fuel IH]; intros [e pos] [S (ch & Hc & Hp)] Hf; cbn [bi_enc bi_pos] in *; [pose proof (steps_pos e S); lia|].
  cbn [bi_next bi_enc bi_pos]. rewrite Hc. destruct (getN ch pos) as [b|] eqn:Hg.
  - eexists _, _. split; [reflexivity|]. split; [left; reflexivity|]. unfold bi_rest, bi_ok. cbn [bi_enc bi_pos].
    destruct (content_chunk e ch S Hc) as [t Ht]. rewrite Ht. assert (Hlt : pos < lenN ch) by (apply getN_some in Hg as (p & q & -> & <-); rewrite lenN_app, lenN_cons; lia).
    split; [apply dropN_get; now rewrite getN_app1|]. split; auto. exists ch. split; auto. lia.
  - apply getN_none in Hg. assert (pos = lenN ch) by lia. subst pos.
    pose proof (adv_law e S) as (ch' & Hc' & K). rewrite Hc in Hc'. inv Hc'. destruct (adv e) as [[e' [|]]|] eqn:Ha; [| |contradiction].
    + destruct K as (K1 & K2 & K3). destruct (adv_law e' K2) as (c2 & Hc2 & _).
      destruct (IH {| bi_enc := e'; bi_pos := 0 |}) as (s' & o & Hn & Hst & Ho).
      * split; [exact K2|]. exists c2. cbn [bi_pos bi_enc]. split; auto. lia.
      * cbn [bi_enc]. lia.
      * exists s', o. split; [exact Hn|]. cbn [bi_enc] in Hst. split; [destruct Hst; [left; lia|now right]|].
        assert (R : bi_rest {| bi_enc := e; bi_pos := lenN ch' |} = bi_rest {| bi_enc := e'; bi_pos := 0 |}).
        { unfold bi_rest. cbn [bi_enc bi_pos]. rewrite K1. now rewrite dropN_exact. }
        rewrite R. exact Ho.
    + eexists _, None. split; [reflexivity|]. split; [now right|]. split.
      * unfold bi_rest. cbn [bi_enc bi_pos]. destruct K as [K _]. rewrite K. apply dropN_ge. lia.
      * eapply over_after; eauto.
Qed.
Lemma next_over : forall fuel s, bi_over s -> bi_next (S fuel) s = Some (Ret (s, None)).
Proof.
  intros fuel [e pos] [Ha (ch & Hc & Hp)]. cbn [bi_enc bi_pos] in *. cbn [bi_next bi_enc bi_pos]. rewrite Hc.
  assert (G : getN ch pos = None) by (apply getN_none; lia). rewrite G, Ha. reflexivity.
Qed.
Lemma collect_law : forall fuel s, bi_ok s -> (steps (bi_enc s) + length (bi_rest s) <= fuel)%nat -> bi_collect fuel s = Some (Ret (bi_rest s)).
Proof.
  induction fuel as [|fuel IH]; intros s H Hf; [pose proof (steps_pos (bi_enc s) (proj1 H)); lia|].
  cbn [bi_collect]. destruct (next_law (S fuel) s H) as (s' & o & Hn & Hst & Ho); [lia|]. rewrite Hn. destruct o as [b|].
  - destruct Ho as [H1 H2]. destruct Hst as [Hst|?]; [|discriminate]. rewrite IH; auto; [now rewrite H1|]. rewrite H1 in Hf. cbn [length] in Hf. lia.
  - now destruct Ho as [-> _].
Qed.

(** nth *)
Lemma nth_loop_law : forall fuel e pos n, sound e -> (steps e <= fuel)%nat ->
  exists s' o, bi_nth_loop fuel e pos n = Some (Ret (s', o)) /\ o = getN (content e) n /\
  match o with Some _ => bi_rest s' = dropN (n + 1) (content e) /\ bi_ok s' | None => True end.
Proof.
  induction fuel as [|fuel IH]; intros e pos n S Hf; [pose proof (steps_pos e S); lia|].
  cbn [bi_nth_loop]. destruct (adv_law e S) as (ch & Hc & K). rewrite Hc. destruct (content_chunk e ch S Hc) as [t Ht].
  destruct (getN ch n) as [b|] eqn:Hg.
  - eexists _, _. split; [reflexivity|]. assert (Hlt : n < lenN ch) by (apply getN_some in Hg as (p & q & -> & <-); rewrite lenN_app, lenN_cons; lia).
    rewrite Ht. split; [now rewrite getN_app1|]. unfold bi_rest, bi_ok. cbn [bi_enc bi_pos]. rewrite Ht. split; auto. split; auto. exists ch. split; auto. lia.
  - apply getN_none in Hg. replace (n <? lenN ch) with false by lia. destruct (adv e) as [[e' [|]]|]; [| |contradiction].
    + destruct K as (K1 & K2 & K3). destruct (IH e' pos (n - lenN ch) K2) as (s' & o & H1 & H2 & H3); [lia|]. exists s', o. split; [exact H1|].
      assert (G : forall k, lenN ch <= k -> dropN k (content e) = dropN (k - lenN ch) (content e')) by (intros k Hk; rewrite K1; now apply dropN_app2).
      split.
      * rewrite H2. rewrite <- (N.add_0_r n) at 2. rewrite <- getN_drop. rewrite G by auto. rewrite getN_drop. f_equal. lia.
      * destruct o; auto. destruct H3 as [H3 H4]. split; auto. rewrite H3, G by lia. f_equal. lia.
    + destruct K as (K1 & _). eexists _, None. split; [reflexivity|]. split; auto. symmetry. apply getN_none. rewrite K1. lia.
Qed.
Lemma nth_law : forall fuel s n, bi_ok s -> (steps (bi_enc s) <= fuel)%nat -> lenN (content (bi_enc s)) < USIZE ->
  exists s' o, bi_nth fuel s n = Some (Ret (s', o)) /\ o = getN (bi_rest s) n /\
  match o with Some _ => bi_rest s' = dropN (n + 1) (bi_rest s) /\ bi_ok s' | None => True end.
Proof.
  intros fuel [e pos] n [S (ch & Hc & Hp)] Hf Hu. cbn [bi_enc bi_pos] in *. unfold bi_nth, bi_rest. cbn [bi_enc bi_pos]. rewrite Hc.
  destruct (content_chunk e ch S Hc) as [t Ht].
  replace (if pos + n <? USIZE then getN ch (pos + n) else None) with (getN ch (pos + n)).
  2:{ destruct (N.ltb_spec (pos + n) USIZE); auto. apply getN_none. rewrite Ht, lenN_app in Hu. lia. }
  rewrite getN_drop, dropN_add. destruct (getN ch (pos + n)) as [b|] eqn:Hg.
  - eexists _, _. split; [reflexivity|]. assert (Hlt : pos + n < lenN ch) by (apply getN_some in Hg as (p & q & -> & Q); rewrite lenN_app, lenN_cons; lia).
    rewrite Ht. split; [now rewrite getN_app1|]. unfold bi_rest, bi_ok. cbn [bi_enc bi_pos]. rewrite Ht, N.add_assoc. split; auto. split; auto. exists ch. split; auto. lia.
  - apply getN_none in Hg. replace (lenN ch <? pos) with false by lia. replace (n <? lenN ch - pos) with false by lia.
    pose proof (adv_law e S) as (ch' & Hc' & K). rewrite Hc in Hc'. inv Hc'. destruct (adv e) as [[e' [|]]|]; [| |contradiction].
    + destruct K as (K1 & K2 & K3). destruct (nth_loop_law fuel e' pos (n - (lenN ch' - pos)) K2) as (s' & o & H1 & H2 & H3); [lia|]. exists s', o. split; [exact H1|].
      assert (G : forall k, lenN ch' <= k -> dropN k (content e) = dropN (k - lenN ch') (content e')) by (intros k Hk; rewrite K1; now apply dropN_app2).
      split.
      * rewrite H2. rewrite <- (N.add_0_r (pos + n)). rewrite <- getN_drop. rewrite G by lia. rewrite getN_drop. f_equal. lia.
      * destruct o; auto. destruct H3 as [H3 H4]. split; auto. unfold bi_rest in H3 |- *. rewrite H3, G by lia. f_equal. lia.
    + destruct K as (K1 & _). eexists _, None. split; [reflexivity|]. split; auto. symmetry. apply getN_none. rewrite K1. lia.
Qed.
(** peek_chunk *)
Lemma peek_loop_law : forall fuel e pos ch, sound e -> chunk e = Ret ch -> lenN ch <= pos -> (steps e <= fuel)%nat ->
  exists s' c, bi_peek_loop fuel {| bi_enc := e; bi_pos := pos |} = Some (Ret (s', c)) /\
  (exists t, dropN (lenN ch) (content e) = c ++ t) /\
  ((c = [] /\ dropN (lenN ch) (content e) = [] /\ bi_over s') \/
   (c <> [] /\ bi_ok s' /\ bi_rest s' = dropN (lenN ch) (content e))).
Proof.
  induction fuel as [|fuel IH]; intros e pos ch S Hc Hp Hf; [pose proof (steps_pos e S); lia|].
  cbn [bi_peek_loop bi_enc bi_pos]. pose proof (adv_law e S) as (ch' & Hc' & K). rewrite Hc in Hc'. inv Hc'. destruct (adv e) as [[e' [|]]|] eqn:Ha; [| |contradiction].
  - destruct K as (K1 & K2 & K3). rewrite K1, dropN_exact by auto. destruct (adv_law e' K2) as (c2 & Hc2 & _). rewrite Hc2. destruct c2 as [|x c2].
    + destruct (IH e' pos [] K2 Hc2) as (s' & c & H1 & H2 & H3); [cbn; lia|lia|]. exists s', c. split; [exact H1|]. exact (conj H2 H3).
    + eexists _, _. split; [reflexivity|]. destruct (content_chunk e' _ K2 Hc2) as [t Ht]. split; [eauto|]. right. split; [discriminate|].
      split; [|reflexivity]. split; [exact K2|]. exists (x :: c2). cbn [bi_pos bi_enc]. split; auto. lia.
  - destruct K as (K1 & K2). eexists _, _. split; [reflexivity|]. rewrite K1. rewrite dropN_ge by lia. split; [now exists []|]. left. split; auto. split; auto.
    eapply over_after; eauto.
Qed.

Lemma exact_law : forall e, fresh_exact e -> exact_len e = lenN (content e).
Proof.
  induction e as [b| |e IH| |c rem IHc IHr|i es IH] using enc_ind'; cbn [fresh_exact]; intro H; auto; try contradiction.
  destruct H as [-> H]. cbn [exact_len content skipn]. induction es as [|e es IHes]; [reflexivity|]. inv IH. destruct H as [H1 H4]. cbn [map concat].
  rewrite lenN_app. rewrite (H2 H1). rewrite IHes; auto.
Qed.

(** ** the primitives *)
(** nothing is lost when no encoder starts with an empty chunk while having bytes *)
Lemma iter_new_law : forall es, Forall (fun e => sound e /\ (chunk e = Ret [] -> content e = [])) es ->
  exists it, iter_new es = Ret it /\ sound it /\ content it = concat (map content es).
Proof.
  induction es as [|e es IH]; intro H; cbn [iter_new].
  - eexists. split; [reflexivity|]. split; reflexivity.
  - inv H. destruct H2 as [S Hc]. destruct (adv_law e S) as (ch & Hch & _). rewrite Hch. cbn [rbind]. destruct ch as [|x ch].
    + destruct (IH H3) as (it & H1 & H2 & H4). exists it. split; auto. split; auto. cbn [map concat]. rewrite (Hc Hch). exact H4.
    + eexists. split; [reflexivity|]. split; [|reflexivity]. cbn [sound]. split; auto. clear - H3. induction H3; cbn; auto. split; tauto.
Qed.
Lemma prefixed_slice_law : forall es, Forall (fun e => sound e /\ (chunk e = Ret [] -> content e = [])) es ->
  exists it, prefixed_slice es = Ret it /\ sound it /\ content it = cs_encode (lenN es) ++ concat (map content es).
Proof.
  intros es H. destruct (iter_new_law es H) as (it & H1 & H2 & H3). unfold prefixed_slice. rewrite H1. eexists. split; [reflexivity|].
  split; [cbn; repeat split; auto|]. cbn [content map skipn concat]. now rewrite app_nil_r, H3.
Qed.
Lemma script_encoder_law : forall s, sound (script_encoder s) /\ content (script_encoder s) = script_encode s.
Proof. intro s. split; [cbn; repeat split; lia|]. cbn [script_encoder prefixed_bytes content map skipn concat]. now rewrite app_nil_r. Qed.
Lemma txin_encoder_law : forall i, sound (txin_encoder i) /\ content (txin_encoder i) = txin_encode i.
Proof.
  intro i. split; [cbn; repeat split; lia|]. unfold txin_encoder, outpoint_encoder, script_encoder, prefixed_bytes, txin_encode, outpoint_encode, script_encode.
  cbn [content map skipn concat]. now rewrite !app_nil_r, <- !app_assoc.
Qed.
Lemma txout_encoder_law : forall o, sound (txout_encoder o) /\ content (txout_encoder o) = txout_encode o.
Proof.
  intro i. split; [cbn; repeat split; lia|]. unfold txout_encoder, script_encoder, prefixed_bytes, txout_encode, script_encode.
  cbn [content map skipn concat]. now rewrite !app_nil_r.
Qed.
Lemma witness_encoder_law : forall w, wt_start w <= lenN (wt_content w) ->
  exists e, witness_encoder w = Ret e /\ sound e /\ content e = wit_encode w.
Proof.
  intros w H. unfold witness_encoder. replace (lenN (wt_content w) <? wt_start w) with false by lia. eexists. split; [reflexivity|].
  split; [cbn; repeat split; lia|]. cbn [content map skipn concat]. now rewrite app_nil_r.
Qed.
Definition encodable (tx : transaction) : Prop :=
  Forall (fun i => op_txid (ti_prevout i) <> [] /\ wt_start (ti_witness i) <= lenN (wt_content (ti_witness i))) (tx_inputs tx).
Lemma tx_encoder_law : forall tx, encodable tx ->
  exists e, tx_encoder tx = Ret e /\ sound e /\ content e = tx_encode tx /\ chunk e = Ret (le_bytes 4 (tx_version tx)).
Proof.
  intros tx H. destruct (prefixed_slice_law (map txin_encoder (tx_inputs tx))) as (ei & Ei & Si & Ci).
  { apply Forall_forall. intros e He. apply in_map_iff in He as (i & <- & Hi). destruct (txin_encoder_law i) as [S C]. split; auto.
    intro K. cbn in K. inv K. unfold encodable in H. rewrite Forall_forall in H. now destruct (H i Hi). }
  destruct (prefixed_slice_law (map txout_encoder (tx_outputs tx))) as (eo & Eo & So & Co).
  { apply Forall_forall. intros e He. apply in_map_iff in He as (o & <- & Ho). destruct (txout_encoder_law o) as [S C]. split; auto. intro K. cbn in K. inv K. }
  unfold tx_encoder. rewrite Ei, Eo. cbn [rbind].
  assert (Li : forall A (f : A -> enc) l, lenN (map f l) = lenN l) by (intros; unfold lenN; now rewrite map_length).
  rewrite Li in Ci, Co. rewrite map_map in Ci, Co.
  rewrite (map_ext _ _ (fun i => proj2 (txin_encoder_law i))), <- flat_map_concat_map in Ci.
  rewrite (map_ext _ _ (fun i => proj2 (txout_encoder_law i))), <- flat_map_concat_map in Co.
  fold (slice_encode txin_encode (tx_inputs tx)) in Ci. fold (slice_encode txout_encode (tx_outputs tx)) in Co.
  unfold tx_encode. destruct (uses_segwit tx) eqn:U.
  - assert (W : exists ws, rmapM (fun i => witness_encoder (ti_witness i)) (tx_inputs tx) = Ret ws /\ fold_right and True (map sound ws) /\
                           concat (map content ws) = flat_map (fun i => wit_encode (ti_witness i)) (tx_inputs tx)).
    { unfold encodable in H. clear - H. induction (tx_inputs tx) as [|i l IH]; cbn [rmapM].
      - exists []. cbn. auto.
      - inv H. destruct H2 as [_ H2]. destruct (witness_encoder_law _ H2) as (e & E & S & C). rewrite E. cbn [rbind].
        destruct (IH H3) as (ws & W1 & W2 & W3). rewrite W1. cbn [rbind]. exists (e :: ws). split; auto. split; [cbn; auto|]. cbn [map concat flat_map]. now rewrite C, W3. }
    destruct W as (ws & W1 & W2 & W3). rewrite W1. cbn [rbind]. eexists. split; [reflexivity|]. split; [|split; [|reflexivity]].
    + cbn [sound length map fold_right]. repeat split; auto; try lia. destruct ws as [|w ws]; cbn [witnesses_new sound]; auto.
    + cbn [content map skipn concat]. rewrite Ci, Co, app_nil_r. f_equal. f_equal. f_equal. f_equal. f_equal. destruct ws as [|w ws]; cbn [witnesses_new content]; exact W3.
  - eexists. split; [reflexivity|]. split; [|split; [|reflexivity]].
    + cbn [sound length map fold_right]. repeat split; auto; try lia.
    + cbn [content map skipn concat]. now rewrite Ci, Co, app_nil_r.
Qed.
Lemma header_encoder_law : forall h, sound (header_encoder h) /\ content (header_encoder h) = header_encode h.
Proof. intro h. split; [cbn; repeat split; lia|]. unfold header_encode. cbn [header_encoder content map skipn concat]. now rewrite app_nil_r. Qed.
Lemma block_encoder_law : forall b, Forall encodable (b_txs b) -> exists e, block_encoder b = Ret e /\ sound e /\ content e = block_encode b.
Proof.
  intros b H. unfold block_encoder.
  assert (W : exists es, rmapM tx_encoder (b_txs b) = Ret es /\ Forall (fun e => sound e /\ (chunk e = Ret [] -> content e = [])) es /\
    concat (map content es) = flat_map tx_encode (b_txs b) /\ lenN es = lenN (b_txs b)).
  { induction H as [|tx l H Hl IH]; cbn [rmapM].
    - exists []. auto.
    - destruct (tx_encoder_law tx H) as (e & E & S & C & Ch). destruct IH as (es & E1 & E2 & E3 & E4). rewrite E, E1. cbn [rbind]. exists (e :: es). split; auto.
      split; [constructor; auto; split; auto; rewrite Ch; discriminate|]. cbn [map concat flat_map]. rewrite C, E3. split; auto. rewrite !lenN_cons. lia. }
  destruct W as (es & E1 & E2 & E3 & E4). rewrite E1. cbn [rbind]. destruct (prefixed_slice_law es E2) as (it & I1 & I2 & I3). rewrite I1. cbn [rbind].
  eexists. split; [reflexivity|]. destruct (header_encoder_law (b_header b)) as [S C]. split; [cbn [sound length map fold_right]; exact (conj Nat.lt_0_2 (conj S (conj I2 I)))|].
  cbn [content map skipn concat] in *. rewrite !app_nil_r in *. rewrite I3, C, E3, E4. reflexivity.
Qed.
