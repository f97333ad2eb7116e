(** Bounds on what the vector decoders reserve. *)
From Verif Require Import Base MDec LDec LDec2 MAlloc SAlloc.
Local Open Scope N_scope.

Lemma bv_copy_bound : forall s l s' r x, bv_copy s l = (s', r, x) ->
  lenN (bv_buffer s) <= bv_cap s <= lenN (bv_buffer s) + MAX_VECTOR_ALLOCATE ->
  lenN (bv_buffer s') <= bv_cap s' <= lenN (bv_buffer s') + MAX_VECTOR_ALLOCATE /\
  lenN (bv_buffer s') + lenN r = lenN (bv_buffer s) + lenN l.
Proof.
  intros s l s' r x H Hc. unfold bv_copy in H. destruct (bv_expected s <? bv_written s); [inv H; lia|].
  set (s1 := bv_reserve s) in *.
  assert (K : bv_buffer s1 = bv_buffer s /\ lenN (bv_buffer s) <= bv_cap s1 <= lenN (bv_buffer s) + MAX_VECTOR_ALLOCATE).
  { unfold s1, bv_reserve. destruct (_ =? _); cbn [bv_buffer bv_cap]; split; auto; lia. }
  destruct K as [Kb Kc]. clearbody s1. rewrite Kb in H.
  set (c := N.min (N.min (lenN l) (bv_expected s1 - bv_written s1)) (bv_cap s1 - lenN (bv_buffer s))) in *.
  match type of H with (if ?b then _ else _) = _ => destruct b end; inv H; cbn [bv_buffer bv_cap];
    rewrite lenN_app, lenN_takeN, lenN_dropN; lia.
Qed.
Lemma cs_push_len : forall p l p' l' x, cs_push p l = (p', l', x) -> lenN l' <= lenN l.
Proof.
  intros p [|y l] p' l' x H; cbn [cs_push] in H; [inv H; lia|].
  destruct p as [|b p].
  - cbn [hd] in H. destruct (_ <? _) in H; [inv H; rewrite lenN_cons; lia|].
    destruct (_ =? _) in H; inv H; rewrite lenN_dropN, !lenN_cons; lia.
  - cbn [hd] in H. destruct (_ <? _) in H; [inv H; lia|].
    destruct (_ =? _) in H; inv H; rewrite lenN_dropN; lia.
Qed.
Lemma bytevec_alloc : forall limit n s, received (bytevec_dec limit) n s ->
  bv_cap s <= n + MAX_VECTOR_ALLOCATE.
Proof.
  intros limit n s R.
  enough (lenN (bv_buffer s) <= bv_cap s <= lenN (bv_buffer s) + MAX_VECTOR_ALLOCATE /\ lenN (bv_buffer s) <= n) by lia.
  induction R as [|n s l s' r x R [IH1 IH2] Hp].
  - cbn. unfold MAX_VECTOR_ALLOCATE. lia.
  - cbn [push bytevec_dec] in Hp. unfold bv_push in Hp. destruct (bv_prefix s) as [p|] eqn:P.
    + destruct (cs_push p l) as [[p' l1] st1] eqn:Hcs. pose proof (cs_push_len _ _ _ _ _ Hcs) as Hl.
      destruct st1; [inv Hp; cbn; lia| |inv Hp; cbn; lia|inv Hp; cbn; lia].
      destruct (cs_fin limit p') as [m|]; [|inv Hp; cbn; lia].
      apply bv_copy_bound in Hp; [|exact IH1]. cbn [bv_buffer bv_cap] in Hp. lia.
    + apply bv_copy_bound in Hp; [|exact IH1]. lia.
Qed.

Section Alloc.
Context {A E : Type} (D : decoder A E) (size : N).
Definition batch : N := MAX_VECTOR_ALLOCATE / N.max size 1.

Lemma evc_erase : forall k s cap l, exists cap', evc_loop D size k s cap l =
  match ev_loop D k s l with (s', l', x) => ((s', cap'), l', x) end.
Proof.
  induction k as [|k IH]; intros s cap [|y l]; cbn [evc_loop ev_loop].
  - destruct (_ =? _); eauto.
  - eauto.
  - destruct (_ =? _); eauto.
  - destruct (push D _ _) as [[d' l'] []]; eauto. destruct (fin D d') as [[a|e]|]; eauto.
    cbn [ev_buffer ev_length]. destruct (_ =? _); eauto.
Qed.
Lemma vecc_erase : forall limit s cap l, exists cap', vecc_push D size limit (s, cap) l =
  match vec_push D limit s l with (s', l', x) => ((s', cap'), l', x) end.
Proof.
  intros limit s cap l. unfold vecc_push, vec_push. destruct (vd_prefix D s).
  - destruct (cs_push b l) as [[p' l'] []]; eauto. destruct (cs_fin limit p'); eauto.
    unfold evc_push, ev_push. cbn [vd_items]. destruct (_ =? _); eauto.
    edestruct (evc_erase (N.to_nat (ev_length D (ev_new D a) - lenN (ev_buffer D (ev_new D a))))) as [c Hc]. rewrite Hc.
    destruct (ev_loop _ _ _ _) as [[]]; eauto.
  - unfold evc_push, ev_push. destruct (_ =? _); eauto.
    edestruct (evc_erase (N.to_nat (ev_length D (vd_items D s) - lenN (ev_buffer D (vd_items D s))))) as [c Hc]. rewrite Hc.
    destruct (ev_loop _ _ _ _) as [[]]; eauto.
Qed.

Definition cap_ok (len cap : N) : Prop := len <= cap <= len + batch.
Hypothesis Hsize : size <= MAX_VECTOR_ALLOCATE.
Lemma batch_pos : 1 <= batch.
Proof. unfold batch, MAX_VECTOR_ALLOCATE in *. apply N.div_le_lower_bound; lia. Qed.
Lemma reserve_ok : forall len n cap, len < n -> cap_ok len cap -> cap_ok len (ev_reserve size len n cap) /\ len < ev_reserve size len n cap.
Proof. intros len n cap Hn H. unfold cap_ok, ev_reserve in *. fold batch. pose proof batch_pos. destruct (len =? cap) eqn:He; lia. Qed.
Lemma evc_bound : forall k s cap l s' cap' r x, evc_loop D size k s cap l = ((s', cap'), r, x) ->
  lenN (ev_buffer D s) < ev_length D s -> cap_ok (lenN (ev_buffer D s)) cap -> cap_ok (lenN (ev_buffer D s')) cap'.
Proof using Hsize.
  induction k as [|k IH]; intros s cap [|y l] s' cap' r x H Hlt Hc; cbn [evc_loop] in H.
  - destruct (_ =? _) in H; inv H; auto.
  - inv H; auto.
  - destruct (_ =? _) in H; inv H; auto.
  - destruct (reserve_ok _ _ _ Hlt Hc) as [K1 K2]. set (c1 := ev_reserve _ _ _ _) in *. clearbody c1.
    destruct (push D _ _) as [[d' l'] []]; try (inv H; exact K1).
    destruct (fin D d') as [[a|e]|]; try (inv H; exact K1).
    cbn [ev_buffer ev_length] in H.
    assert (K3 : cap_ok (lenN (ev_buffer D s ++ [a])) (vec_grow (lenN (ev_buffer D s)) c1)).
    { unfold vec_grow. replace (lenN (ev_buffer D s) =? c1) with false by lia. unfold cap_ok in *.
      rewrite lenN_app. change (lenN [a]) with 1. pose proof batch_pos. lia. }
    destruct (_ =? _) eqn:He in H; [inv H; exact K3|].
    apply IH in H; auto. cbn [ev_buffer ev_length]. rewrite lenN_app in *. change (lenN [a]) with 1 in *. lia.
Qed.
Lemma ev_loop_lt : forall k s l s' r x, ev_loop D k s l = (s', r, x) -> lenN (ev_buffer D s) < ev_length D s ->
  lenN (ev_buffer D s') <= ev_length D s'.
Proof using Hsize.
  induction k as [|k IH]; intros s [|y l] s' r x H Hlt; cbn [ev_loop] in H.
  - destruct (_ =? _) in H; inv H; lia.
  - inv H; lia.
  - destruct (_ =? _) in H; inv H; lia.
  - destruct (push D _ _) as [[d' l'] []]; try (inv H; cbn; lia).
    destruct (fin D d') as [[a|e]|]; try (inv H; cbn; lia).
    cbn [ev_buffer ev_length] in H. destruct (_ =? _) eqn:He in H; [inv H; cbn [ev_buffer ev_length]; lia|].
    apply IH in H; auto. cbn [ev_buffer ev_length]. rewrite lenN_app in *. change (lenN [a]) with 1 in *. lia.
Qed.
Lemma evc_push_bound : forall s cap l s' cap' r x, evc_push D size (s, cap) l = ((s', cap'), r, x) ->
  lenN (ev_buffer D s) <= ev_length D s -> cap_ok (lenN (ev_buffer D s)) cap ->
  lenN (ev_buffer D s') <= ev_length D s' /\ cap_ok (lenN (ev_buffer D s')) cap'.
Proof using Hsize.
  intros s cap l s' cap' r x H Hle Hc. unfold evc_push in H. destruct (_ =? _) eqn:He in H; [inv H; auto|].
  assert (Hlt : lenN (ev_buffer D s) < ev_length D s) by lia. split.
  - destruct (evc_erase (N.to_nat (ev_length D s - lenN (ev_buffer D s))) s cap l) as [c Hx]. rewrite Hx in H.
    destruct (ev_loop _ _ _ _) as [[s1 r1] x1] eqn:Hl. inv H. eapply ev_loop_lt; eauto.
  - eapply evc_bound; eauto.
Qed.
Lemma vec_alloc : forall limit n s cap, received (vec_alloc_dec D size limit) n (s, cap) ->
  cap_ok (lenN (ev_buffer D (vd_items D s))) cap.
Proof using Hsize.
  intros limit n s cap R.
  enough (H : lenN (ev_buffer D (vd_items D (fst (s, cap)))) <= ev_length D (vd_items D (fst (s, cap))) /\
    cap_ok (lenN (ev_buffer D (vd_items D (fst (s, cap))))) (snd (s, cap))) by apply H.
  set (sc := (s, cap)) in *. clearbody sc. clear s cap.
  induction R as [|n [s cap] l [s' cap'] r x R [IH1 IH2] Hp].
  - cbn. unfold cap_ok. lia.
  - cbn [fst snd] in *. cbn [push vec_alloc_dec] in Hp. unfold vecc_push in Hp. destruct (vd_prefix D s) as [p|] eqn:P.
    + destruct (cs_push p l) as [[p' l1] []]; try (inv Hp; cbn; auto; fail).
      destruct (cs_fin limit p') as [m|]; [|inv Hp; auto]. cbn [vd_items] in Hp.
      destruct (evc_push D size (ev_new D m, 0) l1) as [[[s1 c1] r1] x1] eqn:He. inv Hp. cbn [vd_items].
      eapply evc_push_bound; eauto; cbn; unfold cap_ok; lia.
    + destruct (evc_push D size (vd_items D s, cap) l) as [[[s1 c1] r1] x1] eqn:He. inv Hp. cbn [vd_items].
      eapply evc_push_bound; eauto.
Qed.

(** every item in the buffer has consumed at least a byte *)
Context (g : st D -> Prop) (den : st D -> bytes -> outcome A E) (L : lawful D g den) (NT : nontrivial g den).
Lemma push_len : forall d l d' r x, g d -> push D d l = (d', r, x) -> x <> PPanic -> lenN r <= lenN l.
Proof using L Hsize.
  intros d l d' r x G H Hx. pose proof (law_push _ _ _ L d l G) as K. rewrite H in K.
  destruct x; try congruence.
  - destruct K as (_ & (p & -> & _) & _). rewrite lenN_app. lia.
  - destruct K as ((p & ->) & _). rewrite lenN_app. lia.
  - destruct K as ((p & ->) & _). rewrite lenN_app. lia.
Qed.
Lemma push_ready_len : forall d l d' r a, g d -> push D d l = (d', r, Ready) -> fin D d' = Ret (Ok a) -> lenN r < lenN l.
Proof using L NT Hsize.
  intros d l d' r a G H Hf. pose proof (law_push _ _ _ L d l G) as K. rewrite H in K. destruct K as ((p & ->) & K).
  rewrite Hf in K. specialize (K []). rewrite !app_nil_r in K. cbn in K.
  destruct (nontrivial_consumes _ _ _ L NT d _ _ _ G K) as (q & Hq & Hne & _). apply app_inv_tail in Hq. subst q.
  rewrite lenN_app. destruct p; [congruence|]. rewrite lenN_cons. lia.
Qed.
Lemma ev_loop_count : forall k s l s' r, ev_loop D k s l = (s', r, NeedsMore) ->
  (forall d, ev_decoder D s = Some d -> g d) ->
  lenN (ev_buffer D s') + lenN r <= lenN (ev_buffer D s) + lenN l /\ (forall d, ev_decoder D s' = Some d -> g d).
Proof using L NT Hsize.
  induction k as [|k IH]; intros s [|y l] s' r H Hd; cbn [ev_loop] in H.
  - destruct (_ =? _) in H; inv H; split; auto; lia.
  - discriminate.
  - destruct (_ =? _) in H; inv H; split; auto; lia.
  - set (d := match ev_decoder D s with Some d => d | None => init D end) in *.
    assert (G : g d) by (unfold d; destruct (ev_decoder D s) eqn:Eq; [now apply Hd|apply (law_init _ _ _ L)]).
    destruct (push D d (y :: l)) as [[d' l'] []] eqn:Hp; try discriminate.
    + inv H. cbn [ev_buffer ev_decoder]. pose proof (push_len _ _ _ _ _ G Hp). split; [lazymatch goal with H : _ -> _ <= _ |- _ => specialize (H ltac:(discriminate)) end; lia|].
      intros d0 Hd0. inv Hd0. pose proof (law_push _ _ _ L d (y :: l) G) as K. rewrite Hp in K. tauto.
    + destruct (fin D d') as [[a|e]|] eqn:Hf; try discriminate.
      cbn [ev_buffer ev_length] in H. destruct (_ =? _) in H; [discriminate|].
      apply IH in H; [|cbn; discriminate]. destruct H as [H1 H2]. split; auto. cbn [ev_buffer] in H1. rewrite lenN_app in H1.
      change (lenN [a]) with 1 in H1. pose proof (push_ready_len _ _ _ _ _ G Hp Hf). lia.
Qed.
Lemma vec_items_bound : forall limit n s cap, pending (vec_alloc_dec D size limit) n (s, cap) ->
  lenN (ev_buffer D (vd_items D s)) <= n.
Proof using L NT Hsize.
  intros limit n s cap R.
  enough (H : lenN (ev_buffer D (vd_items D (fst (s, cap)))) <= n /\ (forall d, ev_decoder D (vd_items D (fst (s, cap))) = Some d -> g d)) by apply H.
  set (sc := (s, cap)) in *. clearbody sc. clear s cap.
  induction R as [|n [s cap] l [s' cap'] r R [IH1 IH2] Hp].
  - cbn. split; [lia|discriminate].
  - cbn [fst snd] in *. cbn [push vec_alloc_dec] in Hp. unfold vecc_push in Hp. destruct (vd_prefix D s) as [p|] eqn:P.
    + destruct (cs_push p l) as [[p' l1] []] eqn:Hcs; try discriminate.
      * inv Hp. cbn [vd_items]. split; auto. lia.
      * pose proof (cs_push_len _ _ _ _ _ Hcs). destruct (cs_fin limit p') as [m|]; [|discriminate]. cbn [vd_items] in Hp.
        destruct (evc_push D size (ev_new D m, 0) l1) as [[[s1 c1] r1] x1] eqn:He. inv Hp. cbn [vd_items].
        unfold evc_push in He. destruct (_ =? _) in He; [discriminate|].
        destruct (evc_erase (N.to_nat (ev_length D (ev_new D m) - lenN (ev_buffer D (ev_new D m)))) (ev_new D m) 0 l1) as [c Hx]. rewrite Hx in He.
        destruct (ev_loop _ _ _ _) as [[s2 r2] x2] eqn:Hl. inv He.
        apply ev_loop_count in Hl; [|discriminate]. destruct Hl as [H1 H2]. split; auto.
        change (lenN (ev_buffer D (ev_new D m))) with 0 in H1. lia.
    + destruct (evc_push D size (vd_items D s, cap) l) as [[[s1 c1] r1] x1] eqn:He. inv Hp. cbn [vd_items].
      unfold evc_push in He. destruct (_ =? _) in He; [discriminate|].
      destruct (evc_erase (N.to_nat (ev_length D (vd_items D s) - lenN (ev_buffer D (vd_items D s)))) (vd_items D s) cap l) as [c Hx]. rewrite Hx in He.
      destruct (ev_loop _ _ _ _) as [[s2 r2] x2] eqn:Hl. inv He.
      apply ev_loop_count in Hl; [|auto]. destruct Hl as [H1 H2]. split; auto. lia.
Qed.
End Alloc.
