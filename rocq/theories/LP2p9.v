(** The V2 decoder. *)
From Coq Require Import String.
From Verif Require Import Base MDec LDec LDec2 LDrive LBuilt LPrefix LCompact LCodec MWitness SWitness LWitness LWitDec MTx MAmount MText LAmountText MPmt MBip152 LTx2 LWire LPmt3 LBip152 LTaproot LBip32b LSha2b MP2p MP2pMsg SWire SPmt SBip152 SP2p LP2p LP2p2 LP2p3 LP2p4 LP2p5 LP2p6 LP2p7 LP2p8.
Local Open Scope N_scope.

(** A stage followed by another. *)
Definition stage {A E B F} (o : outcome A E) (f : E -> F) (k : A -> bytes -> outcome B F) : outcome B F :=
  match o with Done a r => k a r | More e => More (f e) | Fail e => Fail (f e) | Boom => Boom end.

Section V2.
Context (gd : forall mo, mgd mo) (ML : forall mo, rlaws (inner_dec mo) (mreads mo) (gd mo)).
Context (ag : st (array_dec 1) -> Prop) (aden : st (array_dec 1) -> bytes -> outcome bytes eof_err).
Context (AL : lawful (array_dec 1) ag aden) (AN : forall s, ag s -> exists e, aden s [] = More e).
Context (cg : st command_dec -> Prop) (cden : st command_dec -> bytes -> outcome bytes command_err).
Context (CL : lawful command_dec cg cden) (CN : forall s, cg s -> exists e, cden s [] = More e).

Definition v2p (mo : mode) (s : st (inner_dec mo)) (l : bytes) : outcome message v2_err := stage (snd (gd mo) s l) (fun _ => V2PayloadErr) (fun m r => Done m r).
Definition v2c (s : st command_dec) (l : bytes) : outcome message v2_err := stage (cden s l) V2Command (fun c r => v2p (v2_mode c) (init (inner_dec (v2_mode c))) r).
Definition v2id (b r : bytes) : outcome message v2_err :=
  if hd 0 b =? 0 then v2c (init command_dec) r else
  match assocN (hd 0 b) short_ids with None => Fail (V2UnknownId (hd 0 b)) | Some mo => v2p mo (init (inner_dec mo)) r end.
Definition v2s (s : st (array_dec 1)) (l : bytes) : outcome message v2_err := stage (aden s l) (fun _ => V2ShortId) v2id.
Definition v2_good (s : v2_state) : Prop := match s with V2Short s => ag s | V2Cmd s => cg s | V2Payload mo s => fst (gd mo) s | V2Errored => False end.
Definition v2_den (s : v2_state) (l : bytes) : outcome message v2_err :=
  match s with V2Short s => v2s s l | V2Cmd s => v2c s l | V2Payload mo s => v2p mo s l | V2Errored => Boom end.
(** the law of [push], for a part of the decoder *)
Definition pushed (den : bytes -> outcome message v2_err) (l : bytes) (x : v2_state * bytes * pstatus v2_err) : Prop :=
  match x with
  | (s', r, NeedsMore) => v2_good s' /\ (exists p, l = p ++ r /\ (l <> [] -> p <> [])) /\ forall t, den (l ++ t) = v2_den s' (r ++ t)
  | (s', r, Ready) => (exists p, l = p ++ r) /\ forall t, den (l ++ t) = of_fin (v2_fin s') (r ++ t)
  | (s', r, PErr e) => (exists p, l = p ++ r) /\ forall t, den (l ++ t) = Fail e
  | (_, _, PPanic) => forall t, den (l ++ t) = Boom
  end.
Lemma il2 : forall mo, lawful (inner_dec mo) (fst (gd mo)) (snd (gd mo)).
Proof using ML. intros mo. exact (proj1 (ML mo)). Qed.
Lemma v2p_push : forall mo s l, fst (gd mo) s -> pushed (v2p mo s) l (v2_push_payload mo s l).
Proof using ML.
  intros mo s l G. unfold v2_push_payload, v2p. pose proof (law_push _ _ _ (il2 mo) s l G) as P. destruct (push (inner_dec mo) s l) as [[s' r] []]; cbn [pushed].
  - destruct P as (G' & PR & Q). split; [exact G'|]. split; [exact PR|]. intros t. rewrite Q. reflexivity.
  - destruct P as (PR & Q). split; [exact PR|]. intros t. rewrite Q. cbn [v2_fin]. destruct (fin (inner_dec mo) s') as [[]|]; reflexivity.
  - destruct P as (PR & Q). split; [exact PR|]. intros t. now rewrite Q.
  - intros t. now rewrite P.
Qed.
(** pushing through a completed stage *)
Lemma pushed_stage : forall (den den' : bytes -> outcome message v2_err) p r x, p <> [] -> (forall t, den ((p ++ r) ++ t) = den' (r ++ t)) -> pushed den' r x -> pushed den (p ++ r) x.
Proof using.
  clear. intros den den' p r [[s' r'] []] NE E P; cbn [pushed] in *.
  - destruct P as (G & (q & -> & _) & Q). split; [exact G|]. split; [|intros t; now rewrite E]. exists (p ++ q). split; [now rewrite app_assoc|]. intros _ X. apply app_eq_nil in X as [X _]. contradiction.
  - destruct P as ((q & ->) & Q). split; [exists (p ++ q); now rewrite app_assoc|]. intros t. now rewrite E.
  - destruct P as ((q & ->) & Q). split; [exists (p ++ q); now rewrite app_assoc|]. intros t. now rewrite E.
  - intros t. now rewrite E.
Qed.
Lemma nonempty : forall A E (D : decoder A E) g den s p r v, lawful D g den -> (exists e, den s [] = More e) -> g s -> den s (p ++ r) = Done v r -> p <> [].
Proof using.
  clear. intros A E D g den s p r v L (e & N0) G H ->. cbn [app] in H. destruct (law_done _ _ _ L _ _ _ _ G H) as (q & X & Q).
  assert (q = []) as -> by (destruct q; [reflexivity|apply (f_equal lenN) in X; rewrite !lenN_app, lenN_cons in X; lia]). specialize (Q []). cbn [app] in Q. congruence.
Qed.
Lemma v2c_push : forall s l, cg s -> pushed (v2c s) l (v2_push_cmd s l).
Proof using ML CL CN.
  intros s l G. unfold v2_push_cmd. pose proof (law_push _ _ _ CL s l G) as P. destruct (push command_dec s l) as [[s' r] []].
  - destruct P as (G' & PR & Q). split; [exact G'|]. split; [exact PR|]. intros t. cbn [v2_den]. unfold v2c. now rewrite Q.
  - destruct P as ((p & ->) & Q). destruct (fin command_dec s') as [[c|u]|]; cbn [of_fin of_res] in Q.
    + apply (pushed_stage _ (v2p (v2_mode c) (init (inner_dec (v2_mode c))))).
      * specialize (Q []). rewrite !app_nil_r in Q. exact (nonempty _ _ _ cg cden s p r c CL (CN s G) G Q).
      * intros t. unfold v2c. now rewrite Q.
      * apply v2p_push. exact (law_init _ _ _ (il2 _)).
    + cbn [pushed]. split; [now exists p|]. intros t. unfold v2c. now rewrite Q.
    + cbn [pushed]. intros t. unfold v2c. now rewrite Q.
  - destruct P as (PR & Q). split; [exact PR|]. intros t. unfold v2c. now rewrite Q.
  - intros t. unfold v2c. now rewrite P.
Qed.
Lemma v2s_push : forall s l, ag s -> pushed (v2s s) l (v2_push (V2Short s) l).
Proof using ML CL CN AL AN.
  intros s l G. cbn [v2_push]. pose proof (law_push _ _ _ AL s l G) as P. destruct (push (array_dec 1) s l) as [[s' r] []].
  - destruct P as (G' & PR & Q). split; [exact G'|]. split; [exact PR|]. intros t. cbn [v2_den]. unfold v2s. now rewrite Q.
  - destruct P as ((p & ->) & Q). destruct (fin (array_dec 1) s') as [[b|u]|]; cbn [of_fin of_res] in Q.
    + apply (pushed_stage _ (v2id b)).
      * specialize (Q []). rewrite !app_nil_r in Q. exact (nonempty _ _ _ ag aden s p r b AL (AN s G) G Q).
      * intros t. unfold v2s. now rewrite Q.
      * cbn zeta. unfold v2id. destruct (hd 0 b =? 0); [apply v2c_push; exact (law_init _ _ _ CL)|]. destruct (assocN (hd 0 b) short_ids); [apply v2p_push; exact (law_init _ _ _ (il2 _))|].
        cbn [pushed]. split; [now exists []|reflexivity].
    + cbn [pushed]. split; [now exists p|]. intros t. unfold v2s. now rewrite Q.
    + cbn [pushed]. intros t. unfold v2s. now rewrite Q.
  - destruct P as (PR & Q). split; [exact PR|]. intros t. unfold v2s. now rewrite Q.
  - intros t. unfold v2s. now rewrite P.
Qed.
(** the laws of [den] for a stage *)
Definition orderly (den : bytes -> outcome message v2_err) : Prop :=
  (forall l v r, den l = Done v r -> exists p, l = p ++ r /\ forall t, den (p ++ t) = Done v t) /\
  (forall l e t, den l = Fail e -> den (l ++ t) = Fail e) /\ (forall l t, den l = Boom -> den (l ++ t) = Boom).
Lemma v2p_orderly : forall mo s, fst (gd mo) s -> orderly (v2p mo s).
Proof using ML.
  intros mo s G. pose proof (il2 mo) as L. unfold v2p. split; [|split].
  - intros l v r H. destruct (snd (gd mo) s l) eqn:I; cbn [stage] in H; try discriminate. injection H as <- <-. destruct (law_done _ _ _ L _ _ _ _ G I) as (p & -> & P). exists p. split; [reflexivity|]. intros t. now rewrite P.
  - intros l e t H. destruct (snd (gd mo) s l) eqn:I; cbn [stage] in H; try discriminate. injection H as <-. now rewrite (law_fail _ _ _ L _ _ _ t G I).
  - intros l t H. destruct (snd (gd mo) s l) eqn:I; cbn [stage] in H; try discriminate. now rewrite (law_boom _ _ _ L _ _ t G I).
Qed.
Lemma stage_orderly : forall A E (D : decoder A E) g den s (f : E -> v2_err) (k : A -> bytes -> outcome message v2_err), lawful D g den -> g s -> (forall a, orderly (k a)) ->
  orderly (fun l => stage (den s l) f k).
Proof using.
  clear. intros A E D g den s f k L G K. split; [|split].
  - intros l v r H. destruct (den s l) as [a r0| | |] eqn:I; cbn [stage] in H; try discriminate. destruct (law_done _ _ _ L _ _ _ _ G I) as (p & -> & P).
    destruct (proj1 (K a) _ _ _ H) as (q & -> & Q). exists (p ++ q). split; [now rewrite app_assoc|]. intros t. rewrite <- app_assoc, P. apply Q.
  - intros l e t H. destruct (den s l) as [a r0| | |] eqn:I; cbn [stage] in H; try discriminate.
    + destruct (law_done _ _ _ L _ _ _ _ G I) as (p & -> & P). rewrite <- app_assoc, P. cbn [stage]. now apply (proj1 (proj2 (K a))).
    + injection H as <-. now rewrite (law_fail _ _ _ L _ _ _ t G I).
  - intros l t H. destruct (den s l) as [a r0| | |] eqn:I; cbn [stage] in H; try discriminate.
    + destruct (law_done _ _ _ L _ _ _ _ G I) as (p & -> & P). rewrite <- app_assoc, P. cbn [stage]. now apply (proj2 (proj2 (K a))).
    + now rewrite (law_boom _ _ _ L _ _ t G I).
Qed.
Lemma v2c_orderly : forall s, cg s -> orderly (v2c s).
Proof using ML CL. intros s G. refine (stage_orderly _ _ _ _ _ _ _ _ CL G _). intros c. apply v2p_orderly. exact (law_init _ _ _ (il2 _)). Qed.
Lemma v2s_orderly : forall s, ag s -> orderly (v2s s).
Proof using ML CL AL.
  intros s G. refine (stage_orderly _ _ _ _ _ _ _ _ AL G _). intros b. unfold v2id. destruct (hd 0 b =? 0); [apply v2c_orderly; exact (law_init _ _ _ CL)|].
  destruct (assocN (hd 0 b) short_ids); [apply v2p_orderly; exact (law_init _ _ _ (il2 _))|]. split; [discriminate|]. split; [auto|discriminate].
Qed.
Lemma v2_orderly : forall s, v2_good s -> orderly (v2_den s).
Proof using ML CL AL. intros [s|s|mo s|] G; [now apply v2s_orderly|now apply v2c_orderly|now apply v2p_orderly|contradiction]. Qed.
Lemma v2_lawful : lawful v2_dec v2_good v2_den.
Proof using ML CL CN AL AN.
  constructor.
  - exact (law_init _ _ _ AL).
  - intros s l G. assert (P : pushed (v2_den s) l (v2_push s l)) by (destruct s as [s|s|mo s|]; [now apply v2s_push|now apply v2c_push|now apply v2p_push|contradiction]).
    cbn [push v2_dec]. destruct (v2_push s l) as [[s' r] []]; exact P.
  - intros [s|s|mo s|] G; [| | |contradiction]; cbn [v2_den fin v2_dec v2_fin].
    + destruct (AN s G) as [e E]. pose proof (law_fin _ _ _ AL s G) as F. rewrite E in F. unfold v2s. rewrite E. cbn [stage]. now rewrite F.
    + destruct (CN s G) as [e E]. pose proof (law_fin _ _ _ CL s G) as F. rewrite E in F. unfold v2c. rewrite E. cbn [stage]. now rewrite F.
    + pose proof (law_fin _ _ _ (il2 mo) s G) as F. unfold v2p. destruct (snd (gd mo) s []); cbn [stage]; now rewrite F.
  - intros s l v r G. exact (proj1 (v2_orderly s G) l v r).
  - intros s l e t G. exact (proj1 (proj2 (v2_orderly s G)) l e t).
  - intros s l t G. exact (proj2 (proj2 (v2_orderly s G)) l t).
  - assert (KP : forall mo s l v r, fst (gd mo) s -> v2p mo s l = Done v r -> lim (inner_dec mo) s + lenN r <= lenN l).
    { intros mo s l v r G H. unfold v2p in H. destruct (snd (gd mo) s l) eqn:I; cbn [stage] in H; try discriminate. injection H as <- <-. exact (law_lim _ _ _ (il2 mo) _ _ _ _ G I). }
    assert (KC : forall s l v r, cg s -> v2c s l = Done v r -> lim command_dec s + lenN r <= lenN l).
    { intros s l v r G H. unfold v2c in H. destruct (cden s l) as [c r0| | |] eqn:I; cbn [stage] in H; try discriminate. pose proof (law_lim _ _ _ CL _ _ _ _ G I).
      destruct (proj1 (v2p_orderly _ _ (law_init _ _ _ (il2 (v2_mode c)))) _ _ _ H) as (q & -> & _). rewrite lenN_app in *. lia. }
    intros [s|s|mo s|] l v r G H; [| | |contradiction]; cbn [v2_den lim v2_dec v2_lim] in *; [|now apply KC with v|now apply KP with v].
    unfold v2s in H. destruct (aden s l) as [b r0| | |] eqn:I; cbn [stage] in H; try discriminate. pose proof (law_lim _ _ _ AL _ _ _ _ G I).
    assert (exists q, r0 = q ++ r) as [q ->]. { unfold v2id in H. destruct (hd 0 b =? 0); [destruct (proj1 (v2c_orderly _ (law_init _ _ _ CL)) _ _ _ H) as (q & -> & _); eauto|].
      destruct (assocN (hd 0 b) short_ids); [|discriminate]. destruct (proj1 (v2p_orderly _ _ (law_init _ _ _ (il2 _))) _ _ _ H) as (q & -> & _); eauto. }
    rewrite lenN_app in *. lia.
  - intros [s|s|mo s|] G H t; [| | |contradiction]; cbn [v2_den fin v2_dec v2_fin lim v2_lim] in *.
    + exfalso. pose proof (law_lim0 _ _ _ AL s G H []) as Z. destruct (AN s G) as [u E]. rewrite E in Z. destruct (fin (array_dec 1) s) as [[]|]; discriminate.
    + exfalso. pose proof (law_lim0 _ _ _ CL s G H []) as Z. destruct (CN s G) as [u E]. rewrite E in Z. destruct (fin command_dec s) as [[]|]; discriminate.
    + unfold v2p. rewrite (law_lim0 _ _ _ (il2 mo) s G H t). destruct (fin (inner_dec mo) s) as [[]|]; reflexivity.
Qed.

Context (AR : roundtrips (array_dec 1) aden (fun b => b) (is_array 1)) (AC : canonical (array_dec 1) aden (fun b => b) (is_array 1)).
Context (CR : roundtrips command_dec cden (fun c => c) (fun c => exists s, field s c)) (CC : canonical command_dec cden (fun c => c) (fun c => exists s, field s c)).
Context (AB : no_boom (array_dec 1) aden) (CB : no_boom command_dec cden).
Lemma v2p_done : forall mo l m r, bytes_ok l -> (v2p mo (init (inner_dec mo)) l = Done m r <-> exists p, l = p ++ r /\ mreads mo m p).
Proof using ML.
  intros mo l m r B. destruct (ML mo) as (_ & RT & CA & _). unfold v2p. split.
  - intros H. destruct (snd (gd mo) (init (inner_dec mo)) l) eqn:I; cbn [stage] in H; try discriminate. injection H as <- <-. now apply CA.
  - intros (p & -> & R). now rewrite (RT m p r R).
Qed.
Lemma v2_accept : forall l m r, bytes_ok l -> (v2_den (init v2_dec) l = Done m r <-> exists w, l = w ++ r /\ reads_v2 m w).
Proof using ML AR AC CR CC.
  clear AL AN CL CN ag cg AB CB. intros l m r B. cbn [init v2_dec v2_den]. unfold v2s. split.
  - intros H. destruct (aden (init (array_dec 1)) l) as [b r0| | |] eqn:I; cbn [stage] in H; try discriminate. destruct (AC l b r0 B I) as [-> W]. destruct (arr1 b W) as (x & -> & X1 & _).
    apply bytes_ok_app in B as [_ B]. unfold v2id in H. cbn [hd] in H. destruct (N.eqb_spec x 0) as [->|NZ].
    + unfold v2c in H. destruct (cden (init command_dec) r0) as [c r1| | |] eqn:J; cbn [stage] in H; try discriminate. destruct (CC r0 c r1 B J) as [-> [s F]].
      apply bytes_ok_app in B as [_ B]. apply (v2p_done (v2_mode c) r1 m r B) in H as (p & -> & R). apply (v2_mode_reads s c m p F) in R as [(i & I1 & I2 & I3 & R)|(-> & -> & NK)].
      * exists (0 :: c ++ p). split; [cbn [app]; now rewrite <- app_assoc|]. now apply (v2_long m i s c p).
      * exists (0 :: c). split; [reflexivity|]. now apply (v2_unknown s).
    + destruct (assocN x short_ids) as [mo|] eqn:A; [|discriminate]. apply (v2p_done mo r0 m r B) in H as (p & -> & R). destruct (short_ids_reads x mo A) as (s & IS & K). apply K in R as (i & I1 & I2 & R).
      exists (x :: p). split; [reflexivity|]. now apply (v2_short m i s x p).
  - intros (w & -> & R). destruct R as [m i s id p I1 I2 I3 R|m i s c p I1 I2 I3 F R|s c F NK].
    + pose proof (ids_pos id s I3) as P. pose proof (AR [id] (p ++ r) (is_arr1 id (proj2 P))) as E. cbn [app] in E |- *. rewrite E. cbn [stage]. unfold v2id. cbn [hd]. destruct (N.eqb_spec id 0); [lia|].
      destruct (assocN id short_ids) as [mo|] eqn:A; [|now apply (short_ids_none id s) in A]. destruct (short_ids_reads id mo A) as (s' & IS & K).
      assert (s' = s) as ->. { apply in_ids in IS, I3. congruence. }
      apply v2p_done; [now inversion B|]. exists p. split; [reflexivity|]. apply K. eauto.
    + pose proof (AR [0] (c ++ p ++ r) (is_arr1 0 eq_refl)) as E. cbn [app] in *. rewrite <- app_assoc, E. cbn [stage]. unfold v2id. cbn [hd N.eqb]. unfold v2c.
      rewrite (CR c (p ++ r)) by eauto. cbn [stage]. apply v2p_done; [inversion B as [|? ? _ B']; rewrite <- app_assoc, bytes_ok_app in B'; apply B'|]. exists p. split; [reflexivity|]. apply (v2_mode_reads s c m p F). left. eauto.
    + pose proof (AR [0] (c ++ r) (is_arr1 0 eq_refl)) as E. cbn [app] in *. rewrite E. cbn [stage]. unfold v2id. cbn [hd N.eqb]. unfold v2c.
      rewrite (CR c r) by eauto. cbn [stage]. apply v2p_done; [inversion B as [|? ? _ B']; now apply bytes_ok_app in B'|]. exists []. split; [reflexivity|]. apply (v2_mode_reads s c (MUnknown c []) [] F). right. auto.
Qed.
Lemma v2_no_boom : forall l, bytes_ok l -> lenN l <= U32_MAX -> v2_den (init v2_dec) l <> Boom.
Proof using ML AC CC AB CB.
  clear AL AN CL CN ag cg AR CR.
  assert (KP : forall mo l, bytes_ok l -> lenN l <= U32_MAX -> v2p mo (init (inner_dec mo)) l <> Boom).
  { intros mo l B L. destruct (ML mo) as (_ & _ & _ & NB). specialize (NB l B L). unfold v2p. destruct (snd (gd mo) _ l); try discriminate. congruence. }
  intros l B L. cbn [init v2_dec v2_den]. unfold v2s. pose proof (AB l B L) as NB. destruct (aden (init (array_dec 1)) l) as [b r0| | |] eqn:I; try discriminate; [|congruence].
  cbn [stage]. destruct (AC l b r0 B I) as [-> W]. apply bytes_ok_app in B as [_ B]. rewrite lenN_app in L. unfold v2id. destruct (hd 0 b =? 0).
  - unfold v2c. assert (L1 : lenN r0 <= U32_MAX) by lia. pose proof (CB r0 B L1) as NB1. destruct (cden (init command_dec) r0) as [c r1| | |] eqn:J; try discriminate; [|congruence].
    cbn [stage]. destruct (CC r0 c r1 B J) as [-> _]. apply bytes_ok_app in B as [_ B]. apply KP; [exact B|]. rewrite lenN_app in L1. lia.
  - destruct (assocN (hd 0 b) short_ids); [|discriminate]. apply KP; [exact B|lia].
Qed.
End V2.
Lemma v2_model : exists g den, lawful v2_dec g den /\ (forall l m r, bytes_ok l -> (den (init v2_dec) l = Done m r <-> exists w, l = w ++ r /\ reads_v2 m w)) /\
  (forall l, bytes_ok l -> lenN l <= U32_MAX -> den (init v2_dec) l <> Boom).
Proof.
  destruct modes as [gd ML], command_codec as (cg & cden & CL & CN & CR & CC & CB), (array_codec 1 eq_refl) as (ag & aden & AL & AN & AR & AC & AB).
  exists (v2_good gd ag cg), (v2_den gd aden cden). split; [|split].
  - exact (v2_lawful gd ML ag aden AL AN cg cden CL CN).
  - exact (v2_accept gd ML aden cden AR AC CR CC).
  - exact (v2_no_boom gd ML aden cden AC CC AB CB).
Qed.
