(** Lemmas for C58. *)
From Verif Require Import Base MDec LDec LDec2 LWitness LDrive LBuilt SDec MTx MEnc SEnc LEnc MIo SIo LIo MIoDrive SIoDrive.
Local Open Scope N_scope.

Section Read.
Context {A E : Type} (D : decoder A E) (g : st D -> Prop) (den : st D -> bytes -> outcome A E) (L : lawful D g den).
Context (R : reader) (at_ : rstate R -> bytes -> Prop) (Law : reads_from R at_).

(** what a driver started in decoder state [s] over the bytes [d] has come to; [failing k r'] says where the reader failed *)
Definition came_to (failing : kind -> rstate R -> Prop) (s : st D) (d : bytes) (out : rust (result A (read_error E) * rstate R)) : Prop :=
  match out with
  | Panic => den s d = Boom
  | Ret (res, r') => exists taken rest, d = taken ++ rest /\ at_ r' rest /\
      match res with
      | Ok v => den s d = Done v rest
      | Err (RdDecode e) => run_of (den s d) = RErr e
      | Err (RdIo k) => k <> Interrupted /\ failing k r'
      end
  end.
Lemma came_shift : forall F s s' p d' out, den s (p ++ d') = den s' d' -> came_to F s' d' out -> came_to F s (p ++ d') out.
Proof using.
  intros F s s' p d' [[res r']|] H; cbn [came_to]; rewrite H; [|auto]. intros (t & u & -> & K & M). exists (p ++ t), u. split; [now rewrite app_assoc|]. split; [exact K|]. exact M.
Qed.
Lemma finish_lim0 : forall F s r' d, (forall t, den s t = of_fin (fin D s) t) -> at_ r' d -> forall out, finish R D s r' = Some out -> came_to F s d out.
Proof using.
  intros F s r' d H K out Eo. unfold finish in Eo. injection Eo as <-. specialize (H d).
  destruct (fin D s) as [[v|e]|]; cbn [came_to]; [| |exact H]; exists [], d; (split; [reflexivity|]); (split; [exact K|]); rewrite H; reflexivity.
Qed.
Lemma finish_eof : forall F s r', g s -> at_ r' [] -> forall out, finish R D s r' = Some out -> came_to F s [] out.
Proof using L.
  intros F s r' G K out Eo. unfold finish in Eo. injection Eo as <-. pose proof (law_fin _ _ _ L s G) as H.
  destruct (den s []) as [v r|e|e|] eqn:Es; rewrite H; cbn [came_to]; try (exists [], []; split; [reflexivity|]; split; [exact K|]; rewrite Es; auto); auto.
  now rewrite (done_nil D g den L s v r G Es).
Qed.
(** [Ready], the reader left where the decoder stopped *)
Lemma finish_ready : forall F s s' p d' r', den s (p ++ d') = of_fin (fin D s') d' -> at_ r' d' -> forall out, finish R D s' r' = Some out -> came_to F s (p ++ d') out.
Proof using.
  intros F s s' p d' r' H K out Eo. unfold finish in Eo. injection Eo as <-.
  destruct (fin D s') as [[v|e]|]; cbn [came_to]; [| |exact H]; exists p, d'; rewrite H; (split; [reflexivity|]); (split; [exact K|]); reflexivity.
Qed.
Lemma not_interrupted : forall k, is_interrupted k = false -> k <> Interrupted.
Proof using. intros k H ->. discriminate. Qed.

Definition fill_failed (k : kind) (r' : rstate R) : Prop := exists before, rfill R before = Ret (Err k, r').
Lemma read_with_spec : forall fuel s r d out, g s -> at_ r d -> read_with R D fuel s r = Some out -> came_to fill_failed s d out.
Proof using L Law.
  induction fuel as [|fuel IH]; intros s r d out G K Eo; [discriminate|]. cbn [read_with] in Eo.
  destruct Law as (_ & LF & _). destruct (LF r d K) as (x & r1 & Ex & K1 & H). rewrite Ex in Eo. destruct x as [bs|k].
  - destruct H as (He & d' & -> & HC). destruct bs as [|b bs].
    + rewrite (He eq_refl) in *. exact (finish_eof _ s r1 G K1 out Eo).
    + set (B := b :: bs) in *. clear He. assert (NB : B <> []) by discriminate. clearbody B. clear b bs.
      pose proof (law_push _ _ _ L s B G) as P. destruct (push D s B) as [[s' l] stt]. destruct stt as [| |e|].
      * destruct P as (G' & (p & -> & Np) & Hd). rewrite lenN_app in Eo. replace (lenN p + lenN l - lenN l) with (lenN p) in Eo by lia.
        destruct (HC (lenN p)) as (r2 & E2 & K2); [rewrite lenN_app; lia|]. rewrite E2 in Eo. specialize (Hd d'). rewrite <- app_assoc in K2, Hd |- *. rewrite dropN_exact in K2 by reflexivity.
        exact (came_shift _ s s' p (l ++ d') out Hd (IH s' r2 (l ++ d') out G' K2 Eo)).
      * destruct P as ((p & ->) & Hd). rewrite lenN_app in Eo. replace (lenN p + lenN l - lenN l) with (lenN p) in Eo by lia.
        destruct (HC (lenN p)) as (r2 & E2 & K2); [rewrite lenN_app; lia|]. rewrite E2 in Eo. specialize (Hd d'). rewrite <- app_assoc in K2, Hd |- *. rewrite dropN_exact in K2 by reflexivity.
        exact (finish_ready _ s s' p (l ++ d') r2 Hd K2 out Eo).
      * destruct P as (_ & Hd). injection Eo as <-. cbn [came_to]. exists [], (B ++ d'). split; [reflexivity|]. split; [exact K1|]. rewrite Hd. reflexivity.
      * injection Eo as <-. cbn [came_to]. apply P.
  - destruct (is_interrupted k) eqn:Ik; [exact (IH s r1 d out G K1 Eo)|]. injection Eo as <-. cbn [came_to]. exists [], d. split; [reflexivity|]. split; [exact K1|]. split; [now apply not_interrupted|]. now exists r.
Qed.
Lemma finish_some : forall s r, finish R D s r <> None.
Proof using. discriminate. Qed.
Lemma read_with_ends : forall m, settles R at_ m -> forall fuel s r d, g s -> at_ r d -> (m r + length d < fuel)%nat -> read_with R D fuel s r <> None.
Proof using L Law.
  intros m (_ & SF & SC). induction fuel as [|fuel IH]; intros s r d G K F; [lia|]. cbn [read_with].
  destruct Law as (_ & LF & _). destruct (LF r d K) as (x & r1 & Ex & K1 & H). specialize (SF r d K). rewrite Ex in SF |- *. cbv iota beta in SF. destruct x as [bs|k].
  - destruct H as (He & d' & -> & HC). destruct bs as [|b bs]; [apply finish_some|].
    set (B := b :: bs) in *. clear He. assert (NB : B <> []) by discriminate. clearbody B. clear b bs.
    pose proof (law_push _ _ _ L s B G) as P. destruct (push D s B) as [[s' l] stt]. destruct stt as [| |e|]; try discriminate.
    + destruct P as (G' & (p & -> & Np) & _). rewrite lenN_app. replace (lenN p + lenN l - lenN l) with (lenN p) by lia.
      destruct (HC (lenN p)) as (r2 & E2 & K2); [rewrite lenN_app; lia|]. rewrite E2. specialize (SC r1 _ r2 E2). rewrite <- app_assoc in K2. rewrite dropN_exact in K2 by reflexivity.
      apply (IH s' r2 (l ++ d') G' K2). specialize (Np NB). destruct p; [congruence|]. rewrite app_length in F. rewrite app_length in F. rewrite app_length. cbn [length] in F. lia.
    + destruct P as ((p & ->) & _). rewrite lenN_app. replace (lenN p + lenN l - lenN l) with (lenN p) by lia.
      destruct (HC (lenN p)) as (r2 & E2 & K2); [rewrite lenN_app; lia|]. rewrite E2. apply finish_some.
  - destruct (is_interrupted k); [|discriminate]. apply (IH s r1 d G K1). lia.
Qed.
Lemma read_with_less : forall m, settles R at_ m -> forall fuel s r d res r', g s -> at_ r d -> read_with R D fuel s r = Some (Ret (res, r')) -> (m r' <= m r)%nat.
Proof using L Law.
  intros m (_ & SF & SC). assert (Fin : forall s r res r', finish R D s r = Some (Ret (res, r')) -> r' = r) by (intros s1 r1 res r'; unfold finish; destruct (fin D s1) as [[|]|]; congruence).
  induction fuel as [|fuel IH]; intros s r d res r' G K Eo; [discriminate|]. cbn [read_with] in Eo.
  destruct Law as (_ & LF & _). destruct (LF r d K) as (x & r1 & Ex & K1 & H). specialize (SF r d K). rewrite Ex in SF, Eo. cbv iota beta in SF. destruct x as [bs|k].
  - destruct H as (He & d' & -> & HC). destruct bs as [|b bs]; [rewrite (Fin _ _ _ _ Eo); exact SF|].
    set (B := b :: bs) in *. clear He. clearbody B. clear b bs.
    pose proof (law_push _ _ _ L s B G) as P. destruct (push D s B) as [[s' l] stt]. destruct stt as [| |e|]; try discriminate.
    + destruct P as (G' & (p & -> & Np) & _). rewrite lenN_app in Eo. replace (lenN p + lenN l - lenN l) with (lenN p) in Eo by lia.
      destruct (HC (lenN p)) as (r2 & E2 & K2); [rewrite lenN_app; lia|]. rewrite E2 in Eo. specialize (SC r1 _ r2 E2). specialize (IH s' r2 _ res r' G' K2 Eo). lia.
    + destruct P as ((p & ->) & _). rewrite lenN_app in Eo. replace (lenN p + lenN l - lenN l) with (lenN p) in Eo by lia.
      destruct (HC (lenN p)) as (r2 & E2 & K2); [rewrite lenN_app; lia|]. rewrite E2 in Eo. specialize (SC r1 _ r2 E2). rewrite (Fin _ _ _ _ Eo). lia.
    + injection Eo as <- <-. exact SF.
  - destruct (is_interrupted k); [specialize (IH s r1 d res r' G K1 Eo); lia|]. injection Eo as <- <-. lia.
Qed.
Lemma read_with_patient : patient_fill R at_ -> forall fuel s r d k r', g s -> at_ r d -> read_with R D fuel s r <> Some (Ret (Err (RdIo k), r')).
Proof using L Law.
  intro PF. induction fuel as [|fuel IH]; intros s r d k0 r0 G K; [discriminate|]. cbn [read_with].
  destruct Law as (_ & LF & _). destruct (LF r d K) as (x & r1 & Ex & K1 & H). rewrite Ex. destruct x as [bs|k].
  - destruct H as (He & d' & -> & HC). assert (Fin : forall s r, finish R D s r <> Some (Ret (Err (RdIo k0), r0))) by (intros s1 r2; unfold finish; destruct (fin D s1) as [[|]|]; discriminate).
    destruct bs as [|b bs]; [apply Fin|].
    set (B := b :: bs) in *. clear He. assert (NB : B <> []) by discriminate. clearbody B. clear b bs.
    pose proof (law_push _ _ _ L s B G) as P. destruct (push D s B) as [[s' l] stt]. destruct stt as [| |e|]; try discriminate.
    + destruct P as (G' & (p & -> & Np) & _). rewrite lenN_app. replace (lenN p + lenN l - lenN l) with (lenN p) by lia.
      destruct (HC (lenN p)) as (r2 & E2 & K2); [rewrite lenN_app; lia|]. rewrite E2. exact (IH s' r2 _ k0 r0 G' K2).
    + destruct P as ((p & ->) & _). rewrite lenN_app. replace (lenN p + lenN l - lenN l) with (lenN p) by lia.
      destruct (HC (lenN p)) as (r2 & E2 & K2); [rewrite lenN_app; lia|]. rewrite E2. apply Fin.
  - rewrite (PF r d k r1 K Ex). cbn [is_interrupted]. exact (IH s r1 d k0 r0 G K1).
Qed.

Definition read_failed (k : kind) (r' : rstate R) : Prop := exists before n, rread R before n = Ret (Err k, r').
Lemma unbuffered_spec : forall size, 0 < size -> forall fuel s r d out, g s -> at_ r d -> unbuffered R D size fuel s r = Some out -> came_to read_failed s d out.
Proof using L Law.
  intros size Hs. induction fuel as [|fuel IH]; intros s r d out G K Eo; [discriminate|]. cbn [unbuffered] in Eo.
  destruct (N.eqb_spec (lim D s) 0) as [Z|NZ]; [exact (finish_lim0 _ s r d (law_lim0 _ _ _ L s G Z) K out Eo)|].
  destruct Law as (LR & _ & _). set (n := N.min (lim D s) size) in *. destruct (LR r d n K) as (x & r1 & Ex & H). rewrite Ex in Eo. destruct x as [bs|k].
  - destruct H as (d' & -> & Hl & He & K1). destruct bs as [|b bs].
    + destruct (He eq_refl) as [Hn|Hd]; [unfold n in Hn; lia|]. cbn [app] in Hd. rewrite Hd in *. exact (finish_eof _ s r1 G K1 out Eo).
    + set (B := b :: bs) in *. clear He. assert (NB : B <> []) by discriminate. clearbody B. clear b bs.
      replace (n <? lenN B) with false in Eo by lia. pose proof (feed_law D g den L (length B) s B G (le_n _)) as P.
      destruct (feed D (length B) s B) as [[s' l] stt]. destruct stt as [| |e|].
      * destruct P as (G' & _ & Hd). exact (came_shift _ s s' B d' out (Hd d') (IH s' r1 d' out G' K1 Eo)).
      * destruct P as ((p & Hp) & Hd). unfold finish in Eo. injection Eo as <-. assert (Hd0 := Hd []). rewrite !app_nil_r in Hd0. specialize (Hd d').
        destruct (fin D s') as [[v|e]|]; cbn [came_to of_fin of_res] in *; [| |exact Hd]; exists B, d'; (split; [reflexivity|]); (split; [exact K1|]); rewrite Hd; [|reflexivity].
        pose proof (law_lim _ _ _ L _ _ _ _ G Hd0) as Q. assert (l = []) as -> by (apply lenN_nil_inv; unfold n in *; lia). reflexivity.
      * destruct P as (_ & Hd). injection Eo as <-. cbn [came_to]. exists B, d'. split; [reflexivity|]. split; [exact K1|]. rewrite Hd. reflexivity.
      * injection Eo as <-. cbn [came_to]. apply P.
  - destruct (is_interrupted k) eqn:Ik; [exact (IH s r1 d out G H Eo)|]. injection Eo as <-. cbn [came_to]. exists [], d. split; [reflexivity|]. split; [exact H|]. split; [now apply not_interrupted|]. now exists r, n.
Qed.
Lemma unbuffered_ends : forall m, settles R at_ m -> forall size fuel s r d, g s -> at_ r d -> (m r + length d < fuel)%nat -> unbuffered R D size fuel s r <> None.
Proof using L Law.
  intros m (SR & _ & _) size. induction fuel as [|fuel IH]; intros s r d G K F; [lia|]. cbn [unbuffered].
  destruct (lim D s =? 0); [apply finish_some|]. destruct Law as (LR & _ & _). set (n := N.min (lim D s) size) in *. destruct (LR r d n K) as (x & r1 & Ex & H). specialize (SR r d n K). rewrite Ex in SR |- *. cbv iota beta in SR. destruct x as [bs|k].
  - destruct H as (d' & -> & Hl & He & K1). destruct bs as [|b bs]; [apply finish_some|].
    set (B := b :: bs) in *. clear He. assert (NB : B <> []) by discriminate. clearbody B. clear b bs.
    replace (n <? lenN B) with false by lia. pose proof (feed_law D g den L (length B) s B G (le_n _)) as P.
    destruct (feed D (length B) s B) as [[s' l] stt]. destruct stt as [| |e|]; try discriminate.
    destruct P as (G' & _). apply (IH s' r1 d' G' K1). destruct B; [congruence|]. rewrite app_length in F. cbn [length] in F. lia.
  - destruct (is_interrupted k); [|discriminate]. apply (IH s r1 d G H). lia.
Qed.
Lemma unbuffered_patient : patient R at_ -> forall size fuel s r d k r', g s -> at_ r d -> unbuffered R D size fuel s r <> Some (Ret (Err (RdIo k), r')).
Proof using L Law.
  intros PF size. induction fuel as [|fuel IH]; intros s r d k0 r0 G K; [discriminate|]. cbn [unbuffered].
  assert (Fin : forall s r, finish R D s r <> Some (Ret (Err (RdIo k0), r0))) by (intros s1 r2; unfold finish; destruct (fin D s1) as [[|]|]; discriminate).
  destruct (lim D s =? 0); [apply Fin|]. destruct Law as (LR & _ & _). set (n := N.min (lim D s) size) in *. destruct (LR r d n K) as (x & r1 & Ex & H). rewrite Ex. destruct x as [bs|k].
  - destruct H as (d' & -> & Hl & He & K1). destruct bs as [|b bs]; [apply Fin|].
    set (B := b :: bs) in *. clear He. clearbody B. clear b bs.
    replace (n <? lenN B) with false by lia. pose proof (feed_law D g den L (length B) s B G (le_n _)) as P.
    destruct (feed D (length B) s B) as [[s' l] stt]. destruct stt as [| |e|]; try discriminate; [|apply Fin].
    destruct P as (G' & _). exact (IH s' r1 d' k0 r0 G' K1).
  - rewrite (PF r d n k r1 K Ex). cbn [is_interrupted]. exact (IH s r1 d k0 r0 G H).
Qed.
End Read.

(** ** Writing *)
Section Write.
Context (W : writer) (out : wstate W -> bytes) (Law : writes_to W out).
Lemma drain_spec : forall wfuel fuel e w r, sound e -> drain_to_writer W wfuel fuel e w = Some r ->
  exists res w' p q, r = Ret (res, w') /\ content e = p ++ q /\ out w' = out w ++ p /\ match res with Ok _ => q = [] | Err k => q <> [] /\ k <> Interrupted end.
Proof using Law.
  intros wfuel. induction fuel as [|fuel IH]; intros e w r S Eo; [discriminate|]. cbn [drain_to_writer] in Eo.
  destruct (adv_law e S) as (ch & Hc & H). rewrite Hc in Eo. destruct (write_all W wfuel w ch) as [x|] eqn:Ew; [|discriminate].
  destruct (write_all_spec W out Law wfuel w ch x Ew) as (res & w1 & p & q & -> & Ec & O1 & H1). destruct res as [u|k].
  - subst q. rewrite app_nil_r in Ec. subst p. destruct (adv e) as [[e' [|]]|]; [| |contradiction].
    + destruct H as (Ce & S' & _). destruct (IH e' w1 r S' Eo) as (res & w2 & p & q & -> & Ep & O2 & H2). exists res, w2, (ch ++ p), q. rewrite Ce, Ep, O2, O1, !app_assoc. auto.
    + destruct H as (Ce & _). injection Eo as <-. exists (Ok tt), w1, ch, []. rewrite app_nil_r. auto.
  - injection Eo as <-. destruct H1 as [Nq Nk]. destruct (adv e) as [[e' [|]]|]; [| |contradiction].
    + destruct H as (Ce & _). exists (Err k), w1, p, (q ++ content e'). rewrite Ce, Ec, <- app_assoc. split; [reflexivity|]. split; [reflexivity|]. split; [exact O1|]. split; [|exact Nk]. intro Z. apply app_eq_nil in Z as [Z _]. contradiction.
    + destruct H as (Ce & _). exists (Err k), w1, p, q. rewrite Ce. auto.
Qed.
Lemma write_all_ends : forall m, settles_w W m -> forall fuel st buf, (m st + length buf < fuel)%nat -> exists res st', write_all W fuel st buf = Some (Ret (res, st')) /\ (m st' <= m st)%nat.
Proof using Law.
  intros m Sm. induction fuel as [|fuel IH]; intros st buf F; [lia|]. destruct buf as [|b buf]; [cbn [write_all]; eauto|]. cbn [write_all]. set (B := b :: buf) in *. assert (NB : (0 < length B)%nat) by (cbn; lia). clearbody B. clear b buf.
  destruct (Law st B) as (x & st1 & Ex & H). specialize (Sm st B). rewrite Ex in Sm |- *. cbv iota beta in Sm. destruct x as [n|k].
  - destruct H as [Hn _]. destruct (N.eqb_spec n 0); [eauto|]. replace (lenN B <? n) with false by lia.
    destruct (IH st1 (dropN n B)) as (res & st2 & E2 & M2). { pose proof (lenN_dropN n B) as Q. unfold lenN in *. lia. } exists res, st2. split; [exact E2|lia].
  - destruct (is_interrupted k); [|eexists _, _; split; [reflexivity|lia]]. destruct (IH st1 B) as (res & st2 & E2 & M2); [lia|]. exists res, st2. split; [exact E2|lia].
Qed.
Lemma drain_ends : forall m, settles_w W m -> forall wfuel fuel e w, sound e -> (steps e <= fuel)%nat -> (m w + length (content e) < wfuel)%nat ->
  drain_to_writer W wfuel fuel e w <> None.
Proof using Law.
  intros m Sm wfuel. induction fuel as [|fuel IH]; intros e w S Hf Hw; [pose proof (steps_pos e S); lia|]. cbn [drain_to_writer].
  destruct (adv_law e S) as (ch & Hc & H). rewrite Hc. destruct (write_all_ends m Sm wfuel w ch) as (res & w1 & E1 & M1).
  { destruct (content_chunk e ch S Hc) as (t & Et). rewrite Et, app_length in Hw. lia. }
  rewrite E1. destruct res; [|discriminate]. destruct (adv e) as [[e' [|]]|]; [|discriminate|contradiction].
  destruct H as (Ce & S' & St). apply (IH e' w1 S'); [lia|]. rewrite Ce, app_length in Hw. lia.
Qed.
Lemma write_all_willing : forall inv, willing W inv -> forall fuel st buf res st', inv st -> write_all W fuel st buf = Some (Ret (res, st')) -> res = Ok tt /\ inv st'.
Proof using Law.
  intros inv Wi. induction fuel as [|fuel IH]; intros st buf res st' I E; (destruct buf as [|b buf]; [cbn [write_all] in E; injection E as <- <-; auto|]); [cbn [write_all] in E; discriminate|].
  cbn [write_all] in E. set (B := b :: buf) in *. assert (NB : B <> []) by discriminate. clearbody B. clear b buf. specialize (Wi st B I NB). destruct (wwrite W st B) as [[[n|k] st1]|]; [| |contradiction].
  - destruct Wi as [Wn I1]. replace (n =? 0) with false in E by lia. destruct (lenN B <? n); [discriminate|]. exact (IH st1 _ res st' I1 E).
  - destruct Wi as [-> I1]. cbn [is_interrupted] in E. exact (IH st1 B res st' I1 E).
Qed.
Lemma drain_willing : forall inv, willing W inv -> forall wfuel fuel e w res w', inv w -> sound e -> drain_to_writer W wfuel fuel e w = Some (Ret (res, w')) -> res = Ok tt /\ inv w'.
Proof using Law.
  intros inv Wi wfuel. induction fuel as [|fuel IH]; intros e w res w' I S E; [discriminate|]. cbn [drain_to_writer] in E.
  destruct (adv_law e S) as (ch & Hc & H). rewrite Hc in E. destruct (write_all W wfuel w ch) as [x|] eqn:Ew; [|discriminate].
  destruct (write_all_spec W out Law wfuel w ch x Ew) as (r1 & w1 & p & q & -> & _). destruct (write_all_willing inv Wi _ _ _ _ _ I Ew) as [-> I1].
  destruct (adv e) as [[e' [|]]|]; [| |contradiction].
  - destruct H as (_ & S' & _). exact (IH e' w1 res w' I1 S' E).
  - injection E as <- <-. auto.
Qed.
End Write.
Lemma world_settles_w : settles_w world_writer (fun s => length (snd s)).
Proof. intros [o ev] buf. cbn [wwrite world_writer]. destruct ev as [|[k|k] ev]; cbn [snd length]; lia. Qed.
Lemma world_willing : willing world_writer willing_world.
Proof.
  intros [o ev] buf I NB. assert (0 < lenN buf) by (destruct buf; [congruence|rewrite lenN_cons; lia]). unfold willing_world in *. cbn [wwrite world_writer snd] in *. destruct ev as [|[k|k] ev]; cbn [snd]; [split; [lia|constructor]| |]; inv I; cbn [willing_event] in *; split; auto; lia.
Qed.
Lemma vec_willing : settles_w vec_writer (fun _ => 0%nat) /\ willing vec_writer (fun _ => True).
Proof. split; [intros st buf; cbn; lia|]. intros st buf _ NB. cbn [wwrite vec_writer]. destruct buf; [congruence|]. rewrite lenN_cons. split; [lia|auto]. Qed.
Lemma quiet_fill : patient_fill world_reader quiet_at.
Proof.
  intros [buf rest ev] d e st' [_ Q] E. cbn [rfill world_reader] in E. unfold world_fill in E. cbn [w_buf w_events w_rest] in *. destruct buf; [|discriminate]. destruct ev as [|[k|k] ev]; try discriminate. injection E as <- <-. inv Q. destruct k; cbn in *; tauto.
Qed.
Lemma cursor_fill_patient : patient_fill cursor_reader cursor_at.
Proof. intros st d e st' _ E. discriminate. Qed.
Lemma slice_fill_patient : patient_fill slice_reader (fun s d => d = s).
Proof. intros st d e st' _ E. discriminate. Qed.
