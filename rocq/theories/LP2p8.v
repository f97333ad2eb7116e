(** What the V1 decoder accepts. *)
From Coq Require Import String.
From Verif Require Import Base MDec LDec LDec2 LDrive LBuilt LPrefix LCompact LCodec MWitness SWitness LWitness LWitDec MTx MAmount MText LAmountText MPmt MBip152 LTx2 LWire LPmt3 LBip152 LTaproot LBip32b LSha2b MP2p MP2pMsg SWire SPmt SBip152 SP2p LP2p LP2p2 LP2p3 LP2p4 LP2p5 LP2p6 LP2p7.
Local Open Scope N_scope.

Lemma cmd_name : forall m i s, number m = Some i -> nth_error known i = Some s -> cmd m = s /\ command m = match command_of s with Ok c => Ret c | Err _ => Panic end.
Proof.
  intros m i s H K.
  destruct m as [[]| | | | | | | | | | | | | | | | | | | | | | | | | | | | | | | |c0 b0]; cbn [number] in H; try discriminate; injection H as <-; apply (f_equal (fun x => match x with Some y => y | None => [] end)) in K; cbn [nth_error known map] in K; subst s; split; reflexivity.
Qed.
Lemma command_named : forall m c, named m c -> command m = Ret c.
Proof.
  intros m c H. unfold named in H. destruct (number m) as [i|] eqn:I.
  - destruct H as (s & K & F). destruct (cmd_name m i s I K) as [_ ->]. now rewrite (command_of_field s c F).
  - destruct H as (p & -> & _). reflexivity.
Qed.
Lemma known_field : forall s, In s known -> field s (pad12 s).
Proof.
  intros s H. apply field_pad.
  - assert (A : forallb (forallb (fun x => (0 <? x) && (x <? 128))) known = true) by (vm_compute; reflexivity). rewrite forallb_forall in A. now apply A.
  - assert (A : forallb (fun s => Nat.leb (length s) 12) known = true) by (vm_compute; reflexivity). rewrite forallb_forall in A. apply A in H. now apply Nat.leb_le.
Qed.
Lemma named_exists : forall m, (forall c p, m <> MUnknown c p) -> exists c, named m c.
Proof.
  intros m NU. unfold named. destruct (number m) as [i|] eqn:I.
  - assert (exists s, nth_error known i = Some s) as [s K].
    { destruct m as [[]| | | | | | | | | | | | | | | | | | | | | | | | | | | | | | | |c0 b0]; cbn [number] in I; try discriminate; injection I as <-; eexists; reflexivity. }
    exists (pad12 s), s. split; [exact K|]. apply known_field. now apply nth_error_In in K.
  - destruct m as [[]| | | | | | | | | | | | | | | | | | | | | | | | | | | | | | | |c0 b0]; try discriminate I. now destruct (NU c0 b0).
Qed.
Lemma named_field : forall m c, named m c -> exists s, field s c.
Proof. intros m c H. unfold named in H. destruct (number m); [destruct H as (s & _ & F)|destruct H as (p & _ & s & F & _)]; eauto. Qed.
Lemma reads_len : forall m p, reads m p -> lenN (payload_encode m) = lenN p /\ reads m (payload_encode m).
Proof.
  intros m p R. pose proof (reads_encode m p R) as E. destruct m; try (rewrite E; auto; fail). cbn [reads payload_encode] in *. now apply reads_version_encode.
Qed.
Lemma hash4 : forall h, hash_ok h -> is_array 4 (firstn 4 h).
Proof.
  intros h [L B]. split; [|now apply bytes_ok_firstn]. unfold lenN in *. rewrite firstn_length. lia.
Qed.

Section V1.
Context (sha256d : bytes -> bytes) (HS : forall m, hash_ok (sha256d m)).
Definition v1_seen (magic c p : bytes) (m : message) : v1_message :=
  mk_v1 (mk_v1h magic c (lenN p) (firstn 4 (sha256d (payload_encode m)))) m.
Lemma v1_new_named : forall magic m c, named m c -> lenN (payload_encode m) < 2 ^ 32 ->
  v1_new sha256d magic m = Ret (mk_v1 (mk_v1h magic c (lenN (payload_encode m)) (firstn 4 (sha256d (payload_encode m)))) m).
Proof using.
  clear HS. intros magic m c Nm L. unfold v1_new, v1_header_new, sha2_checksum. rewrite (command_named m c Nm). cbn [rbind].
  change (2 ^ 32) with 4294967296 in L. replace (lenN (payload_encode m) <? 4294967296) with true by lia. reflexivity.
Qed.
Definition v1_accepts (l : bytes) (x : v1_message) (r : bytes) : Prop :=
  exists magic c p m, l = frame sha256d magic c p ++ r /\ lenN magic = 4 /\ lenN p <= 5000000 /\ named m c /\ reads m p /\ x = v1_seen magic c p m.

Context (gd : forall mo, mgd mo) (ML : forall mo, rlaws (inner_dec mo) (mreads mo) (gd mo)).
Context (hg : st v1_header_dec -> Prop) (hden : st v1_header_dec -> bytes -> outcome v1_header v1_header_err).
Context (HL : lawful v1_header_dec hg hden) (HN : forall s, hg s -> exists e, hden s [] = More e).
Context (HR : roundtrips v1_header_dec hden v1_header_encode v1_header_ok) (HC : canonical v1_header_dec hden v1_header_encode v1_header_ok).

Lemma v1_accept : forall l x r, bytes_ok l -> (v1_den sha256d gd hden (init (v1_dec sha256d)) l = Done x r <-> v1_accepts l x r).
Proof using HS ML HR HC.
  intros l x r B. cbn [init v1_dec v1_den]. split.
  - intros H. destruct (hden (init v1_header_dec) l) as [h r0| | |] eqn:I; try discriminate. destruct (HC l h r0 B I) as [-> (W1 & (s & F) & W3 & W4)].
    destruct (N.ltb_spec MAX_MSG_SIZE (mh_length h)) as [TL|TL]; [discriminate|]. unfold pden in H. replace (mh_length h <? 0) with false in H by lia. rewrite N.sub_0_r in H. cbn [app] in H.
    destruct (N.ltb_spec (lenN r0) (mh_length h)) as [NL|NL]; [destruct (iden _ _ _ _); discriminate|].
    set (p := takeN (mh_length h) r0) in *. assert (LP : lenN p = mh_length h) by (unfold p; rewrite lenN_takeN; lia).
    assert (RP : r0 = p ++ dropN (mh_length h) r0) by (unfold p; now rewrite takeN_dropN). set (z := dropN (mh_length h) r0) in *.
    apply bytes_ok_app in B as [B1 B2]. assert (BP : bytes_ok p) by (rewrite RP in B2; now apply bytes_ok_app in B2).
    unfold iden in H. destruct (snd (gd (v1_mode (mh_command h) (mh_length h))) (init (inner_dec (v1_mode (mh_command h) (mh_length h)))) p) as [m [|? ?]| | |] eqn:ID; try discriminate.
    destruct (ML (v1_mode (mh_command h) (mh_length h))) as (_ & _ & CN & _). destruct (CN p m [] BP ID) as (q & E & R). rewrite app_nil_r in E. subst q.
    rewrite <- LP in R. apply (v1_mode_reads s _ _ _ F) in R as [Nm R]. destruct (reads_len m p R) as [RL _].
    unfold finish in H. destruct (beqb (mh_checksum h) (firstn 4 (sha256d p))) eqn:CK; [|discriminate]. apply LWire.beqb_eq in CK.
    rewrite (v1_new_named (mh_magic h) m (mh_command h) Nm) in H by (rewrite RL; change (2 ^ 32) with 4294967296; unfold MAX_MSG_SIZE in TL; lia). injection H as <- <-.
    exists (mh_magic h), (mh_command h), p, m. split; [|split; [apply W1|split; [unfold MAX_MSG_SIZE in TL; lia|split; [exact Nm|split; [exact R|]]]]].
    + rewrite RP at 1. unfold frame, v1_header_encode. rewrite LP, <- CK, <- !app_assoc. reflexivity.
    + unfold v1_seen. now rewrite RL.
  - intros (magic & c & p & m & -> & LM & LP & Nm & R & ->). destruct (named_field m c Nm) as [s F]. destruct (reads_len m p R) as [RL _].
    assert (BM : bytes_ok magic /\ bytes_ok p). { unfold frame in B. rewrite !bytes_ok_app in B. tauto. }
    set (h := mk_v1h magic c (lenN p) (firstn 4 (sha256d p))).
    assert (W : v1_header_ok h). { split; [split; [exact LM|apply BM]|]. split; [exists s; exact F|]. split; [unfold is_u32; cbn [mh_length h]; change (2 ^ 32) with 4294967296; lia|]. now apply hash4. }
    replace (frame sha256d magic c p ++ r) with (v1_header_encode h ++ p ++ r) by (unfold frame, v1_header_encode, h; cbn [mh_magic mh_command mh_length mh_checksum]; now rewrite <- !app_assoc).
    rewrite (HR h (p ++ r) W). cbn [mh_length mh_magic mh_command mh_checksum h]. unfold MAX_MSG_SIZE. replace (5000000 <? lenN p) with false by lia.
    unfold pden. replace (lenN p <? 0) with false by lia. rewrite N.sub_0_r, lenN_app. replace (lenN p + lenN r <? lenN p) with false by lia.
    rewrite (takeN_exact _ p r (lenN p) eq_refl), (dropN_exact _ p r (lenN p) eq_refl). cbn [app]. unfold iden.
    destruct (ML (v1_mode c (lenN p))) as (_ & RT & _). specialize (RT m p [] (proj2 (v1_mode_reads s c m p F) (conj Nm R))). rewrite app_nil_r in RT. rewrite RT.
    unfold finish. replace (beqb (firstn 4 (sha256d p)) (firstn 4 (sha256d p))) with true by (symmetry; now apply LWire.beqb_eq).
    rewrite (v1_new_named magic m c Nm) by (rewrite RL; change (2 ^ 32) with 4294967296; lia). unfold v1_seen. now rewrite RL.
Qed.
End V1.

Section Use.
Context (sha256d : bytes -> bytes) (HS : forall m, hash_ok (sha256d m)).
Lemma v1_model : exists g den, lawful (calm (v1_dec sha256d)) g den /\ (forall l x r, bytes_ok l -> (den (init (v1_dec sha256d)) l = Done x r <-> v1_accepts sha256d l x r)).
Proof using HS.
  destruct modes as [gd ML], v1_header_codec as (hg & hden & HL & HN & HR & HC & _).
  exists (v1_good gd hg), (v1_den sha256d gd hden). split; [now apply v1_lawful|]. intros. now apply (v1_accept sha256d HS gd ML hden HR HC).
Qed.
Lemma v1_chunks : forall cs x r, bytes_ok (concat cs) -> (feed_chunks (v1_dec sha256d) (init (v1_dec sha256d)) cs = RDone x r <-> v1_accepts sha256d (concat cs) x r).
Proof using HS.
  intros cs x r B. destruct v1_model as (g & den & L & A). rewrite <- calm_chunks, <- (A _ _ _ B).
  pose proof (feed_chunks_den _ _ _ L cs _ (law_init _ _ _ L)) as K. change (init (calm (v1_dec sha256d))) with (init (v1_dec sha256d)) in K. rewrite K. apply run_done.
Qed.
Lemma v1_slice : forall l x r, bytes_ok l -> (decode_from_slice_unbounded (v1_dec sha256d) l = Ret (Ok x, r) <-> v1_accepts sha256d l x r).
Proof using HS.
  intros l x r B. destruct v1_model as (g & den & L & A). rewrite <- calm_slice, <- (A _ _ _ B). pose proof (slice_unbounded_den _ _ _ L l) as K. change (init (calm (v1_dec sha256d))) with (init (v1_dec sha256d)) in K.
  destruct (den (init (v1_dec sha256d)) l); [rewrite K; split; congruence|destruct K as [r' ->]; split; congruence|destruct K as [r' ->]; split; congruence|rewrite K; split; congruence].
Qed.
Lemma v1_read : forall es x r, Forall data_ok es -> bytes_ok (events_bytes es) ->
  ((exists b es', decode_from_read (v1_dec sha256d) es = Ret (Ok x, b, es') /\ b ++ events_bytes es' = r) <-> v1_accepts sha256d (events_bytes es) x r).
Proof using HS.
  intros es x r F B. destruct v1_model as (g & den & L & A). rewrite <- (A _ _ _ B). pose proof (decode_from_read_den _ _ _ L es F) as K. change (init (calm (v1_dec sha256d))) with (init (v1_dec sha256d)) in K.
  unfold decode_from_read in *. change (init (calm (v1_dec sha256d))) with (init (v1_dec sha256d)) in K. split.
  - intros (b & es' & H & <-). apply calm_read in H. destruct (den (init (v1_dec sha256d)) (events_bytes es)) as [v r'| | |].
    + destruct K as (b' & es2 & K & E). rewrite K in H. injection H as -> -> ->. now rewrite E.
    + destruct K as (b' & es2 & K). rewrite K in H. discriminate.
    + destruct K as (b' & es2 & K). rewrite K in H. discriminate.
    + rewrite K in H. discriminate.
  - intros H. rewrite H in K. destruct K as (b & es' & K & E). exists b, es'. split; [now apply calm_read|exact E].
Qed.
Lemma v1_unbuffered : forall bs src want x r, 0 < bs -> bytes_ok src -> (decode_from_read_unbuffered (v1_dec sha256d) bs src want = Ret (Ok x, r) <-> v1_accepts sha256d src x r).
Proof using HS.
  intros bs src want x r Hb B. destruct v1_model as (g & den & L & A). rewrite <- (A _ _ _ B). pose proof (decode_unbuffered_den _ _ _ L bs src want Hb) as K. change (init (calm (v1_dec sha256d))) with (init (v1_dec sha256d)) in K.
  unfold decode_from_read_unbuffered in *. rewrite <- calm_unbuffered. change (init (calm (v1_dec sha256d))) with (init (v1_dec sha256d)) in K.
  destruct (den (init (v1_dec sha256d)) src); [rewrite K; split; congruence|destruct K as [r' ->]; split; congruence|destruct K as [r' ->]; split; congruence|rewrite K; split; congruence].
Qed.
End Use.

(** *** No panic *)
Section Safe.
Context (sha256d : bytes -> bytes).
Context (gd : forall mo, mgd mo) (ML : forall mo, rlaws (inner_dec mo) (mreads mo) (gd mo)).
Context (hg : st v1_header_dec -> Prop) (hden : st v1_header_dec -> bytes -> outcome v1_header v1_header_err).
Context (HL : lawful v1_header_dec hg hden) (HN : forall s, hg s -> exists e, hden s [] = More e).
Context (HC : canonical v1_header_dec hden v1_header_encode v1_header_ok) (HB : no_boom v1_header_dec hden).

Lemma mreads_safe : forall mo m q, mreads mo m q -> (exists c, command m = Ret c) /\ lenN (payload_encode m) = lenN q.
Proof using.
  clear. intros [k|c|c n] m q R; cbn [mreads] in R.
  - destruct R as [K R]. split; [|now apply reads_len]. destruct (named_exists m) as [c Nm]; [intros c p ->; discriminate K|]. exists c. now apply command_named.
  - destruct R as (-> & b & _ & ->). split; [|reflexivity]. destruct (named_exists (MBare b)) as [c0 Nm]; [intros c0 p; discriminate|]. exists c0. now apply command_named.
  - destruct R as [-> _]. split; [now exists c|reflexivity].
Qed.
Lemma finish_safe : forall magic checksum n mo s c e q m, fin (inner_dec mo) s = Ret (Ok m) -> mreads mo m q -> lenN q <= U32_MAX ->
  v1_fin sha256d (V1Payload magic checksum n mo s c e) <> Panic.
Proof using.
  clear. intros magic checksum n mo s c e q m F R L. cbn [v1_fin]. destruct (negb (c =? n)); [discriminate|]. rewrite F. destruct (negb _); [discriminate|].
  destruct (mreads_safe mo m q R) as [[c' C] P]. unfold v1_new, v1_header_new, sha2_checksum. rewrite C. cbn [rbind]. rewrite P. unfold U32_MAX in L. replace (lenN q <? 4294967296) with true by lia. discriminate.
Qed.
(** [whole] is all that was given, [pend] its part not yet consumed *)
Definition safe (s : v1_state) (whole pend : bytes) : Prop :=
  match s with
  | V1Header hs => hg hs /\ (exists a, whole = a ++ pend) /\ forall t, hden (init v1_header_dec) (whole ++ t) = hden hs (pend ++ t)
  | V1Payload _ _ _ mo s _ _ => fst (gd mo) s /\ exists a p, whole = a ++ p /\ forall t, snd (gd mo) (init (inner_dec mo)) (p ++ t) = snd (gd mo) s (pend ++ t)
  end.
Lemma safe_more : forall s whole l, safe s whole [] -> safe s (whole ++ l) l.
Proof using.
  clear. intros [hs|magic checksum n mo s c e] whole l S1.
  - destruct S1 as (G & _ & H). split; [exact G|]. split; [now exists whole|]. intros t. now rewrite <- app_assoc, H.
  - destruct S1 as (G & a & p & -> & H). split; [exact G|]. exists a, (p ++ l). split; [now rewrite app_assoc|]. intros t. now rewrite <- app_assoc, H.
Qed.
Lemma safe_fin : forall s whole, bytes_ok whole -> lenN whole <= U32_MAX -> safe s whole [] -> v1_fin sha256d s <> Panic.
Proof using ML HL HN.
  intros [hs|magic checksum n mo s c e] fed B L S1.
  - destruct S1 as [G _]. destruct (HN hs G) as [u U]. pose proof (law_fin _ _ _ HL hs G) as F. rewrite U in F. cbn [v1_fin]. now rewrite F.
  - destruct S1 as (G & a & p & -> & IP). apply bytes_ok_app in B as [_ B]. rewrite lenN_app in L. destruct (ML mo) as (IL & _ & CN & NB).
    pose proof (law_fin _ _ _ IL s G) as F. specialize (IP []). rewrite app_nil_r in IP. cbn [app] in IP. destruct (snd (gd mo) s []) as [m r| | |] eqn:I.
    + destruct (CN p m r B IP) as (q & E & R). apply (finish_safe magic checksum n mo s c e q m F R). rewrite E, lenN_app in L. lia.
    + cbn [v1_fin]. rewrite F. destruct (negb _); discriminate.
    + cbn [v1_fin]. rewrite F. destruct (negb _); discriminate.
    + exfalso. apply (NB p B); [lia|exact IP].
Qed.
Definition step_safe (s0 : v1_state * bytes * pstatus v1_err) (whole l : bytes) : Prop :=
  match s0 with
  | (s', r, NeedsMore) => (exists p, l = p ++ r /\ (l <> [] -> p <> [])) /\ safe s' whole r
  | (s', r, Ready) => v1_fin sha256d s' <> Panic
  | (_, _, PErr _) => True
  | (_, _, PPanic) => False
  end.
Lemma payload_safe : forall magic checksum n mo s c e whole l, bytes_ok whole -> lenN whole <= U32_MAX -> safe (V1Payload magic checksum n mo s c e) whole l ->
  step_safe (v1_push_payload magic checksum n mo s c e l) whole l.
Proof using ML.
  intros magic checksum n mo s c e whole l B L (G & a & p & -> & IP). apply bytes_ok_app in B as [_ B]. rewrite lenN_app in L. unfold v1_push_payload. destruct (ML mo) as (IL & _ & CN & NB). pose proof (law_push _ _ _ IL s l G) as P.
  destruct (push (inner_dec mo) s l) as [[s' r] []]; cbn [step_safe].
  - destruct P as (G' & PR & Q). split; [exact PR|]. split; [exact G'|]. exists a, p. split; [reflexivity|]. intros t. now rewrite IP, Q.
  - destruct P as (_ & Q). specialize (IP []). rewrite app_nil_r in IP. specialize (Q []). rewrite Q, app_nil_r in IP. destruct (fin (inner_dec mo) s') as [[m|u]|] eqn:F; cbn [of_fin of_res] in IP.
    + destruct (CN p m r B IP) as (q & E & R). apply (finish_safe magic checksum n mo s' _ _ q m F R). rewrite E, lenN_app in L. lia.
    + cbn [v1_fin]. rewrite F. destruct (negb _); discriminate.
    + exfalso. apply (NB p B); [lia|exact IP].
  - exact I.
  - apply (NB p B); [lia|]. specialize (IP []). rewrite app_nil_r in IP. rewrite IP. apply P.
Qed.
Lemma push_safe : forall s whole l, bytes_ok whole -> lenN whole <= U32_MAX -> safe s whole l -> step_safe (v1_push s l) whole l.
Proof using ML HL HN HB.
  intros [hs|magic checksum n mo s c e] whole l B L S1; [|now apply payload_safe].
  destruct S1 as (G & (a & ->) & IP). cbn [v1_push]. pose proof (law_push _ _ _ HL hs l G) as P. destruct (push v1_header_dec hs l) as [[hs' r] []]; cbn [step_safe].
  - destruct P as (G' & PR & Q). split; [exact PR|]. split; [exact G'|]. destruct PR as (p & -> & _). split; [exists (a ++ p); now rewrite app_assoc|]. intros t. now rewrite IP, Q.
  - destruct P as ((p & ->) & Q). destruct (fin v1_header_dec hs') as [[h|u]|] eqn:F; cbn [of_fin of_res] in Q; cbn [step_safe].
    + destruct (MAX_MSG_SIZE <? mh_length h); [exact I|]. set (mo := v1_mode (mh_command h) (mh_length h)).
      assert (PN : p <> []).
      { intros ->. specialize (Q []). cbn [app] in Q. destruct (law_done _ _ _ HL _ _ _ _ G Q) as (q & E & Q2). assert (q = []) as -> by (destruct q; [reflexivity|apply (f_equal lenN) in E; rewrite !lenN_app, lenN_cons, lenN_nil in E; lia]).
        specialize (Q2 []). cbn [app] in Q2. destruct (HN hs G) as [u U]. congruence. }
      pose proof (payload_safe (mh_magic h) (mh_checksum h) (mh_length h) mo (init (inner_dec mo)) 0 [] (a ++ p ++ r) r B L) as PS.
      assert (S0 : safe (V1Payload (mh_magic h) (mh_checksum h) (mh_length h) mo (init (inner_dec mo)) 0 []) (a ++ p ++ r) r).
      { destruct (ML mo) as (IL & _). split; [exact (law_init _ _ _ IL)|]. exists (a ++ p), r. split; [now rewrite app_assoc|reflexivity]. }
      specialize (PS S0). destruct (v1_push_payload _ _ _ mo _ _ _ r) as [[s' r'] []]; cbn [step_safe] in *; auto.
      destruct PS as ((q & -> & _) & PS). split; [|exact PS]. exists (p ++ q). split; [now rewrite app_assoc|]. intros _ X. apply app_eq_nil in X as [X _]. contradiction.
    + exact I.
    + apply (HB (a ++ p ++ r) B L). specialize (IP []). rewrite app_nil_r in IP. rewrite IP. apply Q.
  - exact I.
  - apply (HB (a ++ l) B L). specialize (IP []). rewrite app_nil_r in IP. rewrite IP. apply P.
Qed.
Lemma feed_safe : forall fuel s whole l, (length l <= fuel)%nat -> bytes_ok whole -> lenN whole <= U32_MAX -> safe s whole l ->
  match feed (v1_dec sha256d) fuel s l with
  | (s', r, NeedsMore) => safe s' whole []
  | (s', r, Ready) => v1_fin sha256d s' <> Panic
  | (_, _, PErr _) => True
  | (_, _, PPanic) => False
  end.
Proof using ML HL HN HB.
  induction fuel as [|fuel IH]; intros s whole l F B L S1; (destruct l as [|x l]; [exact S1|]); [cbn [length] in F; lia|]. cbn [feed push v1_dec].
  pose proof (push_safe s whole (x :: l) B L S1) as P. destruct (v1_push s (x :: l)) as [[s' r] []]; cbn [step_safe] in P; auto.
  destruct P as ((p & E & NE) & S2). apply IH; auto. specialize (NE ltac:(discriminate)). destruct p as [|y p]; [congruence|]. apply (f_equal (@length N)) in E. rewrite app_length in E. cbn [length] in *. lia.
Qed.
Lemma chunks_safe : forall cs s whole, bytes_ok (whole ++ concat cs) -> lenN (whole ++ concat cs) <= U32_MAX -> safe s whole [] ->
  feed_chunks (v1_dec sha256d) s cs <> RPanic.
Proof using ML HL HN HB.
  induction cs as [|c cs IH]; intros s whole B L S1; cbn [feed_chunks concat] in *.
  - rewrite app_nil_r in *. pose proof (safe_fin s whole B L S1) as F. cbn [fin v1_dec]. destruct (v1_fin sha256d s) as [[]|]; congruence.
  - rewrite app_assoc in B, L. assert (B1 : bytes_ok (whole ++ c)) by (now apply bytes_ok_app in B). assert (L1 : lenN (whole ++ c) <= U32_MAX) by (rewrite lenN_app in L; lia).
    pose proof (feed_safe (length c) s (whole ++ c) c ltac:(lia) B1 L1 (safe_more s whole c S1)) as F. destruct (feed (v1_dec sha256d) (length c) s c) as [[s' r] []]; try discriminate.
    + now apply (IH s' (whole ++ c)).
    + cbn [fin v1_dec]. destruct (v1_fin sha256d s') as [[]|]; congruence.
    + contradiction.
Qed.
Lemma slice_safe : forall l, bytes_ok l -> lenN l <= U32_MAX -> safe (init (v1_dec sha256d)) [] [] -> decode_from_slice_unbounded (v1_dec sha256d) l <> Panic.
Proof using ML HL HN HB.
  intros l B L S1. unfold decode_from_slice_unbounded. pose proof (feed_safe (length l) (init (v1_dec sha256d)) l l ltac:(lia) B L (safe_more _ [] l S1)) as F.
  destruct (feed (v1_dec sha256d) (length l) (init (v1_dec sha256d)) l) as [[s' r] []]; try discriminate; try contradiction; cbn [fin v1_dec].
  - pose proof (safe_fin s' l B L F). destruct (v1_fin sha256d s'); congruence.
  - destruct (v1_fin sha256d s'); congruence.
Qed.
End Safe.
Lemma v1_no_panic : forall sha256d cs, bytes_ok (concat cs) -> lenN (concat cs) < 2 ^ 32 -> feed_chunks (v1_dec sha256d) (init (v1_dec sha256d)) cs <> RPanic.
Proof.
  intros sha256d cs B L. destruct modes as [gd ML], v1_header_codec as (hg & hden & HL & HN & HR & HC & HB).
  apply (chunks_safe sha256d gd ML hg hden HL HN HB cs _ []); [exact B|cbn [app]; unfold U32_MAX; change (2 ^ 32) with 4294967296 in L; lia|].
  split; [exact (law_init _ _ _ HL)|]. split; [now exists []|reflexivity].
Qed.
Lemma v1_slice_no_panic : forall sha256d l, bytes_ok l -> lenN l < 2 ^ 32 -> decode_from_slice_unbounded (v1_dec sha256d) l <> Panic.
Proof.
  intros sha256d l B L. destruct modes as [gd ML], v1_header_codec as (hg & hden & HL & HN & HR & HC & HB).
  apply (slice_safe sha256d gd ML hg hden HL HN HB l B); [unfold U32_MAX; change (2 ^ 32) with 4294967296 in L; lia|].
  split; [exact (law_init _ _ _ HL)|]. split; [now exists []|reflexivity].
Qed.
