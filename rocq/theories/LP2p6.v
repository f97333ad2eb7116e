(** The V1 decoder: what it accepts, whatever the chunks. *)
From Verif Require Import Base MDec LDec LDec2 LDrive LBuilt LPrefix LCompact LCodec MWitness SWitness LWitness LWitDec MTx MAmount MText LAmountText MPmt MBip152 LTx2 LWire LPmt3 LBip152 LTaproot LBip32b LSha2b MP2p MP2pMsg SWire SPmt SBip152 SP2p LP2p LP2p2 LP2p3 LP2p4 LP2p5.
Local Open Scope N_scope.

(** A decoder with its errors and panics made equal. *)
Definition calm {A E} (D : decoder A E) : decoder A unit :=
  {| st := st D; init := init D;
     push := fun s l => match push D s l with
                        | (s', r, NeedsMore) => (s', r, NeedsMore)
                        | (s', r, Ready) => (s', r, Ready)
                        | (s', _, _) => (s', l, PErr tt)
                        end;
     fin := fun s => match fin D s with Ret (Ok v) => Ret (Ok v) | _ => Ret (Err tt) end;
     lim := lim D |}.

Section V1.
Context (sha256d : bytes -> bytes).
Context (gd : forall mo, mgd mo) (ML : forall mo, rlaws (inner_dec mo) (mreads mo) (gd mo)).
Definition ig mo := fst (gd mo).
Definition iden mo := snd (gd mo).
Definition il mo : lawful (inner_dec mo) (ig mo) (iden mo) := proj1 (ML mo).
Context (hg : st v1_header_dec -> Prop) (hden : st v1_header_dec -> bytes -> outcome v1_header v1_header_err).
Context (HL : lawful v1_header_dec hg hden) (HN : forall s, hg s -> exists e, hden s [] = More e).

Definition finish (magic checksum engine : bytes) (m : message) (r : bytes) : outcome v1_message unit :=
  if beqb checksum (firstn 4 (sha256d engine)) then
    match v1_new sha256d magic m with Ret x => Done x r | Panic => Fail tt end
  else Fail tt.
Definition pden (magic checksum : bytes) (n : N) (mo : mode) (s : st (inner_dec mo)) (c : N) (engine l : bytes) : outcome v1_message unit :=
  if n <? c then Fail tt else
  if lenN l <? n - c then (match iden mo s l with More _ => More tt | _ => Fail tt end) else
  match iden mo s (takeN (n - c) l) with
  | Done m [] => finish magic checksum (engine ++ takeN (n - c) l) m (dropN (n - c) l)
  | _ => Fail tt
  end.
Definition v1_good (s : v1_state) : Prop :=
  match s with V1Header hs => hg hs | V1Payload _ _ _ mo s _ _ => ig mo s end.
Definition v1_den (s : v1_state) (l : bytes) : outcome v1_message unit :=
  match s with
  | V1Header hs =>
      match hden hs l with
      | Done h r => if MAX_MSG_SIZE <? mh_length h then Fail tt else
                    pden (mh_magic h) (mh_checksum h) (mh_length h) (v1_mode (mh_command h) (mh_length h)) (init (inner_dec _)) 0 [] r
      | More _ => More tt
      | _ => Fail tt
      end
  | V1Payload magic checksum n mo s c e => pden magic checksum n mo s c e l
  end.
Lemma finish_done : forall magic checksum engine m r v r', finish magic checksum engine m r = Done v r' -> r' = r /\ forall t, finish magic checksum engine m t = Done v t.
Proof.
  intros magic checksum engine m r v r' H. unfold finish in *. destruct (beqb _ _); [|discriminate]. destruct (v1_new _ _ _); [|discriminate]. injection H as <- <-. auto.
Qed.
Lemma finish_not : forall magic checksum engine m r, match finish magic checksum engine m r with More _ | Boom => False | Fail u => u = tt | Done _ _ => True end.
Proof. intros. unfold finish. destruct (beqb _ _); [|reflexivity]. destruct (v1_new _ _ _); auto. Qed.
Lemma pden_done : forall magic checksum n mo s c e l v r, ig mo s -> pden magic checksum n mo s c e l = Done v r ->
  exists p, l = p ++ r /\ lenN p = n - c /\ forall t, pden magic checksum n mo s c e (p ++ t) = Done v t.
Proof.
  intros magic checksum n mo s c e l v r G H. unfold pden in *. destruct (n <? c) eqn:NC; [discriminate|].
  destruct (lenN l <? n - c) eqn:NL; [destruct (iden mo s l); discriminate|]. apply N.ltb_ge in NL.
  destruct (iden mo s (takeN (n - c) l)) as [m [|x y]| | |] eqn:I; try discriminate. destruct (finish_done _ _ _ _ _ _ _ H) as [-> F].
  exists (takeN (n - c) l). split; [now rewrite takeN_dropN|]. assert (LP : lenN (takeN (n - c) l) = n - c) by (rewrite lenN_takeN; lia). split; [exact LP|]. intros t.
  set (p := takeN (n - c) l) in *. rewrite lenN_app, LP. replace (n - c + lenN t <? n - c) with false by lia. rewrite (takeN_exact _ p t (n - c) LP), (dropN_exact _ p t (n - c) LP), I. apply F.
Qed.
Lemma pden_fail : forall magic checksum n mo s c e l u t, ig mo s -> pden magic checksum n mo s c e l = Fail u -> pden magic checksum n mo s c e (l ++ t) = Fail tt.
Proof.
  intros magic checksum n mo s c e l u t G H. unfold pden in *. destruct (n <? c) eqn:NC; [reflexivity|]. pose proof (il mo) as L. rewrite lenN_app.
  destruct (N.ltb_spec (lenN l) (n - c)) as [NL|NL].
  - destruct (N.ltb_spec (lenN l + lenN t) (n - c)) as [NT|NT].
    + destruct (iden mo s l) as [m r| | |] eqn:I; try discriminate.
      * destruct (law_done _ _ _ L _ _ _ _ G I) as (p & -> & P). rewrite <- app_assoc, P. reflexivity.
      * now rewrite (law_fail _ _ _ L _ _ _ t G I).
      * now rewrite (law_boom _ _ _ L _ _ t G I).
    + rewrite takeN_app_ge by lia. set (x := takeN (n - c - lenN l) t). assert (LX : 0 < lenN x) by (unfold x; rewrite lenN_takeN; lia).
      destruct (iden mo s l) as [m r| | |] eqn:I; try discriminate.
      * destruct (law_done _ _ _ L _ _ _ _ G I) as (p & -> & P). rewrite <- (app_assoc p r x), P. destruct (r ++ x) eqn:E; [|reflexivity].
        apply app_eq_nil in E as [_ E]. rewrite E, lenN_nil in LX. lia.
      * now rewrite (law_fail _ _ _ L _ _ _ x G I).
      * now rewrite (law_boom _ _ _ L _ _ x G I).
  - replace (lenN l + lenN t <? n - c) with false by lia. rewrite takeN_app_le by lia. destruct (iden mo s (takeN (n - c) l)) as [m [|? ?]| | |]; try reflexivity.
    unfold finish in *. destruct (beqb _ _); [|reflexivity]. destruct (v1_new _ _ _); [discriminate|reflexivity].
Qed.
Lemma pden_not : forall magic checksum n mo s c e l, pden magic checksum n mo s c e l <> Boom.
Proof.
  intros. unfold pden. destruct (n <? c); [discriminate|]. destruct (lenN l <? n - c); [destruct (iden mo s l); discriminate|].
  destruct (iden _ _ _) as [m [|? ?]| | |]; try discriminate. pose proof (finish_not magic checksum (e ++ takeN (n - c) l) m (dropN (n - c) l)) as F.
  destruct (finish _ _ _ _ _); congruence || contradiction.
Qed.
(** If the inner decoder neither waits nor stops at the announced length, the message is refused. *)
Lemma pden_refuse : forall magic checksum n mo s c e l, ig mo s -> (forall u, iden mo s l <> More u) ->
  (forall m z, iden mo s l = Done m z -> lenN l = n - c + lenN z -> n < c) -> pden magic checksum n mo s c e l = Fail tt.
Proof.
  intros magic checksum n mo s c e l G NM ND. unfold pden. destruct (N.ltb_spec n c) as [|NC]; [reflexivity|].
  destruct (N.ltb_spec (lenN l) (n - c)) as [NL|NL]; [destruct (iden mo s l) eqn:I; try reflexivity; now destruct (NM e0)|].
  destruct (iden mo s (takeN (n - c) l)) as [m [|x y]| | |] eqn:I; try reflexivity. exfalso.
  destruct (law_done _ _ _ (il mo) _ _ _ _ G I) as (p & E & P). rewrite app_nil_r in E. subst p. specialize (P (dropN (n - c) l)). rewrite takeN_dropN in P.
  specialize (ND _ _ P). rewrite lenN_dropN in ND. apply N.lt_nge in ND; [contradiction|lia].
Qed.
Lemma pden_moves : forall magic checksum n mo s c e s' p r t, ig mo s -> ig mo s' -> (forall t, iden mo s ((p ++ r) ++ t) = iden mo s' (r ++ t)) ->
  pden magic checksum n mo s c e ((p ++ r) ++ t) = pden magic checksum n mo s' (c + lenN p) (e ++ p) (r ++ t).
Proof.
  intros magic checksum n mo s c e s' p r t G G' IP. pose proof (il mo) as L.
  destruct (N.lt_ge_cases n (c + lenN p)) as [C|C].
  - unfold pden at 2. replace (n <? c + lenN p) with true by lia. unfold pden. destruct (N.ltb_spec n c) as [NC|NC]; [reflexivity|]. rewrite !lenN_app. destruct (N.ltb_spec (lenN p + lenN r + lenN t) (n - c)); [lia|].
    rewrite <- app_assoc, takeN_app_le by lia. destruct (iden mo s (takeN (n - c) p)) as [m [|x y]| | |] eqn:I; try reflexivity. exfalso.
    destruct (law_done _ _ _ L _ _ _ _ G I) as (q & E & P). rewrite app_nil_r in E. subst q. specialize (P (dropN (n - c) p ++ r ++ t)).
    rewrite app_assoc, takeN_dropN, app_assoc, IP in P. destruct (law_done _ _ _ L _ _ _ _ G' P) as (q & E & _). apply (f_equal lenN) in E. rewrite !lenN_app, lenN_dropN in E. lia.
  - unfold pden. replace (n <? c) with false by lia. replace (n <? c + lenN p) with false by lia.
    rewrite <- (app_assoc p r t). set (x := r ++ t) in *. rewrite lenN_app. replace (lenN p + lenN x <? n - c) with (lenN x <? n - (c + lenN p)) by lia.
    destruct (N.ltb_spec (lenN x) (n - (c + lenN p))) as [NL|NL].
    + specialize (IP t). fold x in IP. rewrite <- app_assoc in IP. fold x in IP. now rewrite IP.
    + rewrite takeN_app_ge, dropN_app_ge by lia. replace (n - c - lenN p) with (n - (c + lenN p)) by lia. set (w := n - (c + lenN p)) in *.
      set (y := takeN w x). set (z := dropN w x). assert (XYZ : x = y ++ z) by (unfold y, z; now rewrite takeN_dropN).
      assert (IX : iden mo s (p ++ y ++ z) = iden mo s' (y ++ z)) by (rewrite <- XYZ; unfold x; rewrite app_assoc; apply IP).
      assert (A : forall m, iden mo s (p ++ y) = Done m [] <-> iden mo s' y = Done m []).
      { intros m. split; intros I.
        - destruct (law_done _ _ _ L _ _ _ _ G I) as (q & E & P). rewrite app_nil_r in E. subst q. specialize (P z). rewrite <- app_assoc, IX in P.
          destruct (law_done _ _ _ L _ _ _ _ G' P) as (q & E & Q). apply app_inv_tail in E. subst q. specialize (Q []). now rewrite app_nil_r in Q.
        - destruct (law_done _ _ _ L _ _ _ _ G' I) as (q & E & P). rewrite app_nil_r in E. subst q. specialize (P z). rewrite <- IX, app_assoc in P.
          destruct (law_done _ _ _ L _ _ _ _ G P) as (q & E & Q). apply app_inv_tail in E. subst q. specialize (Q []). now rewrite app_nil_r in Q. }
      rewrite app_assoc. destruct (iden mo s' y) as [m [|u v]| | |] eqn:I'.
      1: { rewrite (proj2 (A m) eq_refl). reflexivity. }
      all: destruct (iden mo s (p ++ y)) as [m' [|u' v']| | |] eqn:I; try reflexivity; exfalso; pose proof (proj1 (A _) eq_refl); discriminate.
Qed.
Lemma calm_fin_payload : forall magic checksum n mo s c e r,
  of_fin (fin (calm (v1_dec sha256d)) (V1Payload magic checksum n mo s c e)) r =
  if c =? n then match fin (inner_dec mo) s with Ret (Ok m) => finish magic checksum e m r | _ => Fail tt end else Fail tt.
Proof.
  intros. cbn [fin calm v1_dec v1_fin]. destruct (c =? n); cbn [negb]; [|reflexivity]. destruct (fin (inner_dec mo) s) as [[m|]|]; try reflexivity.
  unfold finish. destruct (beqb _ _); cbn [negb]; [|reflexivity]. destruct (v1_new sha256d magic m); reflexivity.
Qed.
Lemma push_payload : forall magic checksum n mo s c e l, ig mo s ->
  match v1_push_payload magic checksum n mo s c e l with
  | (s', r, NeedsMore) => v1_good s' /\ (exists p, l = p ++ r /\ (l <> [] -> p <> [])) /\
                          forall t, pden magic checksum n mo s c e (l ++ t) = v1_den s' (r ++ t)
  | (s', r, Ready) => (exists p, l = p ++ r) /\ forall t, pden magic checksum n mo s c e (l ++ t) = of_fin (fin (calm (v1_dec sha256d)) s') (r ++ t)
  | _ => forall t, pden magic checksum n mo s c e (l ++ t) = Fail tt
  end.
Proof.
  intros magic checksum n mo s c e l G. pose proof (il mo) as L. unfold v1_push_payload. pose proof (law_push _ _ _ L s l G) as P.
  destruct (push (inner_dec mo) s l) as [[s' r] []].
  - destruct P as (G' & (p & -> & NE) & IP). split; [exact G'|]. split; [exists p; auto|]. intros t. cbn [v1_den].
    replace (lenN (p ++ r) - lenN r) with (lenN p) by (rewrite lenN_app; lia). rewrite (takeN_exact _ p r (lenN p) eq_refl). now apply pden_moves.
  - destruct P as ((p & ->) & IP). split; [now exists p|]. intros t. rewrite calm_fin_payload.
    replace (lenN (p ++ r) - lenN r) with (lenN p) by (rewrite lenN_app; lia). rewrite (takeN_exact _ p r (lenN p) eq_refl).
    destruct (N.eqb_spec (c + lenN p) n) as [E|NE].
    + unfold pden. replace (n <? c) with false by lia. rewrite !lenN_app. replace (lenN p + lenN r + lenN t <? n - c) with false by lia.
      rewrite <- (app_assoc p r t), (takeN_exact _ p (r ++ t) (n - c)), (dropN_exact _ p (r ++ t) (n - c)) by lia.
      assert (A : forall m, iden mo s p = Done m [] <-> fin (inner_dec mo) s' = Ret (Ok m)).
      { intros m. split; intros I.
        - destruct (law_done _ _ _ L _ _ _ _ G I) as (q & E' & Q). rewrite app_nil_r in E'. subst q. specialize (IP []). rewrite !app_nil_r, Q in IP.
          destruct (fin (inner_dec mo) s') as [[]|]; cbn [of_fin of_res] in IP; congruence.
        - specialize (IP []). rewrite !app_nil_r, I in IP. cbn [of_fin of_res] in IP. destruct (law_done _ _ _ L _ _ _ _ G IP) as (q & E' & Q). apply app_inv_tail in E'. subst q.
          specialize (Q []). now rewrite app_nil_r in Q. }
      destruct (fin (inner_dec mo) s') as [[m|u]|] eqn:F.
      * now rewrite (proj2 (A m) eq_refl).
      * destruct (iden mo s p) as [m' [|? ?]| | |] eqn:I; try reflexivity. pose proof (proj1 (A _) eq_refl). discriminate.
      * destruct (iden mo s p) as [m' [|? ?]| | |] eqn:I; try reflexivity. pose proof (proj1 (A _) eq_refl). discriminate.
    + apply pden_refuse; [exact G| |].
      * intros u. rewrite IP. destruct (fin (inner_dec mo) s') as [[]|]; discriminate.
      * intros m z I LZ. rewrite IP in I. destruct (fin (inner_dec mo) s') as [[]|]; try discriminate. injection I as _ <-. rewrite !lenN_app in LZ. lia.
  - destruct P as (_ & IP). intros t. apply pden_refuse; [exact G|intros u; rewrite IP; discriminate|]. intros m z I. rewrite IP in I. discriminate.
  - intros t. apply pden_refuse; [exact G|intros u; rewrite P; discriminate|]. intros m z I. rewrite P in I. discriminate.
Qed.
Lemma pden_fin : forall magic checksum n mo s c e, ig mo s ->
  match pden magic checksum n mo s c e [] with
  | Done v _ => fin (calm (v1_dec sha256d)) (V1Payload magic checksum n mo s c e) = Ret (Ok v)
  | More u | Fail u => fin (calm (v1_dec sha256d)) (V1Payload magic checksum n mo s c e) = Ret (Err u)
  | Boom => fin (calm (v1_dec sha256d)) (V1Payload magic checksum n mo s c e) = Panic
  end.
Proof.
  intros magic checksum n mo s c e G. pose proof (il mo) as L. assert (U : forall u : unit, u = tt) by (intros []; reflexivity).
  assert (F : forall X : outcome v1_message unit, (exists Y, X = Y /\ match Y with More _ => of_fin (fin (calm (v1_dec sha256d)) (V1Payload magic checksum n mo s c e)) [] = Fail tt
      | Done v _ => of_fin (fin (calm (v1_dec sha256d)) (V1Payload magic checksum n mo s c e)) [] = Done v []
      | Fail _ => of_fin (fin (calm (v1_dec sha256d)) (V1Payload magic checksum n mo s c e)) [] = Fail tt | Boom => False end) ->
     match X with Done v _ => fin (calm (v1_dec sha256d)) (V1Payload magic checksum n mo s c e) = Ret (Ok v)
       | More u | Fail u => fin (calm (v1_dec sha256d)) (V1Payload magic checksum n mo s c e) = Ret (Err u)
       | Boom => fin (calm (v1_dec sha256d)) (V1Payload magic checksum n mo s c e) = Panic end).
  { intros X (Y & -> & H). destruct (fin (calm (v1_dec sha256d)) (V1Payload magic checksum n mo s c e)) as [[v|[]]|]; cbn [of_fin of_res] in H; destruct Y as [? ?|[]|[]|]; try congruence; try contradiction. }
  apply F. clear F. eexists. split; [reflexivity|]. rewrite calm_fin_payload. unfold pden. rewrite lenN_nil.
  destruct (N.ltb_spec n c) as [NC|NC]; [destruct (N.eqb_spec c n); [lia|reflexivity]|].
  destruct (N.ltb_spec 0 (n - c)) as [W|W].
  - destruct (iden mo s []); (destruct (N.eqb_spec c n); [lia|reflexivity]).
  - assert (n - c = 0) as -> by lia. destruct (N.eqb_spec c n); [|lia]. change (takeN 0 (@nil N)) with (@nil N). change (dropN 0 (@nil N)) with (@nil N). rewrite app_nil_r.
    pose proof (law_fin _ _ _ L s G) as LF. destruct (iden mo s []) as [m r| | |] eqn:I; rewrite LF; try reflexivity.
    destruct (law_done _ _ _ L _ _ _ _ G I) as (q & E & _). symmetry in E. apply app_eq_nil in E as [_ ->].
    destruct (finish magic checksum e m []) eqn:FF; pose proof (finish_not magic checksum e m []) as FN; rewrite FF in FN; try contradiction; [|congruence].
    destruct (finish_done _ _ _ _ _ _ _ FF) as [-> _]. reflexivity.
Qed.
Lemma v1_header_push : forall hs l, hg hs -> 
  match v1_push (V1Header hs) l with
  | (s', r, NeedsMore) => v1_good s' /\ (exists p, l = p ++ r /\ (l <> [] -> p <> [])) /\ forall t, v1_den (V1Header hs) (l ++ t) = v1_den s' (r ++ t)
  | (s', r, Ready) => (exists p, l = p ++ r) /\ forall t, v1_den (V1Header hs) (l ++ t) = of_fin (fin (calm (v1_dec sha256d)) s') (r ++ t)
  | _ => forall t, v1_den (V1Header hs) (l ++ t) = Fail tt
  end.
Proof.
  intros hs l G. cbn [v1_push]. pose proof (law_push _ _ _ HL hs l G) as P. destruct (push v1_header_dec hs l) as [[hs' r] []].
  - destruct P as (G' & PR & IP). split; [exact G'|]. split; [exact PR|]. intros t. cbn [v1_den]. now rewrite IP.
  - destruct P as ((p & ->) & IP). destruct (fin v1_header_dec hs') as [[h|u]|] eqn:F; cbn [of_fin of_res] in IP.
    2: { intros t. cbn [v1_den]. now rewrite IP. }
    2: { intros t. cbn [v1_den]. now rewrite IP. }
    destruct (MAX_MSG_SIZE <? mh_length h) eqn:TL. { intros t. cbn [v1_den]. now rewrite IP, TL. }
    assert (PN : p <> []).
    { intros ->. specialize (IP []). cbn [app] in IP. destruct (law_done _ _ _ HL _ _ _ _ G IP) as (q & E & Q). assert (q = []) as -> by (destruct q; [reflexivity|apply (f_equal lenN) in E; rewrite !lenN_app, lenN_cons, lenN_nil in E; lia]).
      specialize (Q []). cbn [app] in Q. destruct (HN hs G) as [u U]. congruence. }
    set (mo := v1_mode (mh_command h) (mh_length h)). pose proof (push_payload (mh_magic h) (mh_checksum h) (mh_length h) mo (init (inner_dec mo)) 0 [] r (law_init _ _ _ (il mo))) as PP.
    destruct (v1_push_payload (mh_magic h) (mh_checksum h) (mh_length h) mo (init (inner_dec mo)) 0 [] r) as [[s' r'] []].
    + destruct PP as (G' & (q & -> & _) & IQ). split; [exact G'|]. split.
      * exists (p ++ q). rewrite app_assoc. split; [reflexivity|]. intros _ X. apply app_eq_nil in X. now apply PN.
      * intros t. rewrite <- IQ. cbn [v1_den]. rewrite IP, TL. reflexivity.
    + destruct PP as ((q & ->) & IQ). split; [exists (p ++ q); now rewrite app_assoc|]. intros t. rewrite <- IQ. cbn [v1_den]. rewrite IP, TL. reflexivity.
    + intros t. rewrite <- (PP t). cbn [v1_den]. rewrite IP, TL. reflexivity.
    + intros t. rewrite <- (PP t). cbn [v1_den]. rewrite IP, TL. reflexivity.
  - destruct P as (_ & IP). intros t. cbn [v1_den]. now rewrite IP.
  - intros t. cbn [v1_den]. now rewrite P.
Qed.
Lemma v1_lawful : lawful (calm (v1_dec sha256d)) v1_good v1_den.
Proof.
  assert (U : forall u : unit, u = tt) by (intros []; reflexivity).
  constructor.
  - exact (law_init _ _ _ HL).
  - intros s l G.
    assert (P : match v1_push s l with
      | (s', r, NeedsMore) => v1_good s' /\ (exists p, l = p ++ r /\ (l <> [] -> p <> [])) /\ forall t, v1_den s (l ++ t) = v1_den s' (r ++ t)
      | (s', r, Ready) => (exists p, l = p ++ r) /\ forall t, v1_den s (l ++ t) = of_fin (fin (calm (v1_dec sha256d)) s') (r ++ t)
      | _ => forall t, v1_den s (l ++ t) = Fail tt
      end).
    { destruct s as [hs|magic checksum n mo s c e]; [now apply v1_header_push|exact (push_payload magic checksum n mo s c e l G)]. }
    cbn [push calm v1_dec]. destruct (v1_push s l) as [[s' r] []]; auto; (split; [exists []; reflexivity|exact P]).
  - intros [hs|magic checksum n mo s c e] G; [|now apply pden_fin]. cbn [v1_den]. destruct (HN hs G) as [u E]. rewrite E. pose proof (law_fin _ _ _ HL hs G) as LF. rewrite E in LF.
    cbn [fin calm v1_dec v1_fin]. now rewrite LF.
  - intros [hs|magic checksum n mo s c e] l v r G H.
    + cbn [v1_den] in H. destruct (hden hs l) as [h r0| | |] eqn:I; try discriminate. destruct (MAX_MSG_SIZE <? mh_length h) eqn:TL; [discriminate|].
      destruct (law_done _ _ _ HL _ _ _ _ G I) as (p & -> & P). destruct (pden_done _ _ _ _ _ _ _ _ _ _ (law_init _ _ _ (il _)) H) as (q & -> & _ & Q).
      exists (p ++ q). split; [now rewrite app_assoc|]. intros t. cbn [v1_den]. rewrite <- app_assoc, P, TL. apply Q.
    + destruct (pden_done _ _ _ _ _ _ _ _ _ _ G H) as (p & -> & _ & P). exists p. split; [reflexivity|]. exact P.
  - intros [hs|magic checksum n mo s c e] l u t G H; rewrite (U u) in *.
    + cbn [v1_den] in *. destruct (hden hs l) as [h r0| | |] eqn:I; try discriminate.
      * destruct (law_done _ _ _ HL _ _ _ _ G I) as (p & -> & P). rewrite <- app_assoc, P. destruct (MAX_MSG_SIZE <? mh_length h); [reflexivity|]. eapply pden_fail; [apply (law_init _ _ _ (il _))|exact H].
      * now rewrite (law_fail _ _ _ HL _ _ _ t G I).
      * now rewrite (law_boom _ _ _ HL _ _ t G I).
    + cbn [v1_den] in *. eapply pden_fail; eauto.
  - intros [hs|magic checksum n mo s c e] l t G H; exfalso; cbn [v1_den] in H.
    + destruct (hden hs l); try discriminate. destruct (MAX_MSG_SIZE <? _); [discriminate|]. now apply pden_not in H.
    + now apply pden_not in H.
  - intros [hs|magic checksum n mo s c e] l v r G H; cbn [lim calm v1_dec v1_lim v1_den] in *.
    + destruct (hden hs l) as [h r0| | |] eqn:I; try discriminate. destruct (MAX_MSG_SIZE <? mh_length h); [discriminate|].
      pose proof (law_lim _ _ _ HL _ _ _ _ G I). destruct (pden_done _ _ _ _ _ _ _ _ _ _ (law_init _ _ _ (il _)) H) as (q & -> & _ & Q). rewrite lenN_app in *. lia.
    + destruct (pden_done _ _ _ _ _ _ _ _ _ _ G H) as (p & -> & LP & _). rewrite lenN_app. lia.
  - intros [hs|magic checksum n mo s c e] G H t; cbn [lim calm v1_dec v1_lim v1_den] in *.
    + exfalso. pose proof (law_lim0 _ _ _ HL hs G H []) as Z. destruct (HN hs G) as [u E]. rewrite E in Z. destruct (fin v1_header_dec hs) as [[]|]; discriminate.
    + rewrite calm_fin_payload. pose proof (il mo) as L. destruct (N.eqb_spec c n) as [->|NE].
      * unfold pden. rewrite N.ltb_irrefl, N.sub_diag. replace (lenN t <? 0) with false by lia. change (takeN 0 t) with (@nil N). change (dropN 0 t) with t. rewrite app_nil_r.
        pose proof (law_fin _ _ _ L s G) as LF. destruct (iden mo s []) as [m r| | |] eqn:I; rewrite LF; try reflexivity.
        destruct (law_done _ _ _ L _ _ _ _ G I) as (q & E & _). symmetry in E. apply app_eq_nil in E as [_ ->]. reflexivity.
      * destruct (N.lt_ge_cases n c) as [C|C]; [unfold pden; now replace (n <? c) with true by lia|]. assert (L0 : lim (inner_dec mo) s = 0) by lia.
        pose proof (law_lim0 _ _ _ L s G L0) as Z. apply pden_refuse; [exact G| |].
        -- intros u. rewrite Z. destruct (fin (inner_dec mo) s) as [[]|]; discriminate.
        -- intros m z I LZ. rewrite Z in I. destruct (fin (inner_dec mo) s) as [[]|]; try discriminate. injection I as _ <-. lia.
Qed.
End V1.
