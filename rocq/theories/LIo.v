(** Lemmas for C43. *)
From Verif Require Import Base MDec MIo SIo LDec LWitness.
Local Open Scope N_scope.

Lemma takeN_min : forall n (l : bytes), takeN (N.min n (lenN l)) l = takeN n l.
Proof. intros n l. destruct (N.le_gt_cases n (lenN l)); [now rewrite N.min_l by lia|]. rewrite N.min_r by lia. rewrite !takeN_all by lia. reflexivity. Qed.
Lemma dropN_min : forall n (l : bytes), dropN (N.min n (lenN l)) l = dropN n l.
Proof. intros n l. destruct (N.le_gt_cases n (lenN l)); [now rewrite N.min_l by lia|]. rewrite N.min_r by lia. rewrite !dropN_all by lia. reflexivity. Qed.
Lemma take_nil : forall n (l : bytes), takeN n l = [] -> n = 0 \/ l = [].
Proof. intros n l E. assert (L := lenN_takeN n l). rewrite E, lenN_nil in L. destruct l; [auto|]. rewrite lenN_cons in L. lia. Qed.
Lemma take_of_nil : forall n, takeN n ([] : bytes) = [].
Proof. intro n. unfold takeN. apply firstn_nil. Qed.
Lemma dropN_0 : forall (l : bytes), dropN 0 l = l.
Proof. reflexivity. Qed.
Lemma drop_drop : forall m n (l : bytes), dropN m (dropN n l) = dropN (n + m) l.
Proof. intros. apply LWitness.dropN_add. Qed.

Lemma slice_lawful : reads_from slice_reader (fun s d => d = s).
Proof.
  split; [|split].
  - intros st d n ->. cbn [rread slice_reader]. do 2 eexists. split; [reflexivity|]. exists (dropN (N.min (lenN st) n) st). split; [symmetry; apply takeN_dropN|]. split; [rewrite lenN_takeN; lia|]. split; [|reflexivity].
    intro E. apply take_nil in E. destruct E as [E|E]; [|auto]. destruct (N.eq_dec n 0); [auto|]. right. destruct st; [reflexivity|]. rewrite lenN_cons in E. lia.
  - intros st d ->. cbn [rfill rconsume slice_reader]. do 2 eexists. split; [reflexivity|]. split; [reflexivity|]. split; [auto|]. exists []. split; [now rewrite app_nil_r|]. intros k K. replace (lenN st <? k) with false by lia. eauto.
  - intros st d ->. exists st. split; [|reflexivity]. cbn [rconsume slice_reader]. now replace (lenN st <? 0) with false by lia.
Qed.
Lemma cursor_lawful : reads_from cursor_reader cursor_at.
Proof.
  split; [|split].
  - intros st d n [L ->]. cbn [rread cursor_reader]. unfold cursor_read. destruct (N.leb_spec (lenN (cu_inner st)) (cu_pos st)) as [G|G].
    + do 2 eexists. split; [reflexivity|]. exists []. rewrite dropN_all by lia. split; [reflexivity|]. split; [rewrite lenN_nil; lia|]. split; [auto|]. split; [exact L|]. now rewrite dropN_all by lia.
    + do 2 eexists. split; [reflexivity|]. set (k := N.min (lenN (cu_inner st) - cu_pos st) n). assert (U : N.min (cu_pos st + k) U64_MAX = cu_pos st + k) by (unfold U64_MAX; lia). rewrite U.
      exists (dropN k (dropN (cu_pos st) (cu_inner st))). split; [symmetry; apply takeN_dropN|]. split; [rewrite lenN_takeN; lia|]. split.
      * intro E. apply take_nil in E. destruct E as [E|E]; [left; lia|right; exact E].
      * split; [exact L|]. cbn [cu_inner cu_pos]. apply drop_drop.
  - intros st d [L ->]. cbn [rfill rconsume cursor_reader]. unfold cursor_fill, cursor_consume. do 2 eexists. split; [reflexivity|]. split; [split; [exact L|reflexivity]|]. rewrite dropN_min. split; [auto|].
    exists []. split; [now rewrite app_nil_r|]. intros k K. rewrite lenN_dropN in K. eexists. split; [reflexivity|]. split; [exact L|]. cbn [cu_inner cu_pos]. rewrite drop_drop.
    destruct (N.le_gt_cases (cu_pos st + k) U64_MAX) as [M|M]; [now rewrite N.min_l by lia|]. unfold U64_MAX in *. rewrite N.min_r by lia. rewrite !dropN_all by lia. reflexivity.
  - intros st d [L ->]. eexists. split; [reflexivity|]. split; [exact L|]. cbn [cu_inner cu_pos]. rewrite N.add_0_r. destruct (N.le_gt_cases (cu_pos st) U64_MAX) as [M|M]; [now rewrite N.min_l by lia|]. unfold U64_MAX in *. rewrite N.min_r by lia. rewrite !dropN_all by lia. reflexivity.
Qed.
Lemma world_lawful : reads_from world_reader world_at.
Proof.
  split; [|split].
  - intros [buf rest ev] d n ->. cbn [rread world_reader]. unfold world_read, world_at. cbn [w_buf w_rest w_events]. destruct buf as [|b buf].
    + destruct ev as [|[k|k] ev]; cbn [app]; do 2 (eexists); (split; [reflexivity|]).
      * exists (dropN n rest). split; [symmetry; apply takeN_dropN|]. split; [rewrite lenN_takeN; lia|]. split; [apply take_nil|reflexivity].
      * exists (dropN (N.min n (N.max 1 k)) rest). split; [symmetry; apply takeN_dropN|]. split; [rewrite lenN_takeN; lia|]. split; [|reflexivity]. intro E. apply take_nil in E. destruct E; [left; lia|auto].
      * reflexivity.
    + set (B := b :: buf). assert (NB : B <> []) by discriminate. clearbody B. do 2 eexists. split; [reflexivity|]. cbn [w_buf w_rest]. exists (dropN (N.min n (lenN B)) B ++ rest). split; [rewrite app_assoc, takeN_dropN; reflexivity|].
      split; [rewrite lenN_takeN; lia|]. split; [|reflexivity]. intro E. apply take_nil in E. destruct E as [E|E]; [|contradiction]. left. destruct B; [contradiction|]. rewrite lenN_cons in E. lia.
  - intros [buf rest ev] d ->. cbn [rfill rconsume world_reader]. unfold world_fill, world_consume, world_at. cbn [w_buf w_rest w_events].
    assert (C : forall B r e k, k <= lenN B -> exists st'', (if lenN (w_buf (mk_world B r e)) <? k then Panic else Ret (mk_world (dropN k (w_buf (mk_world B r e))) (w_rest (mk_world B r e)) (w_events (mk_world B r e)))) = Ret st'' /\ dropN k (B ++ r) = w_buf st'' ++ w_rest st'').
    { intros B r e k K. cbn [w_buf w_rest w_events]. replace (lenN B <? k) with false by lia. eexists. split; [reflexivity|]. cbn [w_buf w_rest]. now rewrite dropN_app_le by lia. }
    destruct buf as [|b buf].
    + destruct ev as [|[k|k] ev]; cbn [app]; do 2 (eexists); (split; [reflexivity|]); cbn [w_buf w_rest].
      * split; [now rewrite app_nil_r|]. split; [auto|]. exists []. split; [now rewrite app_nil_r|]. intros j J. destruct (C rest [] [] j J) as (st & E & D). exists st. split; [exact E|]. now rewrite app_nil_r in D.
      * split; [symmetry; apply takeN_dropN|]. split; [intro E; apply take_nil in E; destruct E; [lia|auto]|]. exists (dropN (N.max 1 k) rest). split; [symmetry; apply takeN_dropN|]. intros j J.
        destruct (C (takeN (N.max 1 k) rest) (dropN (N.max 1 k) rest) ev j J) as (st & E & D). exists st. split; [exact E|]. now rewrite takeN_dropN in D.
      * auto.
    + do 2 eexists. split; [reflexivity|]. cbn [w_buf w_rest]. split; [reflexivity|]. split; [discriminate|]. exists rest. split; [reflexivity|]. intros j J. exact (C (b :: buf) rest ev j J).
  - intros [buf rest ev] d ->. exists (mk_world buf rest ev). split; [|reflexivity]. cbn [rconsume world_reader]. unfold world_consume. cbn [w_buf]. now replace (lenN buf <? 0) with false by lia.
Qed.
Section Lawful.
Context (R : reader) (at_ : rstate R -> bytes -> Prop) (Law : reads_from R at_).
(** A limited reader: what it gives, and where it leaves the other. *)
Lemma take_read_spec : forall st limit all n, at_ st all -> exists r st', rread (take R) (st, limit) n = Ret (r, st') /\
  match r with
  | Ok bs => exists all', all = bs ++ all' /\ lenN bs <= n /\ lenN bs <= limit /\ (bs = [] -> n = 0 \/ limit = 0 \/ all = []) /\ at_ (fst st') all' /\ snd st' = limit - lenN bs
  | Err _ => at_ (fst st') all /\ snd st' = limit
  end.
Proof using Law.
  intros st limit all n A. cbn [rread take]. unfold take_read. destruct (proj1 Law st all (N.min n limit) A) as (r & st' & -> & H). cbn [rbind]. destruct r as [bs|e].
  - destruct H as (d' & E & L & Em & A'). replace (limit <? lenN bs) with false by lia. do 2 eexists. split; [reflexivity|]. exists d'. cbn [fst snd]. split; [exact E|]. split; [lia|]. split; [lia|]. split; [|split; [exact A'|reflexivity]].
    intro B. destruct (Em B) as [Z|Z]; [|auto]. lia.
  - do 2 eexists. split; [reflexivity|]. cbn [fst snd]. auto.
Qed.
Lemma take_lawful : reads_from (take R) (take_at R at_).
Proof using Law.
  split; [|split].
  - intros [st limit] d n (all & A & ->). cbn [fst snd] in *. destruct (take_read_spec st limit all n A) as (r & st' & E & H). exists r, st'. split; [exact E|]. destruct r as [bs|e].
    + destruct H as (all' & -> & L1 & L2 & Em & A' & S'). exists (takeN (limit - lenN bs) all'). split; [rewrite takeN_app_ge by lia; reflexivity|]. split; [exact L1|]. split.
      * intro B. destruct (Em B) as [Z|[Z|Z]]; [auto|right; rewrite Z; reflexivity|right; rewrite Z; apply take_of_nil].
      * exists all'. rewrite S'. auto.
    + destruct H as [A' S']. exists all. rewrite S'. auto.
  - intros [st limit] d (all & A & ->). cbn [fst snd rfill rconsume take] in *. unfold take_fill, take_consume. destruct (N.eqb_spec limit 0) as [->|Nz].
    + do 2 eexists. split; [reflexivity|]. split; [exists all; auto|]. split; [reflexivity|]. exists []. split; [reflexivity|]. intros k K. rewrite lenN_nil in K. assert (k = 0) as -> by lia. cbn [N.ltb N.compare].
      destruct (proj2 (proj2 Law) st all A) as (st' & -> & A'). cbn [rbind]. eexists. split; [reflexivity|]. exists all. auto.
    + destruct (proj1 (proj2 Law) st all A) as (r & st' & -> & A' & H). cbn [rbind]. destruct r as [bs|e]; do 2 eexists; (split; [reflexivity|]); (split; [exists all; auto|]); [|exact I].
      destruct H as (Em & d' & -> & C). rewrite N.min_comm, takeN_min. split.
      * intro E. apply take_nil in E. destruct E as [E|E]; [contradiction|]. rewrite (Em E). apply take_of_nil.
      * exists (takeN (limit - lenN bs) d'). split.
        { destruct (N.le_gt_cases limit (lenN bs)) as [G|G]; [rewrite takeN_app_le by lia; replace (limit - lenN bs) with 0 by lia; now rewrite app_nil_r|rewrite takeN_app_ge by lia; rewrite (takeN_all limit bs) by lia; reflexivity]. }
        intros k K. rewrite lenN_takeN in K. replace (limit <? k) with false by lia. destruct (C k ltac:(lia)) as (st'' & -> & A''). cbn [rbind]. eexists. split; [reflexivity|]. exists (dropN k (bs ++ d')). cbn [fst snd]. split; [exact A''|].
        unfold takeN, dropN. rewrite skipn_firstn_comm. f_equal. lia.
  - intros [st limit] d (all & A & ->). cbn [rconsume take fst snd] in *. unfold take_consume. replace (limit <? 0) with false by lia. destruct (proj2 (proj2 Law) st all A) as (st' & -> & A'). cbn [rbind].
    eexists. split; [reflexivity|]. exists all. cbn [fst snd]. now rewrite N.sub_0_r.
Qed.
(** Any number of reads. *)
Lemma reads_spec : forall ns st d, at_ st d -> exists rs st' d', reads R st ns = Ret (rs, st') /\ d = got rs ++ d' /\ at_ st' d' /\ Forall2 (fun n r => match r with Ok bs => lenN bs <= n | Err _ => True end) ns rs.
Proof using Law.
  induction ns as [|n ns IH]; intros st d A; cbn [reads]; [exists [], st, d; auto|]. destruct (proj1 Law st d n A) as (r & st1 & -> & H). cbn [rbind]. destruct r as [bs|e].
  - destruct H as (d1 & -> & L & _ & A1). destruct (IH st1 d1 A1) as (rs & st2 & d2 & -> & -> & A2 & F). cbn [rbind]. do 3 eexists. split; [reflexivity|]. cbn [got]. split; [now rewrite app_assoc|]. split; [exact A2|]. constructor; auto.
  - destruct (IH st1 d H) as (rs & st2 & d2 & -> & -> & A2 & F). cbn [rbind]. do 3 eexists. split; [reflexivity|]. cbn [got]. split; [reflexivity|]. split; [exact A2|]. constructor; auto.
Qed.
Lemma take_reads_spec : forall ns st limit all, at_ st all -> exists rs st' all', reads (take R) (st, limit) ns = Ret (rs, (st', limit - lenN (got rs))) /\ all = got rs ++ all' /\ lenN (got rs) <= limit /\ at_ st' all'.
Proof using Law.
  induction ns as [|n ns IH]; intros st limit all A; cbn [reads]; [exists [], st, all; cbn [got]; rewrite lenN_nil, N.sub_0_r; repeat split; auto; lia|].
  destruct (take_read_spec st limit all n A) as (r & [st1 l1] & -> & H). cbn [rbind fst snd] in *. destruct r as [bs|e].
  - destruct H as (d1 & -> & L1 & L2 & _ & A1 & ->). destruct (IH st1 (limit - lenN bs) d1 A1) as (rs & st2 & d2 & -> & -> & L & A2). cbn [rbind got]. exists (Ok bs :: rs), st2, d2. cbn [got]. rewrite lenN_app.
    split; [do 3 f_equal; lia|]. split; [now rewrite app_assoc|]. split; [lia|exact A2].
  - destruct H as [A1 ->]. destruct (IH st1 limit all A1) as (rs & st2 & d2 & -> & -> & L & A2). cbn [rbind]. exists (Err e :: rs), st2, d2. cbn [got]. auto.
Qed.
Lemma read_exact_spec : forall fuel st d n acc r, at_ st d -> read_exact R fuel st n acc = Some r ->
  exists res bs st' d', r = Ret (res, acc ++ bs, st') /\ d = bs ++ d' /\ at_ st' d' /\
    match res with Ok _ => lenN bs = n | Err UnexpectedEof => lenN bs < n | Err e => lenN bs < n /\ e <> Interrupted end.
Proof using Law.
  induction fuel; intros st d n acc r A E; cbn [read_exact] in E; (destruct (N.eqb_spec n 0) as [->|Nz]; [exists (Ok tt), [], st, d; rewrite app_nil_r; split; [injection E as <-; reflexivity|auto]|]); [discriminate|].
  destruct (proj1 Law st d n A) as (x & st1 & Ex & H). rewrite Ex in E. destruct x as [bs|e].
  - destruct H as (d1 & -> & L & Em & A1). destruct bs as [|b bs].
    + exists (Err UnexpectedEof), [], st1, d1. rewrite app_nil_r. split; [injection E as <-; reflexivity|]. split; [reflexivity|]. split; [exact A1|]. rewrite lenN_nil. lia.
    + set (B := b :: bs) in *. clearbody B. replace (n <? lenN B) with false in E by lia. destruct (IHfuel st1 d1 (n - lenN B) (acc ++ B) r A1 E) as (res & bs' & st' & d' & -> & -> & A' & H').
      exists res, (B ++ bs'), st', d'. rewrite <- !app_assoc, lenN_app. split; [reflexivity|]. split; [reflexivity|]. split; [exact A'|]. destruct res as [?|[ | |?]]; try lia; destruct H'; (split; [lia|auto]).
  - destruct e; cbn [is_interrupted] in E.
    + apply (IHfuel st1 d n acc r H E).
    + exists (Err UnexpectedEof), [], st1, d. rewrite app_nil_r. split; [injection E as <-; reflexivity|]. split; [reflexivity|]. split; [exact H|]. rewrite lenN_nil. lia.
    + exists (Err (OtherKind k)), [], st1, d. rewrite app_nil_r. split; [injection E as <-; reflexivity|]. split; [reflexivity|]. split; [exact H|]. rewrite lenN_nil. split; [lia|discriminate].
Qed.
Lemma read_to_end_spec : forall fuel st limit all acc k r, at_ st all -> read_to_end R fuel (st, limit) acc k = Some r ->
  exists res bs st' all', r = Ret (res, acc ++ bs, (st', limit - lenN bs)) /\ all = bs ++ all' /\ at_ st' all' /\
    match res with Ok j => bs = takeN limit all /\ j = k + lenN bs | Err e => lenN bs <= limit /\ e <> Interrupted end.
Proof using Law.
  induction fuel; intros st limit all acc k r A E; cbn [read_to_end] in E; [discriminate|]. destruct (take_read_spec st limit all 64 A) as (x & [st1 l1] & Ex & H). rewrite Ex in E. cbn [fst snd] in H. destruct x as [bs|e].
  - destruct H as (d1 & -> & L1 & L2 & Em & A1 & ->). destruct bs as [|b bs].
    + exists (Ok k), [], st1, d1. rewrite lenN_nil in E. rewrite app_nil_r, lenN_nil. split; [injection E as <-; reflexivity|]. split; [reflexivity|]. split; [exact A1|]. split; [|lia].
      destruct (Em eq_refl) as [Z|[->|Z]]; [lia|reflexivity|]. rewrite Z. symmetry; apply take_of_nil.
    + set (B := b :: bs) in *. clearbody B. destruct (IHfuel st1 (limit - lenN B) d1 (acc ++ B) (k + lenN B) r A1 E) as (res & bs' & st' & d' & -> & -> & A' & H').
      exists res, (B ++ bs'), st', d'. rewrite <- !app_assoc, lenN_app. split; [do 3 f_equal; lia|]. split; [reflexivity|]. split; [exact A'|]. destruct res as [j|e].
      * destruct H' as [E1 E2]. split; [rewrite takeN_app_ge by lia; f_equal; exact E1|lia].
      * destruct H'. split; [lia|auto].
  - destruct H as [A1 ->]. destruct (is_interrupted e) eqn:Ei; [exact (IHfuel st1 limit all acc k r A1 E)|]. exists (Err e), [], st1, all. rewrite app_nil_r, lenN_nil, N.sub_0_r. split; [injection E as <-; reflexivity|]. split; [reflexivity|]. split; [exact A1|]. split; [lia|]. intros ->. discriminate.
Qed.
Context (m : rstate R -> nat) (Settles : settles R at_ m).
Lemma read_exact_ends : forall fuel st d n acc, at_ st d -> (m st + length d < fuel)%nat -> read_exact R fuel st n acc <> None.
Proof using Law Settles.
  induction fuel; intros st d n acc A F; [lia|]. cbn [read_exact]. destruct (N.eqb_spec n 0); [discriminate|]. pose proof (proj1 Settles st d n A) as M. destruct (proj1 Law st d n A) as (x & st1 & Ex & H). rewrite Ex in *. destruct x as [bs|e].
  - destruct H as (d1 & -> & L & Em & A1). destruct bs as [|b bs]; [discriminate|]. destruct (n <? _); [discriminate|]. apply (IHfuel st1 d1); auto. rewrite app_length in F. cbn [length] in F. lia.
  - destruct (is_interrupted e); [|discriminate]. apply (IHfuel st1 d); auto. lia.
Qed.
Lemma read_to_end_ends : forall fuel st limit all acc k, at_ st all -> (m st + length all < fuel)%nat -> read_to_end R fuel (st, limit) acc k <> None.
Proof using Law Settles.
  induction fuel; intros st limit all acc k A F; [lia|]. cbn [read_to_end]. destruct (take_read_spec st limit all 64 A) as (x & [st1 l1] & Ex & H). rewrite Ex. cbn [fst snd] in H.
  assert (M : match x with Ok _ => (m st1 <= m st)%nat | Err _ => (m st1 < m st)%nat end). { cbn [rread take] in Ex. unfold take_read in Ex. pose proof (proj1 Settles st all (N.min 64 limit) A) as M. destruct (rread R st (N.min 64 limit)) as [[[b|e] st2]|]; cbn [rbind] in Ex; [destruct (limit <? lenN b)| |]; inv Ex; exact M. }
  destruct x as [bs|e].
  - destruct H as (d1 & -> & L1 & L2 & _ & A1 & ->). destruct bs as [|b bs]; [discriminate|]. apply (IHfuel st1 (limit - lenN (b :: bs)) d1); auto. rewrite app_length in F. cbn [length] in F. lia.
  - destruct H as [A1 ->]. destruct (is_interrupted e); [|discriminate]. apply (IHfuel st1 limit all); auto. lia.
Qed.
Lemma take_settles : settles (take R) (take_at R at_) (fun s => m (fst s)).
Proof using Law Settles.
  split; [|split].
  - intros [st limit] d n (all & A & _). cbn [fst snd] in *. cbn [rread take]. unfold take_read. pose proof (proj1 Settles st all (N.min n limit) A) as M. destruct (proj1 Law st all (N.min n limit) A) as (x & st1 & Ex & H). rewrite Ex in *. cbn [rbind].
    destruct x as [bs|e]; [|exact M]. destruct H as (d' & _ & L & _). replace (limit <? lenN bs) with false by lia. exact M.
  - intros [st limit] d (all & A & _). cbn [fst snd] in *. cbn [rfill take]. unfold take_fill. destruct (limit =? 0); [cbn [fst]; lia|]. pose proof (proj1 (proj2 Settles) st all A) as M. destruct (rfill R st) as [[[b|e] st1]|]; cbn [rbind fst]; exact M.
  - intros [st limit] k [st' l']. cbn [rconsume take]. unfold take_consume. destruct (limit <? k); [discriminate|]. destruct (rconsume R st k) as [st1|] eqn:E; cbn [rbind]; [|discriminate]. intro X. inv X. cbn [fst]. exact (proj2 (proj2 Settles) st k st' E).
Qed.
End Lawful.
Lemma slice_settles : settles slice_reader (fun s d => d = s) (fun _ => 0%nat).
Proof. split; [|split]; intros; cbn; lia. Qed.
Lemma cursor_settles : settles cursor_reader cursor_at (fun _ => 0%nat).
Proof. split; [|split]; intros; cbn [rread rfill cursor_reader]; unfold cursor_read, cursor_fill; try destruct (_ <=? _); lia. Qed.
Lemma world_settles : settles world_reader world_at (fun w => length (w_events w)).
Proof.
  split; [|split].
  - intros [b r ev] d n _. cbn [rread world_reader]. unfold world_read. cbn [w_buf w_rest w_events]. destruct b; [destruct ev as [|[k|k] ev]|]; cbn [w_events length]; lia.
  - intros [b r ev] d _. cbn [rfill world_reader]. unfold world_fill. cbn [w_buf w_rest w_events]. destruct b; [destruct ev as [|[k|k] ev]|]; cbn [w_events length]; lia.
  - intros [b r ev] k st'. cbn [rconsume world_reader]. unfold world_consume. cbn [w_buf w_rest w_events]. destruct (_ <? _); [discriminate|]. intro X. inv X. cbn [w_events]. lia.
Qed.

(** ** Writers *)
Lemma vec_writes : writes_to vec_writer (fun v => v).
Proof. intros st buf. cbn [wwrite vec_writer]. do 2 eexists. split; [reflexivity|]. split; [lia|]. now rewrite takeN_all by lia. Qed.
Lemma slice_writes : writes_to slice_writer fst.
Proof. intros [done room] buf. cbn [wwrite slice_writer]. do 2 eexists. split; [reflexivity|]. cbn [fst]. split; [lia|reflexivity]. Qed.
Lemma world_writes : writes_to world_writer fst.
Proof.
  intros [out ev] buf. cbn [wwrite world_writer]. destruct ev as [|[k|k] ev]; do 2 eexists; (split; [reflexivity|]); cbn [fst]; [|split; [lia|reflexivity]|reflexivity]. split; [lia|]. now rewrite takeN_all by lia.
Qed.
Section Writes.
Context (W : writer) (out : wstate W -> bytes) (Law : writes_to W out).
Lemma write_all_spec : forall fuel st buf r, write_all W fuel st buf = Some r ->
  exists res st' p q, r = Ret (res, st') /\ buf = p ++ q /\ out st' = out st ++ p /\ match res with Ok _ => q = [] | Err e => q <> [] /\ e <> Interrupted end.
Proof using Law.
  induction fuel; intros st buf r E; (destruct buf as [|b buf]; [cbn [write_all] in E; exists (Ok tt), st, [], []; split; [injection E as <-; reflexivity|]; split; [reflexivity|]; split; [symmetry; apply app_nil_r|reflexivity]|]); [cbn [write_all] in E; discriminate|].
  cbn [write_all] in E. set (B := b :: buf) in *. assert (NB : B <> []) by discriminate. clearbody B. destruct (Law st B) as (x & st1 & Ex & H). rewrite Ex in E. destruct x as [n|e].
  - destruct H as [L O]. destruct (N.eqb_spec n 0) as [->|Nz].
    + exists (Err UnexpectedEof), st1, [], B. split; [injection E as <-; reflexivity|]. split; [reflexivity|]. split; [exact O|]. split; [exact NB|discriminate].
    + replace (lenN B <? n) with false in E by lia. destruct (IHfuel st1 (dropN n B) r E) as (res & st2 & p & q & -> & Ep & O2 & H2). exists res, st2, (takeN n B ++ p), q. split; [reflexivity|].
      split; [rewrite <- app_assoc, <- Ep, takeN_dropN; reflexivity|]. split; [rewrite O2, O, <- app_assoc; reflexivity|exact H2].
  - destruct (is_interrupted e) eqn:Ei.
    + destruct (IHfuel st1 B r E) as (res & st2 & p & q & -> & Ep & O2 & H2). exists res, st2, p, q. rewrite O2, H. auto.
    + exists (Err e), st1, [], B. rewrite app_nil_r. split; [injection E as <-; reflexivity|]. split; [reflexivity|]. split; [exact H|]. split; [exact NB|]. intros ->. discriminate.
Qed.
End Writes.
Lemma vec_write_all : forall fuel v buf, (0 < fuel)%nat -> write_all vec_writer fuel v buf = Some (Ret (Ok tt, v ++ buf)).
Proof.
  intros [|fuel] v buf F; [lia|]. destruct buf as [|b buf]; [cbn [write_all]; now rewrite app_nil_r|]. cbn [write_all wwrite vec_writer]. replace (lenN (b :: buf) =? 0) with false by (rewrite lenN_cons; lia). replace (lenN (b :: buf) <? lenN (b :: buf)) with false by lia.
  rewrite dropN_all by lia. destruct fuel; reflexivity.
Qed.
Lemma slice_write_all : forall fuel done room buf, (1 < fuel)%nat -> write_all slice_writer fuel (done, room) buf =
  Some (Ret (if lenN buf <=? lenN room then Ok tt else Err UnexpectedEof, (done ++ takeN (lenN room) buf, dropN (lenN buf) room))).
Proof.
  intros [|[|fuel]] done room buf F; try lia. destruct buf as [|b buf]; [cbn [write_all]; replace (lenN [] <=? lenN room) with true by (rewrite lenN_nil; lia); rewrite take_of_nil, app_nil_r; reflexivity|].
  set (B := b :: buf). assert (LB : 0 < lenN B) by (unfold B; rewrite lenN_cons; lia). remember (S fuel) as f eqn:Ef. cbn [write_all]. fold B. cbn [wwrite slice_writer].
  destruct (N.eqb_spec (N.min (lenN room) (lenN B)) 0) as [Z|Z].
  - assert (lenN room = 0) as Z2 by lia. replace (lenN B <=? lenN room) with false by lia. rewrite Z, Z2. destruct room; [|rewrite lenN_cons in Z2; lia]. unfold dropN. rewrite !skipn_nil. reflexivity.
  - replace (lenN B <? N.min (lenN room) (lenN B)) with false by lia. clearbody B. destruct (N.leb_spec (lenN B) (lenN room)) as [G|G].
    + rewrite N.min_r by lia. rewrite (dropN_all (lenN B) B) by lia. destruct B as [|b0 B0] eqn:EB; [rewrite lenN_nil in LB; lia|]. rewrite <- EB in *. rewrite (takeN_all (lenN B) B), (takeN_all (lenN room) B) by lia. rewrite Ef. reflexivity.
    + rewrite N.min_l by lia. destruct (dropN (lenN room) B) as [|c D] eqn:ED.
      { assert (X := f_equal lenN ED). rewrite lenN_dropN, lenN_nil in X. lia. }
      rewrite Ef. cbn [write_all wwrite slice_writer]. replace (N.min (lenN (dropN (lenN room) room)) (lenN (c :: D))) with 0 by (rewrite lenN_dropN; lia). cbn [N.eqb].
      rewrite !(dropN_all _ room) by lia. change (takeN 0 (c :: D)) with (@nil N). rewrite app_nil_r. destruct B as [|b0 B0]; [rewrite lenN_nil in LB; lia|]. reflexivity.
Qed.
