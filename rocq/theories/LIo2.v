(** Lemmas for C43: readers that are only interrupted, hashing, decoding. *)
From Verif Require Import Base MDec MHash MSha2 MHash2 MHmac SHmac LHmac MIo SIo LDec LWitness PHash LIo.
Local Open Scope N_scope.

Lemma take_app_full : forall (a b : bytes) n, lenN a <= n -> takeN n (a ++ b) = a ++ takeN (n - lenN a) b.
Proof. intros. now rewrite takeN_app_ge by lia. Qed.
Lemma drop_app_full : forall (a b : bytes) n, lenN a <= n -> dropN n (a ++ b) = dropN (n - lenN a) b.
Proof. intros. now rewrite dropN_app_ge by lia. Qed.
Section Patient.
Context (R : reader) (at_ : rstate R -> bytes -> Prop) (Law : reads_from R at_) (m : rstate R -> nat) (Settles : settles R at_ m) (Pat : patient R at_).
Lemma read_exact_patient : forall fuel st d n acc, at_ st d -> (m st + length d < fuel)%nat ->
  exists st', read_exact R fuel st n acc = Some (Ret (if n <=? lenN d then Ok tt else Err UnexpectedEof, acc ++ takeN n d, st')) /\ at_ st' (dropN n d).
Proof using Law Settles Pat.
  induction fuel; intros st d n acc A F; [lia|]. cbn [read_exact]. destruct (N.eqb_spec n 0) as [->|Nz]; [exists st; replace (0 <=? lenN d) with true by lia; change (takeN 0 d) with (@nil N); rewrite app_nil_r; auto|].
  pose proof (proj1 Settles st d n A) as M. destruct (proj1 Law st d n A) as (x & st1 & Ex & H). rewrite Ex in *. destruct x as [bs|e].
  - destruct H as (d1 & -> & L & Em & A1). destruct bs as [|b bs].
    + destruct (Em eq_refl) as [Z|Z]; [contradiction|]. cbn [app] in *. subst d1. exists st1. replace (n <=? lenN []) with false by (rewrite lenN_nil; lia). rewrite take_of_nil, app_nil_r. split; [reflexivity|]. unfold dropN. now rewrite skipn_nil.
    + set (B := b :: bs) in *. assert (LB : (0 < length B)%nat) by (unfold B; cbn [length]; lia). clearbody B. replace (n <? lenN B) with false by lia. rewrite app_length in F.
      destruct (IHfuel st1 d1 (n - lenN B) (acc ++ B) A1 ltac:(lia)) as (st2 & -> & A2). exists st2. rewrite take_app_full, drop_app_full by lia. split; [|exact A2]. rewrite <- app_assoc, lenN_app.
      replace (n - lenN B <=? lenN d1) with (n <=? lenN B + lenN d1) by lia. reflexivity.
  - rewrite (Pat st d n e st1 A Ex). cbn [is_interrupted]. apply (IHfuel st1 d); auto. lia.
Qed.
Lemma read_to_end_patient : forall fuel st limit all acc k, at_ st all -> (m st + length all < fuel)%nat ->
  exists st', read_to_end R fuel (st, limit) acc k = Some (Ret (Ok (k + lenN (takeN limit all)), acc ++ takeN limit all, (st', limit - lenN (takeN limit all)))) /\ at_ st' (dropN limit all).
Proof using Law Settles Pat.
  intros fuel st limit all acc k A F. destruct (read_to_end R fuel (st, limit) acc k) as [r|] eqn:E; [|now apply (read_to_end_ends R at_ Law m Settles fuel st limit all acc k) in E].
  assert (P : exists j, match r with Ret (Ok j', _, _) => j = j' | _ => False end).
  { revert st limit all acc k A F E. induction fuel; intros; [lia|]. cbn [read_to_end] in E. destruct (take_read_spec R at_ Law st limit all 64 A) as (x & [st1 l1] & Ex & H). rewrite Ex in E. cbn [fst snd] in H.
    assert (M : match x with Ok _ => (m st1 <= m st)%nat | Err e => (m st1 < m st)%nat /\ e = Interrupted end).
    { cbn [rread take] in Ex. unfold take_read in Ex. pose proof (proj1 Settles st all (N.min 64 limit) A) as M. pose proof (fun e st' => Pat st all (N.min 64 limit) e st' A) as P. destruct (rread R st (N.min 64 limit)) as [[[b|e] st2]|]; cbn [rbind] in Ex; [destruct (limit <? lenN b)| |]; inv Ex; [exact M|]. split; [exact M|]. exact (P _ _ eq_refl). }
    destruct x as [bs|e].
    - destruct H as (d1 & -> & L1 & L2 & _ & A1 & ->). destruct bs as [|b bs]; [exists k; now inv E|]. apply (IHfuel st1 (limit - lenN (b :: bs)) d1 (acc ++ b :: bs) (k + lenN (b :: bs))); auto. rewrite app_length in F. cbn [length] in F. lia.
    - destruct H as [A1 ->]. destruct M as [M ->]. cbn [is_interrupted] in E. apply (IHfuel st1 limit all acc k); auto. lia. }
  destruct (read_to_end_spec R at_ Law fuel st limit all acc k r A E) as (res & bs & st' & all' & -> & Eall & A' & H). destruct P as [j P]. destruct res as [j'|]; [|contradiction]. destruct H as [Eb ->]. exists st'. rewrite <- Eb. split; [reflexivity|].
  assert (D : dropN limit all = all'); [|rewrite D; exact A']. rewrite <- (takeN_dropN limit all) in Eall at 1. rewrite <- Eb in Eall. now apply app_inv_head in Eall.
Qed.
End Patient.
Lemma slice_patient : patient slice_reader (fun s d => d = s).
Proof. intros st d n e st' _ E. discriminate. Qed.
Lemma cursor_patient : patient cursor_reader cursor_at.
Proof. intros st d n e st' _ E. cbn [rread cursor_reader] in E. unfold cursor_read in E. destruct (_ <=? _); discriminate. Qed.
Lemma take_patient : forall R at_, patient R at_ -> patient (take R) (take_at R at_).
Proof.
  intros R at_ P [st l] d n e st' (all & A & _) E. cbn [fst] in A. cbn [rread take] in E. unfold take_read in E. destruct (rread R st (N.min n l)) as [[[b|e'] st2]|] eqn:Er; cbn [rbind] in E; [destruct (l <? lenN b)| |]; inv E. exact (P st all _ _ _ A Er).
Qed.
Lemma quiet_lawful : reads_from world_reader quiet_at /\ settles world_reader quiet_at (fun w => length (w_events w)) /\ patient world_reader quiet_at.
Proof.
  assert (FR : forall w n r w', Forall no_failure (w_events w) -> world_read w n = Ret (r, w') -> Forall no_failure (w_events w')).
  { intros [b rs ev] n r w' F E. unfold world_read in E. cbn [w_buf w_rest w_events] in *. destruct b; [destruct ev as [|[k|k] ev]|]; inv E; cbn [w_events]; auto; now apply Forall_inv_tail in F. }
  assert (FF : forall w r w', Forall no_failure (w_events w) -> world_fill w = Ret (r, w') -> Forall no_failure (w_events w')).
  { intros [b rs ev] r w' F E. unfold world_fill in E. cbn [w_buf w_rest w_events] in *. destruct b; [destruct ev as [|[k|k] ev]|]; inv E; cbn [w_events]; auto; now apply Forall_inv_tail in F. }
  assert (FC : forall w k w', Forall no_failure (w_events w) -> world_consume w k = Ret w' -> Forall no_failure (w_events w')).
  { intros [b rs ev] k w' F E. unfold world_consume in E. cbn [w_buf w_rest w_events] in *. destruct (_ <? _); inv E. exact F. }
  destruct world_lawful as (L1 & L2 & L3). split; [split; [|split]|split].
  - intros st d n [A F]. destruct (L1 st d n A) as (r & st' & E & H). exists r, st'. split; [exact E|]. pose proof (FR _ _ _ _ F E) as F'. destruct r as [bs|e]; [|split; auto]. destruct H as (d' & E' & L & Em & A'). exists d'. repeat split; auto.
  - intros st d [A F]. destruct (L2 st d A) as (r & st' & E & A' & H). exists r, st'. split; [exact E|]. pose proof (FF _ _ _ F E) as F'. split; [split; auto|]. destruct r as [bs|e]; [|auto]. destruct H as (Em & d' & E' & C). split; [exact Em|]. exists d'. split; [exact E'|].
    intros k K. destruct (C k K) as (st'' & Ec & A''). exists st''. split; [exact Ec|]. split; [exact A''|]. exact (FC _ _ _ F' Ec).
  - intros st d [A F]. destruct (L3 st d A) as (st' & E & A'). exists st'. split; [exact E|]. split; [exact A'|exact (FC _ _ _ F E)].
  - destruct world_settles as (S1 & S2 & S3). split; [|split]; [intros st d n [A _]; exact (S1 st d n A)|intros st d [A _]; exact (S2 st d A)|exact S3].
  - intros [b rs ev] d n e w' [_ F] E. cbn [rread world_reader] in E. unfold world_read in E. cbn [w_buf w_rest w_events] in *. destruct b; [destruct ev as [|[k|k] ev]|]; inv E. apply Forall_inv in F. cbn in F. destruct e; [reflexivity|contradiction|contradiction].
Qed.

(** ** Hashing *)
Lemma hash_loop_spec : forall h R at_, reads_from R at_ -> forall fuel st d e r, at_ st d -> hash_loop h R fuel st e = Some r ->
  (exists k, r = Ret (Err k)) \/ exists pieces, concat pieces = d /\ r = rbind (feed h e pieces) (fun e => rbind (h_finalize h e) (fun v => Ret (Ok v))).
Proof.
  intros h R at_ Law. induction fuel; intros st d e r A E; [discriminate|]. cbn [hash_loop] in E. destruct (proj1 (proj2 Law) st d A) as (x & st1 & Ex & A1 & H). rewrite Ex in E. destruct x as [bs|k]; [|left; exists k; now inv E].
  destruct H as (Em & d' & -> & C). destruct bs as [|b bs]; [right; exists []; split; [symmetry; now apply Em|]; inv E; reflexivity|]. set (B := b :: bs) in *. clearbody B.
  destruct (C (lenN B) ltac:(lia)) as (st2 & Ec & A2). rewrite dropN_app_ge in A2 by lia. replace (lenN B - lenN B) with 0 in A2 by lia. change (dropN 0 d') with d' in A2. destruct (h_input h e B) as [e'|] eqn:Ei.
  - rewrite Ec in E. destruct (IHfuel st2 d' e' r A2 E) as [K|(ps & P1 & P2)]; [auto|]. right. exists (B :: ps). cbn [concat feed]. rewrite Ei. cbn [rbind]. split; [now rewrite P1|exact P2].
  - right. exists [B; d']. cbn [concat feed]. rewrite Ei, app_nil_r. cbn [rbind]. split; [reflexivity|]. now inv E.
Qed.
Lemma hash_loop_ends : forall h R at_ m, reads_from R at_ -> settles R at_ m -> forall fuel st d e, at_ st d -> (length d < fuel)%nat -> hash_loop h R fuel st e <> None.
Proof.
  intros h R at_ m Law Set_. induction fuel; intros st d e A F; [lia|]. cbn [hash_loop]. destruct (proj1 (proj2 Law) st d A) as (x & st1 & -> & A1 & H). destruct x as [bs|k]; [|discriminate].
  destruct H as (Em & d' & -> & C). destruct bs as [|b bs]; [discriminate|]. set (B := b :: bs) in *. assert (LB : (0 < length B)%nat) by (unfold B; cbn [length]; lia). clearbody B.
  destruct (C (lenN B) ltac:(lia)) as (st2 & Ec & A2). rewrite dropN_app_ge in A2 by lia. replace (lenN B - lenN B) with 0 in A2 by lia. change (dropN 0 d') with d' in A2. destruct (h_input h e B); [|discriminate]. rewrite Ec. apply (IHfuel st2 d'); auto. rewrite app_length in F. lia.
Qed.
