(** C30: compact block filters written to any writer. *)
From Verif Require Import Base MDec MWitness MTx MSip MScript MBip152 SWire SSip MEnc SEnc LEnc MBip158 SBip158 LBip158 LBip158b LBip158c LBip158d PBip158 MIo SIo LIo MIoDrive SIoDrive LIoDrive MFilterWriter LFilterWriter.
Local Open Scope N_scope.

(** A writer that held [old] and now holds [new], after [content] was written to it with the outcome [res]: all of it, and its length
    returned; or the writer's own error, which is never an interruption, and only a part of it. *)
Definition wrote_all_or_failed (old new content : bytes) (res : result N fw_err) : Prop :=
  match res with
  | Ok n => n = lenN content /\ new = old ++ content
  | Err (FwIo k) => k <> Interrupted /\ exists p q, content = p ++ q /\ q <> [] /\ new = old ++ p
  | Err FwTooManyBits => False
  end.

(** Whatever the writer does, finishing a filter writes the filter of the elements after what was there, and returns its length, or
    fails with the writer's error having written only a part.  It ends if the writer's failures do, and then never fails when they are
    only interruptions. *)
Theorem C30_writer : forall k0 k1 m p els, k0 < 2 ^ 64 -> k1 < 2 ^ 64 -> p < 64 -> Forall element_ok els -> lenN els < 2 ^ 64 -> lenN els * m < 2 ^ 64 ->
  exists content, is_filter k0 k1 m p els content /\ forall W out, writes_to W out ->
  (forall f w r, finish_to W f (mk_gcs k0 k1 m p) els w = Some r -> exists res w', r = Ret (res, w') /\ wrote_all_or_failed (out w) (out w') content res) /\
  (forall fails, settles_w W fails -> forall w, exists n, forall f, (n <= f)%nat -> exists res w', finish_to W f (mk_gcs k0 k1 m p) els w = Some (Ret (res, w')) /\
     forall inv, willing W inv -> inv w -> exists k, res = Ok k).
Proof.
  intros k0 k1 m p els K0 K1 P F L Nm. destruct (C30_filter_written k0 k1 m p els [] K0 K1 P (Forall_nil _) F L Nm) as (content & E & IF). exists content. split; [exact IF|]. intros W out Law. cbn [app] in E.
  destruct (finish_written W out Law _ _ _ _ E) as [A B]. split; [exact A|]. intros fails Sf w. destruct (B fails Sf w) as [n Bn]. exists n. intros f Ff. destruct (Bn f Ff) as (res & w' & Ew & I). exists res, w'. split; [exact Ew|].
  intros inv Wi Iw. destruct (A f w _ Ew) as (res' & w'' & Z & R). injection Z as <- <-. destruct res as [k|[k|]]; [eauto| |contradiction]. destruct (I inv Wi Iw k eq_refl).
Qed.

(** Block filters: with every spent coin known, the same for the filter that [new_script_filter] makes; with one missing, nothing is
    written. *)
Theorem C30_block_writer : forall E (coin : outpoint -> result bytes E) sha256d b W out, writes_to W out ->
  (forall content, new_script_filter coin sha256d b = Ret (Ok content) ->
     (forall f w r, block_filter_to coin sha256d W f b w = Some r -> exists res w', r = Ret (res, w') /\
        ((exists e, res = Err (BlIo e) /\ wrote_all_or_failed (out w) (out w') content (Err e)) \/ (exists n, res = Ok n /\ wrote_all_or_failed (out w) (out w') content (Ok n)))) /\
     (forall fails, settles_w W fails -> forall w, exists n, forall f, (n <= f)%nat -> exists res w', block_filter_to coin sha256d W f b w = Some (Ret (res, w')) /\
        forall inv, willing W inv -> inv w -> exists k, res = Ok k)) /\
  (forall e, new_script_filter coin sha256d b = Ret (Err (NewCoin e)) -> forall f w, block_filter_to coin sha256d W f b w = Some (Ret (Err (BlCoin e), w))).
Proof.
  intros E coin sha256d b W out Law. unfold new_script_filter, block_filter_to. destruct (add_input_scripts coin b (add_output_scripts b [])) as [els|e0].
  2: { split; [discriminate|]. intros e Z. injection Z as ->. reflexivity. }
  set (g := block_gcs (sha256d (header_encode (b_header b)))). destruct (gcs_finish g els []) as [[[content n]|e]|] eqn:Eg; cbn [rbind]; [|split; [discriminate|]; intros; discriminate|split; discriminate]. split; [|discriminate].
  intros content' Z. injection Z as ->. pose proof (finish_counted _ _ _ _ Eg) as ->. destruct (finish_written W out Law _ _ _ _ Eg) as [A B]. split.
  - intros f w r Q. destruct (finish_to W f g els w) as [x|] eqn:Ef; [|discriminate]. destruct (A f w x Ef) as (res & w' & -> & R). destruct res as [k|e]; injection Q as <-; eexists _, w'; (split; [reflexivity|]).
    + right. exists k. split; [reflexivity|exact R].
    + left. exists e. split; [reflexivity|]. exact R.
  - intros fails Sf w. destruct (B fails Sf w) as [n0 Bn]. exists n0. intros f Ff. destruct (Bn f Ff) as (res & w' & Ew & I). rewrite Ew. destruct res as [k|e].
    + exists (Ok k), w'. split; [reflexivity|]. eauto.
    + exists (Err (BlIo e)), w'. split; [reflexivity|]. intros inv Wi Iw. destruct (A f w _ Ew) as (res' & w'' & Z & R). injection Z as <- <-. destruct e as [k|]; [|contradiction]. destruct (I inv Wi Iw k eq_refl).
Qed.

(** ** Bit streams after a failure *)
(** A write of bits that fails leaves a whole byte in the stream, and then any further write of bits panics ... *)
Theorem C30_bits_broken : forall W out, writes_to W out -> forall f b data nbits k b', bt_off b < 8 -> write_to W f b data nbits = Some (Ret (Err (FwIo k), b')) ->
  bt_off b' = 8 /\ forall f' data' nbits', 0 < nbits' -> nbits' <= 64 -> write_to W f' b' data' nbits' = Some Panic.
Proof.
  intros W out Law f b data nbits k b' O E.
  assert (X : forall fuel b wrote nbits, bt_off b < 8 -> write_loop_to W f fuel b data nbits wrote = Some (Ret (Err (FwIo k), b')) -> bt_off b' = 8).
  { clear b nbits O E. induction fuel as [|fuel IH]; intros b wrote nbits O E; cbn [write_loop_to] in E; (destruct (N.eqb_spec nbits 0); [discriminate|]); [discriminate|]. destruct (64 <=? 56 + bt_off b); [discriminate|]. cbn [bt_off] in E.
    destruct (N.eqb_spec (bt_off b + N.min (8 - bt_off b) nbits) 8) as [E8|N8].
    - unfold flush_to in E. cbn [bt_off bt_w bt_buf] in E. rewrite E8 in E. replace (0 <? 8) with true in E by reflexivity. destruct (MIo.write_all W f (bt_w b) _) as [[[[u|k1] w1]|]|]; cbn [fbind] in E; try discriminate.
      + refine (IH _ _ _ _ E). cbn [bt_off]. lia.
      + injection E as _ <-. reflexivity.
    - refine (IH _ _ _ _ E). cbn [bt_off]. lia. }
  unfold write_to in E. destruct (64 <? nbits); [discriminate|]. apply X in E; [|exact O]. split; [exact E|]. intros f' data' nbits' Z L. unfold write_to. replace (64 <? nbits') with false by lia.
  destruct (N.to_nat nbits') as [|n] eqn:En; [lia|]. cbn [write_loop_to]. replace (nbits' =? 0) with false by lia. rewrite E. reflexivity.
Qed.
(** ... so a stream cannot be used after an error, although it can after an interruption. *)
Theorem C30_bits_reuse_refuted : ~ (forall W out, writes_to W out -> forall f w data nbits e b', write_to W f (bits_new W w) data nbits = Some (Ret (Err e, b')) ->
  forall f' data' nbits', nbits' <= 64 -> write_to W f' b' data' nbits' <> Some Panic).
Proof.
  intro H. refine (H world_writer fst world_writes 5%nat ([], [Fail (OtherKind 1)]) 255 8 (FwIo (OtherKind 1)) (@mk_bt world_writer 255 8 ([], [])) eq_refl 5%nat 0 1 ltac:(lia) _). reflexivity.
Qed.
(** Flushing after the failure writes that byte. *)
Theorem C30_bits_flush_again : forall W out, writes_to W out -> forall f b n b', 0 < bt_off b -> flush_to W f b = Some (Ret (Ok n, b')) ->
  n = 1 /\ out (bt_w b') = out (bt_w b) ++ [bt_buf b] /\ bt_off b' = 0.
Proof.
  intros W out Law f b n b' O E. unfold flush_to in E. replace (0 <? bt_off b) with true in E by lia. destruct (MIo.write_all W f (bt_w b) [bt_buf b]) as [x|] eqn:Ew; [|discriminate].
  destruct (LIo.write_all_spec W out Law f (bt_w b) _ x Ew) as (res & w' & p & q & -> & D & Q & P). destruct res as [u|k]; [|discriminate]. injection E as <- <-. subst q. rewrite app_nil_r in D. subst p. auto.
Qed.

(** The genesis block's filter through a writer that is interrupted and takes a byte at a time, and through one that fails after three. *)
Example C30_writer_ex :
  finish_to world_writer 30 (block_gcs genesis_hash) [genesis_script] ([7], [Fail Interrupted; Give 1; Fail Interrupted; Give 1]) = Some (Ret (Ok 4, ([7; 1; 157; 252; 168], []))) /\
  finish_to world_writer 30 (block_gcs genesis_hash) [genesis_script] ([7], [Give 1; Give 1; Give 1; Fail (OtherKind 3)]) = Some (Ret (Err (FwIo (OtherKind 3)), ([7; 1; 157; 252], []))) /\
  willing_world ([7], [Fail Interrupted; Give 1; Fail Interrupted; Give 1]) /\ element_ok genesis_script.
Proof. split; [vm_compute; reflexivity|]. split; [vm_compute; reflexivity|]. split; [repeat constructor|]. split; [|reflexivity]. apply LBip152.bytes_okb. reflexivity. Qed.
Print Assumptions C30_writer.
Print Assumptions C30_block_writer.
Print Assumptions C30_bits_broken.
Print Assumptions C30_bits_reuse_refuted.
Print Assumptions C30_bits_flush_again.
