(** C39: signing data written to any writer. *)
From Coq Require Import String.
From Verif Require Import Base SSha2 MDec MWitness MTx SWire MEnc MIo SIo LIo MIoDrive SIoDrive LIoDrive MText MScript SScript MSighash SSighash LSighash LSighash2 LSighash3 PSighash MSigWriter LSigWriter.
Local Open Scope N_scope.

(** A writer whose output was [old] and is now [new], after a request whose signing data should be [expected], which gave [res]: all of
    the data on success; the right error; or the writer's own error, which is never an interruption, and then only a part of the data. *)
Definition written {E} (old new : bytes) (expected : result bytes E) (res : result unit (data_err E)) : Prop :=
  match res with
  | Ok _ => exists m, expected = Ok m /\ new = old ++ m
  | Err (DSighash e) => expected = Err e /\ exists p, new = old ++ p
  | Err (DIo k) => k <> Interrupted /\ exists p, new = old ++ p /\ forall m, expected = Ok m -> exists q, q <> [] /\ m = p ++ q
  end.
(** The cache answers any further calls as a new one would. *)
Definition still_right (H : bytes -> bytes) (tx : transaction) (ps : list txout) (c : cache) : Prop := forall ks, Forall (same_spent tx ps) ks ->
  exists c' answers, do_calls H c ks = Ret (c', answers) /\ Forall2 (fun k a => exists c'', do_call H (cache_new tx) k = Ret (c'', a)) ks answers.

Lemma good_right : forall H tx ps c, good H tx ps c -> still_right H tx ps c.
Proof.
  intros H tx ps c G ks F. destruct (do_calls_eq H script_code_total tx ps ks c G F) as (c' & l & _ & A & D). exists c', l. split; [exact D|].
  clear c c' G D. revert l A. induction ks as [|k ks IH]; intros l A; cbn [call_answers] in A; [injection A as <-; constructor|]. inversion F; subst.
  destruct (do_call_eq H script_code_total tx ps (cache_new tx) k (new_good H tx ps)) as (c & a & _ & AA & DD); [assumption|]. rewrite AA in A. cbn [rbind] in A.
  destruct (call_answers H tx ks) as [l'|]; [|discriminate]. cbn [rbind] in A. injection A as <-. constructor; [eauto|]. now apply IH.
Qed.
Lemma good_trans : forall H a b ps c, reads_as a b -> (good H a ps c <-> good H b ps c).
Proof.
  intros H a b ps c R. unfold good. rewrite (common_reads H a b R).
  assert (X : reads_as (sc_tx c) a <-> reads_as (sc_tx c) b) by (unfold reads_as in *; intuition congruence). now rewrite X.
Qed.
Lemma good_own : forall H tx ps c, good H tx ps c -> gd H (sc_tx c) ps c.
Proof. intros H tx ps c G. split; [|reflexivity]. apply (good_trans H _ tx); [apply G|exact G]. Qed.
Lemma history : forall H tx ps ks c l, Forall (same_spent tx ps) ks -> do_calls H (cache_new tx) ks = Ret (c, l) -> good H tx ps c.
Proof.
  intros H tx ps ks c l F D. destruct (do_calls_eq H script_code_total tx ps ks (cache_new tx) (new_good H tx ps) F) as (c' & l' & G & _ & E). rewrite D in E. injection E as <- _. exact G.
Qed.
(** From the relation with the in-memory function to the specification. *)
Lemma track_written : forall H W out E tx ps (s : step E) ws q, tracks H W out tx ps s ws -> forall c, gd H tx ps c ->
  (exists c1 w1, s c = (c1, w1, match q with Ok _ => Ok tt | Err e => Err e end) /\ match q with Ok w' => w1 = w' | Err _ => True end) ->
  forall f w r, ws f c w = Some r -> exists c' res w', r = Ret (c', res, w') /\ written (out w) (out w') q res /\ good H tx ps c'.
Proof.
  intros H W out E tx ps s ws q T c G (c1 & w1 & Sc & Q) f w r R. destruct (T f c w r G R) as (c' & res & w' & p & rest & -> & [G' _] & O & D & X). rewrite Sc in D, X. cbn [fst snd] in D, X.
  exists c', res, w'. split; [reflexivity|]. split; [|exact G']. destruct res as [u|[k|e]]; cbn [written].
  - destruct X as (-> & Y & _). destruct q as [m|e]; [|discriminate]. exists m. split; [reflexivity|]. rewrite app_nil_r in D. congruence.
  - destruct X as [NR NK]. split; [exact NK|]. exists p. split; [exact O|]. intros m ->. exists rest. split; [exact NR|congruence].
  - destruct X as (-> & Y). destruct q as [m|e']; [discriminate|]. split; [congruence|eauto].
Qed.

(** Taproot: after any history of calls on the cache, for any writer. *)
Theorem C39_writer_taproot : forall H tx ps ks c l, Forall (same_spent tx ps) ks -> do_calls H (cache_new tx) ks = Ret (c, l) ->
  forall i p annex leaf ty, same_spent tx ps (CTap i p annex leaf ty) -> forall W out, writes_to W out ->
  (forall f w r, tap_to H W f i p annex leaf ty c w = Some r -> exists c' res w', r = Ret (c', res, w') /\
     written (out w) (out w') (match tap_outcome tx i p annex leaf ty with Ok a => Ok (0 :: sig_msg H a) | Err e => Err e end) res /\ still_right H tx ps c') /\
  (forall m, settles_w W m -> forall w, exists n, forall f, (n <= f)%nat -> exists c' res w', tap_to H W f i p annex leaf ty c w = Some (Ret (c', res, w')) /\
     forall inv, willing W inv -> inv w -> forall k, res <> Err (DIo k)).
Proof.
  intros H tx ps ks c l F D i p annex leaf ty SP W out Law. pose proof (history H tx ps ks c l F D) as G. pose proof (good_own H tx ps c G) as GO. assert (R : reads_as (sc_tx c) tx) by apply G.
  assert (C : match p with PAll os => anyone (tap_u8 ty) = true \/ lenN os <> lenN (tx_inputs (sc_tx c)) \/ os = ps | POne _ _ => True end).
  { rewrite (reads_len _ _ R). destruct p; [exact I|exact SP]. }
  split.
  - intros f w r Q. destruct (track_written H W out tap_err (sc_tx c) ps _ _ (sig_msg_of H (tap_outcome tx i p annex leaf ty)) (tr_tap H W out Law (sc_tx c) ps i p annex leaf ty C) c GO) with (f := f) (w := w) (r := r) as (c' & res & w' & -> & Wr & G'); [|exact Q|].
    { destruct (tap_run H tx ps i p annex leaf ty) with (c := c) as (c1 & w1 & _ & A & B); [destruct p; [exact I|exact SP]|exact G|]. exists c1, w1. auto. }
    exists c', res, w'. split; [reflexivity|]. split; [exact Wr|]. apply good_right. now apply (good_trans H (sc_tx c) tx).
  - intros m Sm w. destruct (po_tap H W out Law (sc_tx c) ps m Sm i p annex leaf ty C) as (k & P). exists (1 + (m w + k))%nat. intros f Lf. destruct (P f c w GO ltac:(lia)) as (c' & res & w' & Q & _ & _ & I). exists c', res, w'. split; [exact Q|].
    intros inv Wi Iw. now apply (I inv Wi Iw).
Qed.
(** Segwit v0. *)
Theorem C39_writer_segwit : forall H tx ps ks c l, Forall (same_spent tx ps) ks -> do_calls H (cache_new tx) ks = Ret (c, l) ->
  forall i code amount ty W out, writes_to W out ->
  (forall f w r, segwit_to H W f i code amount ty c w = Some r -> exists c' res w', r = Ret (c', res, w') /\
     written (out w) (out w') (if lenN (tx_inputs tx) <=? i then Err (i, lenN (tx_inputs tx))
       else Ok (bip143_msg H {| va_ty := ecdsa_u32 ty; va_tx := tx; va_i := i; va_code := code; va_amount := amount |})) res /\ still_right H tx ps c') /\
  (forall m, settles_w W m -> forall w, exists n, forall f, (n <= f)%nat -> exists c' res w', segwit_to H W f i code amount ty c w = Some (Ret (c', res, w')) /\
     forall inv, willing W inv -> inv w -> forall k, res <> Err (DIo k)).
Proof.
  intros H tx ps ks c l F D i code amount ty W out Law. pose proof (history H tx ps ks c l F D) as G. pose proof (good_own H tx ps c G) as GO. assert (R : reads_as (sc_tx c) tx) by apply G.
  split.
  - intros f w r Q. destruct (track_written H W out (N * N) (sc_tx c) ps _ _ (if lenN (tx_inputs tx) <=? i then Err (i, lenN (tx_inputs tx)) else Ok (bip143_msg H {| va_ty := ecdsa_u32 ty; va_tx := tx; va_i := i; va_code := code; va_amount := amount |})) (tr_segwit_to H W out Law (sc_tx c) ps i code amount ty) c GO) with (f := f) (w := w) (r := r) as (c' & res & w' & -> & Wr & G'); [|exact Q|].
    { destruct (segwit_run H tx ps i code amount ty c G) as (c1 & w1 & _ & A & B). exists c1, w1. split; [exact A|exact B]. }
    exists c', res, w'. split; [reflexivity|]. split; [exact Wr|]. apply good_right. now apply (good_trans H (sc_tx c) tx).
  - intros m Sm w. destruct (po_segwit_to H W out Law (sc_tx c) ps m Sm i code amount ty) as (k & P). exists (1 + (m w + k))%nat. intros f Lf. destruct (P f c w GO ltac:(lia)) as (c' & res & w' & Q & _ & _ & I). exists c', res, w'. split; [exact Q|].
    intros inv Wi Iw. now apply (I inv Wi Iw).
Qed.
(** Legacy: a wrong index and the SINGLE bug are reported with the writer untouched. *)
Theorem C39_writer_legacy : forall tx i code ty W out, writes_to W out ->
  (forall f w r, legacy_to W f tx i code ty w = Some r -> exists res w', r = Ret (res, w') /\
     if lenN (tx_inputs tx) <=? i then res = Some (Err (DSighash (i, lenN (tx_inputs tx)))) /\ w' = w
     else if (N.land ty 0x1f =? 3) && (lenN (tx_outputs tx) <=? i) then res = None /\ w' = w
     else exists x, res = Some x /\ written (out w) (out w') (@Ok bytes (N * N) (legacy_msg ty i code tx)) x) /\
  (forall m, settles_w W m -> forall w, exists n, forall f, (n <= f)%nat -> exists res w', legacy_to W f tx i code ty w = Some (Ret (res, w')) /\
     forall inv, willing W inv -> inv w -> forall k, res <> Some (Err (DIo k))).
Proof.
  intros tx i code ty W out Law. set (H0 := fun x : bytes => x). pose proof (gd_new H0 tx []) as G.
  assert (IDX : tx_in tx i = if lenN (tx_inputs tx) <=? i then Err (i, lenN (tx_inputs tx)) else tx_in tx i).
  { destruct (N.leb_spec (lenN (tx_inputs tx)) i); [|reflexivity]. unfold tx_in. rewrite getN_nthN, nthN_none by lia. reflexivity. }
  assert (BUG : invalid_single ty i (lenN (tx_outputs tx)) = single_bug tx i ty).
  { unfold invalid_single, single_bug. pose proof (consensus_bits ty) as CB. destruct (ecdsa_split (from_consensus ty)) as [sh acp]. destruct CB as (_ & _ & B3 & _). now rewrite B3. }
  unfold legacy_to. rewrite BUG. destruct (N.leb_spec (lenN (tx_inputs tx)) i) as [GE|LT].
  { rewrite IDX. split; [intros f w r Q; injection Q as <-; eauto|]. intros m Sm w. exists 0%nat. intros f _. eexists _, w. split; [reflexivity|]. discriminate. }
  assert (X : exists x, tx_in tx i = Ok x) by (unfold tx_in; rewrite getN_nthN; destruct (nthN_some _ _ _ LT) as [x ->]; eauto). destruct X as [x ->].
  unfold single_bug. destruct ((N.land ty 0x1f =? 3) && (lenN (tx_outputs tx) <=? i)) eqn:SB.
  { split; [intros f w r Q; injection Q as <-; eauto|]. intros m Sm w. exists 0%nat. intros f _. eexists _, w. split; [reflexivity|]. discriminate. }
  pose proof (legacy_inner_eq tx i code ty LT SB) as IN. split.
  - intros f w r Q. destruct (legacy_inner_to W f tx i code ty (cache_new tx) w) as [y|] eqn:E; [|discriminate].
    destruct (track_written H0 W out (N * N) tx [] _ _ (Ok (legacy_msg ty i code tx)) (tr_legacy H0 W out Law tx [] tx i code ty _ IN) (cache_new tx) G) with (f := f) (w := w) (r := y) as (c' & res & w' & -> & Wr & _); [|exact E|].
    { exists (cache_new tx), (legacy_msg ty i code tx). split; reflexivity. }
    injection Q as <-. exists (Some res), w'. split; [reflexivity|]. exists res. split; [reflexivity|exact Wr].
  - intros m Sm w. destruct (po_legacy H0 W out Law tx [] m Sm tx i code ty _ IN) as (k & P). exists (1 + (m w + k))%nat. intros f Lf. destruct (P f (cache_new tx) w G ltac:(lia)) as (c' & res & w' & Q & _ & _ & I). rewrite Q. exists (Some res), w'. split; [reflexivity|].
    intros inv Wi Iw e Z. injection Z as ->. now apply (proj2 (I inv Wi Iw) e).
Qed.
(** is_sighash_single_bug: an error only of the writer or for a wrong index, and true exactly for the bug. *)
Theorem C39_single_bug : forall (r : option (result unit (data_err (N * N)))),
  (is_single_bug r = Ok true <-> r = None) /\ (is_single_bug r = Ok false <-> r = Some (Ok tt)) /\ (forall e, is_single_bug r = Err e <-> r = Some (Err e)).
Proof. intros [[[]|e]|]; cbn; repeat split; try discriminate; try congruence. Qed.
(** Unlike legacy requests, a refused segwit request has already written something. *)
Theorem C39_refused_writes_refuted : ~ (forall H tx i code amount ty f w c' e w', segwit_to H vec_writer f i code amount ty (cache_new tx) w = Some (Ret (c', Err (DSighash e), w')) -> w' = w).
Proof.
  intro A. specialize (A (fun _ => []) ex_tx 2 [] 0 EAllAcp 100%nat []). destruct (segwit_to (fun _ => []) vec_writer 100 2 [] 0 EAllAcp (cache_new ex_tx) []) as [[[[c r] w]|]|] eqn:E; [|vm_compute in E; discriminate|vm_compute in E; discriminate].
  vm_compute in E. injection E as <- <- <-. specialize (A _ _ _ eq_refl). discriminate.
Qed.
Definition toyh (m : bytes) : bytes := repeat (lenN m mod 256) 32.
(** The hypotheses are met: a writer that takes the data in pieces, is interrupted, and one that fails after ten bytes. *)
Example C39_writer_ex :
  (exists c ev, segwit_to toyh world_writer 300 1 (t_p2pkh ex_hash) 600000000 EAll (cache_new ex_tx) ([], [Give 3; Fail Interrupted; Give 50]) =
     Some (Ret (c, Ok tt, (bip143_msg toyh {| va_ty := 1; va_tx := ex_tx; va_i := 1; va_code := t_p2pkh ex_hash; va_amount := 600000000 |}, ev)))) /\
  (exists c w, segwit_to toyh world_writer 300 1 (t_p2pkh ex_hash) 600000000 ENoneAcp (cache_new ex_tx) ([], [Give 4; Give 6; Fail (OtherKind 5)]) = Some (Ret (c, Err (DIo (OtherKind 5)), w)) /\ lenN (fst w) = 10).
Proof. split; [eexists _, _; vm_compute; reflexivity|]. eexists _, _. split; vm_compute; reflexivity. Qed.
Print Assumptions C39_writer_taproot.
Print Assumptions C39_writer_segwit.
Print Assumptions C39_writer_legacy.
Print Assumptions C39_single_bug.
Print Assumptions C39_refused_writes_refuted.
