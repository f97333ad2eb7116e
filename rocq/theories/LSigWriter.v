(** Lemmas: the signing data written to any writer. *)
From Verif Require Import Base MDec MWitness MTx MEnc SEnc LEnc MIo SIo LIo MIoDrive SIoDrive LIoDrive MText MScript MSighash SSighash LSighash MSigWriter.
Local Open Scope N_scope.

Lemma outpoint_encoder_law : forall o, sound (outpoint_encoder o) /\ content (outpoint_encoder o) = outpoint_encode o.
Proof. intro o. split; [cbn; repeat split; auto; lia|]. unfold outpoint_encoder, outpoint_encode. cbn [content map skipn concat]. now rewrite app_nil_r. Qed.

Section W.
  Variable H : bytes -> bytes.
  Context (W : writer) (out : wstate W -> bytes) (Law : writes_to W out).
  Context (tx : transaction) (ps : list txout).
  Definition gd (c : cache) : Prop := good H tx ps c /\ sc_tx c = tx.
  Lemma gd_new : gd (cache_new tx). Proof. split; [apply new_good|reflexivity]. Qed.

  (** ** What is written *)
  Definition tracks {E} (s : step E) (ws : nat -> wstep W E) : Prop := forall f c w r, gd c -> ws f c w = Some r ->
    exists c' res w' p q, r = Ret (c', res, w') /\ gd c' /\ out w' = out w ++ p /\ snd (fst (s c)) = p ++ q /\
    match res with
    | Ok _ => q = [] /\ snd (s c) = Ok tt /\ fst (fst (s c)) = c'
    | Err (DSighash e) => q = [] /\ snd (s c) = Err e
    | Err (DIo k) => q <> [] /\ k <> Interrupted
    end.
  Lemma tr_then : forall E (a b : step E) wa wb, tracks a wa -> tracks b wb -> tracks (then_ a b) (fun f => wthen W (wa f) (wb f)).
  Proof.
    intros E a b wa wb A B f c w r G Q. unfold wthen in Q. destruct (wa f c w) as [x|] eqn:Ea; [|discriminate].
    destruct (A f c w x G Ea) as (c1 & res & w1 & p & q & -> & G1 & O1 & D & R). unfold then_. destruct (a c) as [[ca da] ra]. cbn [fst snd] in *.
    destruct res as [u|[k|e]].
    - destruct R as (-> & -> & ->). rewrite app_nil_r in D. subst da. destruct (B f c1 w1 r G1 Q) as (c2 & res & w2 & p2 & q2 & -> & G2 & O2 & D2 & R2).
      destruct (b c1) as [[cb db] rb]. cbn [fst snd] in *. exists c2, res, w2, (p ++ p2), q2. rewrite O2, O1, D2, !app_assoc. auto 9.
    - injection Q as <-. destruct R as [NQ NK]. exists c1, (Err (DIo k)), w1, p. destruct ra as [u|e'].
      + destruct (b ca) as [[cb db] rb]. cbn [fst snd]. exists (q ++ db). rewrite D, app_assoc. split; [reflexivity|]. split; [exact G1|]. split; [exact O1|]. split; [reflexivity|].
        split; [|exact NK]. intro Z. apply app_eq_nil in Z as [Z _]. contradiction.
      + exists q. cbn [fst snd]. auto 9.
    - injection Q as <-. destruct R as [-> ->]. exists c1, (Err (DSighash e)), w1, p, []. cbn [fst snd]. auto 9.
  Qed.
  Lemma tr_skip : forall E, tracks (@skip E) (fun _ => wskip W).
  Proof. intros E f c w r G Q. injection Q as <-. exists c, (Ok tt), w, [], []. rewrite app_nil_r. cbn. auto 8. Qed.
  Lemma tr_fail : forall E (e : E), tracks (fail e) (fun _ => wfail W e).
  Proof. intros E e f c w r G Q. injection Q as <-. exists c, (Err (DSighash e)), w, [], []. rewrite app_nil_r. cbn. auto 8. Qed.
  (** the result of writing [b] *)
  Definition wrote (b : bytes) (w : wstate W) (x : option (rust (result unit kind * wstate W))) : Prop := forall r, x = Some r ->
    exists res w' p q, r = Ret (res, w') /\ b = p ++ q /\ out w' = out w ++ p /\ match res with Ok _ => q = [] | Err k => q <> [] /\ k <> Interrupted end.
  Lemma wrote_tracks : forall E b (io : nat -> wstate W -> option (rust (result unit kind * wstate W))), (forall f w, wrote b w (io f w)) ->
    tracks (@write E b) (fun f c w => io_step W (io f w) c).
  Proof.
    intros E b io P f c w r G Q. unfold io_step in Q. destruct (io f w) as [x|] eqn:Ex; [|discriminate]. destruct (P f w x Ex) as (res & w' & p & q & -> & D & O & R).
    destruct res as [u|k]; injection Q as <-; eexists c, _, w', p, q; (split; [reflexivity|]); cbn [write fst snd]; destruct u || idtac; auto 8.
  Qed.
  Lemma tr_put : forall E b, tracks (@write E b) (fun f => wput W f b).
  Proof using Law. intros. apply (wrote_tracks E b (fun f w => write_all W f w b)). intros f w r Q. destruct (write_all_spec W out Law f w b r Q) as (res & w' & p & q & -> & A & B & C). eauto 9. Qed.
  Lemma tr_enc : forall E e, sound e -> tracks (@write E (content e)) (fun f => wenc W f (Ret e)).
  Proof using Law. intros E e S. apply (wrote_tracks E (content e) (fun f w => encode_to_writer W f f (Ret e) w)). intros f w r Q. exact (drain_spec W out Law f f e w r S Q). Qed.
  Lemma tr_le : forall E n v, tracks (@write E (le_bytes n v)) (fun f => wle W f n v).
  Proof using Law. intros. apply (tr_enc E (EBytes (le_bytes n v))). exact I. Qed.
  Lemma tr_script : forall E s, tracks (@write E (script_encode s)) (fun f => wenc W f (Ret (script_encoder s))).
  Proof using Law. intros. destruct (script_encoder_law s) as [S <-]. now apply tr_enc. Qed.
  Lemma tr_outpoint : forall E o, tracks (@write E (outpoint_encode o)) (fun f => wenc W f (Ret (outpoint_encoder o))).
  Proof using Law. intros. destruct (outpoint_encoder_law o) as [S <-]. now apply tr_enc. Qed.
  (** several writes in a row *)
  Lemma tr_app : forall E a b wa wb, tracks (@write E a) wa -> tracks (@write E b) wb -> tracks (@write E (a ++ b)) (fun f => wthen W (wa f) (wb f)).
  Proof. intros E a b wa wb A B. exact (tr_then E (write a) (write b) wa wb A B). Qed.
  Lemma tr_app_then : forall E a b (s : step E) wa wb, tracks (@write E a) wa -> tracks (then_ (write b) s) wb -> tracks (then_ (write (a ++ b)) s) (fun f => wthen W (wa f) (wb f)).
  Proof.
    intros E a b s wa wb A B. pose proof (tr_then E (write a) (then_ (write b) s) wa wb A B) as T. intros f c w r G Q. destruct (T f c w r G Q) as (c' & res & w' & p & q & R). exists c', res, w', p, q.
    assert (Z : then_ (write (a ++ b)) s c = then_ (write a) (then_ (write b) s) c) by (unfold then_, write; destruct (s c) as [[? ?] ?]; now rewrite app_assoc). now rewrite Z.
  Qed.
  Lemma gd_common : forall c, gd c -> exists c', get_common H c = (c', compute_common H tx) /\ gd c'.
  Proof.
    intros c [G T]. destruct (get_common_good H tx ps c G) as (c' & E & G' & _). exists c'. split; [exact E|]. split; [exact G'|].
    unfold get_common in E. destruct (sc_common c); apply (f_equal fst) in E; cbn [fst] in E; subst c'; exact T.
  Qed.
  Lemma gd_segwit : forall c, gd c -> exists c', get_segwit H c = (c', segwit_of H (compute_common H tx)) /\ gd c'.
  Proof.
    intros c G. pose proof (gd_common c G) as (c1 & E1 & G1). destruct G as [G T]. destruct (get_segwit_good H tx ps c G) as (c' & E & G'). exists c'. split; [exact E|]. split; [exact G'|].
    unfold get_segwit in E. destruct (sc_segwit c); [|rewrite E1 in E]; apply (f_equal fst) in E; cbn [fst] in E; subst c'; [exact T|cbn [sc_tx]; apply G1].
  Qed.
  Lemma gd_taproot : forall c, gd c -> exists c', get_taproot H c ps = (c', tap_cache_of H ps) /\ gd c'.
  Proof.
    intros c [G T]. destruct (get_taproot_good H tx ps c G) as (c' & E & G'). exists c'. split; [exact E|]. split; [exact G'|].
    unfold get_taproot in E. destruct (sc_taproot c); apply (f_equal fst) in E; cbn [fst] in E; subst c'; exact T.
  Qed.
  Lemma tr_common : forall E g, tracks (@write_common H E g) (fun f => wcommon H W f g).
  Proof using Law.
    intros E g f c w r G Q. destruct (gd_common c G) as (c1 & E1 & G1). unfold wcommon in Q. rewrite E1 in Q. unfold write_common. rewrite E1.
    destruct (tr_put E (g (compute_common H tx)) f c1 w r G1 Q) as (c' & res & w' & p & q & R). exists c', res, w', p, q. exact R.
  Qed.
  Lemma tr_segwit : forall E g, tracks (@write_segwit H E g) (fun f => wsegwit H W f g).
  Proof using Law.
    intros E g f c w r G Q. destruct (gd_segwit c G) as (c1 & E1 & G1). unfold wsegwit in Q. rewrite E1 in Q. unfold write_segwit. rewrite E1.
    destruct (tr_put E (g (segwit_of H (compute_common H tx))) f c1 w r G1 Q) as (c' & res & w' & p & q & R). exists c', res, w', p, q. exact R.
  Qed.
  Lemma tr_taproot : forall p g, match p with PAll os => os = ps | POne _ _ => True end -> tracks (write_taproot H p g) (fun f => wtaproot H W f p g).
  Proof using Law.
    intros [j o|os] g C f c w r G Q; unfold wtaproot, get_all in Q; unfold write_taproot, get_all; [exact (tr_fail tap_err EPrevoutsKind f c w r G Q)|]. subst os.
    destruct (gd_taproot c G) as (c1 & E1 & G1). rewrite E1 in Q. rewrite E1.
    destruct (tr_put tap_err (g (tap_cache_of H ps)) f c1 w r G1 Q) as (c' & res & w' & p & q & R). exists c', res, w', p, q. exact R.
  Qed.
  Lemma tr_tap : forall i p annex leaf ty, match p with PAll os => anyone (tap_u8 ty) = true \/ lenN os <> lenN (tx_inputs tx) \/ os = ps | POne _ _ => True end ->
    tracks (tap_encode H i p annex leaf ty) (fun f => tap_to H W f i p annex leaf ty).
  Proof using Law.
    intros i p annex leaf ty C f c w r G Q. pose proof (proj2 G) as T. unfold tap_to in Q. unfold tap_encode. rewrite T in *. cbv zeta in *.
    destruct (check_all p tx) eqn:CK; cbn [negb] in *; [|exact (tr_fail tap_err EPrevoutsSize f c w r G Q)].
    pose proof (tap_bits ty) as TB. destruct (tap_split ty) as [sh acp]. destruct TB as (B1 & _). revert f c w r G T Q. intros f c w r G _. revert f c w r G. 
    change (tracks (then_ (write ([0] ++ [tap_u8 ty] ++ le_bytes 4 (tx_version tx) ++ le_bytes 4 (tx_lock_time tx)))
   (then_ (if negb acp then
             then_ (write_common H cm_prevouts) (then_ (write_taproot H p tp_amounts) (then_ (write_taproot H p tp_scripts) (write_common H cm_sequences)))
           else skip)
   (then_ (if negb (tap_single_or_none sh) then write_common H cm_outputs else skip)
   (then_ (write [N.lor (match annex with Some _ => 1 | None => 0 end) (match leaf with Some _ => 2 | None => 0 end)])
   (then_ (if acp then
             match tap_tx_in tx i with Err e => fail e | Ok txin =>
             match prevouts_get p i with Err e => fail e | Ok o =>
               write (outpoint_encode (ti_prevout txin) ++ le_bytes 8 (to_amount o) ++ script_encode (to_script o) ++ le_bytes 4 (ti_sequence txin))
             end end
           else write (le_bytes 4 (i mod 2 ^ 32)))
   (then_ (match annex with Some a => write (H (cs_encode (lenN a) ++ a)) | None => skip end)
   (then_ (match sh with
           | TSingle => match getN (tx_outputs tx) i with Some o => write (H (txout_encode o)) | None => fail (ESingleMissing i (lenN (tx_outputs tx))) end
           | _ => skip
           end)
          (match leaf with Some (h, pos) => write (h ++ [0] ++ le_bytes 4 pos) | None => skip end)))))))) 
     (fun f => wthen W (wput W f [0]) (wthen W (wput W f [tap_u8 ty]) (wthen W (wle W f 4 (tx_version tx)) (wthen W (wle W f 4 (tx_lock_time tx))
     (wthen W (if negb acp then wthen W (wcommon H W f cm_prevouts) (wthen W (wtaproot H W f p tp_amounts) (wthen W (wtaproot H W f p tp_scripts) (wcommon H W f cm_sequences))) else wskip W)
     (wthen W (if negb (tap_single_or_none sh) then wcommon H W f cm_outputs else wskip W)
     (wthen W (wput W f [N.lor (match annex with Some _ => 1 | None => 0 end) (match leaf with Some _ => 2 | None => 0 end)])
     (wthen W (if acp then
        match tap_tx_in tx i with Err e => wfail W e | Ok txin =>
        match prevouts_get p i with Err e => wfail W e | Ok o =>
          wthen W (wenc W f (Ret (outpoint_encoder (ti_prevout txin)))) (wthen W (wle W f 8 (to_amount o)) (wthen W (wenc W f (Ret (script_encoder (to_script o)))) (wle W f 4 (ti_sequence txin))))
        end end
      else wput W f (le_bytes 4 (i mod 2 ^ 32)))
     (wthen W (match annex with Some a => wput W f (H (cs_encode (lenN a) ++ a)) | None => wskip W end)
     (wthen W (match sh with
      | TSingle => match getN (tx_outputs tx) i with Some o => wput W f (H (txout_encode o)) | None => wfail W (ESingleMissing i (lenN (tx_outputs tx))) end
      | _ => wskip W
      end)
     (match leaf with Some (h, pos) => wthen W (wput W f h) (wthen W (wput W f [0]) (wput W f (le_bytes 4 pos))) | None => wskip W end)))))))))))).
    apply tr_app_then; [apply tr_put|]. apply tr_app_then; [apply tr_put|]. apply tr_app_then; [apply tr_le|]. apply tr_then; [apply tr_le|].
    apply (tr_then _ _ _ (fun f => if negb acp then wthen W (wcommon H W f cm_prevouts) (wthen W (wtaproot H W f p tp_amounts) (wthen W (wtaproot H W f p tp_scripts) (wcommon H W f cm_sequences))) else wskip W)).
    { destruct acp; cbn [negb]; [apply tr_skip|]. assert (P : match p with PAll os => os = ps | POne _ _ => True end).
      { destruct p as [|os]; [exact I|]. destruct C as [C|[C|C]]; [congruence| |exact C]. cbn [check_all] in CK. apply N.eqb_eq in CK. contradiction. }
      apply tr_then; [apply tr_common|]. apply tr_then; [now apply tr_taproot|]. apply tr_then; [now apply tr_taproot|apply tr_common]. }
    apply (tr_then _ _ _ (fun f => if negb (tap_single_or_none sh) then wcommon H W f cm_outputs else wskip W)).
    { destruct (tap_single_or_none sh); cbn [negb]; [apply tr_skip|apply tr_common]. }
    apply tr_then; [apply tr_put|].
    apply (tr_then _ _ _ (fun f => if acp then
        match tap_tx_in tx i with Err e => wfail W e | Ok txin =>
        match prevouts_get p i with Err e => wfail W e | Ok o =>
          wthen W (wenc W f (Ret (outpoint_encoder (ti_prevout txin)))) (wthen W (wle W f 8 (to_amount o)) (wthen W (wenc W f (Ret (script_encoder (to_script o)))) (wle W f 4 (ti_sequence txin))))
        end end
      else wput W f (le_bytes 4 (i mod 2 ^ 32)))).
    { destruct acp; [|apply tr_put]. destruct (tap_tx_in tx i) as [x|e]; [|apply tr_fail]. destruct (prevouts_get p i) as [o|e]; [|apply tr_fail].
      apply tr_app; [apply tr_outpoint|]. apply tr_app; [apply tr_le|]. apply tr_app; [apply tr_script|apply tr_le]. }
    apply (tr_then _ _ _ (fun f => match annex with Some a => wput W f (H (cs_encode (lenN a) ++ a)) | None => wskip W end)).
    { destruct annex; [apply tr_put|apply tr_skip]. }
    apply (tr_then _ _ _ (fun f => match sh with
      | TSingle => match getN (tx_outputs tx) i with Some o => wput W f (H (txout_encode o)) | None => wfail W (ESingleMissing i (lenN (tx_outputs tx))) end
      | _ => wskip W
      end)).
    { destruct sh; try apply tr_skip. destruct (getN (tx_outputs tx) i); [apply tr_put|apply tr_fail]. }
    destruct leaf as [[h pos]|]; [|apply tr_skip]. apply tr_app; [apply tr_put|]. apply tr_app; apply tr_put.
  Qed.
  Ltac tr1 := lazymatch goal with |- tracks (then_ ?s1 ?s2) (fun f => wthen W (@?a f) (@?b f)) => apply (tr_then _ s1 s2 a b) end.
  Ltac ta1 := lazymatch goal with |- tracks (write (?s1 ++ ?s2)) (fun f => wthen W (@?a f) (@?b f)) => apply (tr_app _ s1 s2 a b) end.
  Lemma tr_segwit_to : forall i code amount ty, tracks (segwit_encode H i code amount ty) (fun f => segwit_to H W f i code amount ty).
  Proof using Law.
    intros i code amount ty f c w r G Q. pose proof (proj2 G) as T. unfold segwit_to in Q. unfold segwit_encode. rewrite T in *. cbv zeta in *.
    destruct (ecdsa_split ty) as [sh acp]. revert Q. generalize r. generalize w. revert G. clear T r w. 
    match goal with |- gd c -> forall w r, ?x w = Some r -> _ => idtac end.
    match goal with |- gd c -> forall w r, ?ws c w = Some r -> exists c' res w' p q, _ /\ _ /\ _ /\ snd (fst (?s c)) = _ /\ _ =>
      let g := eval pattern f in ws in lazymatch g with ?g' f => enough (TR : tracks s g') by (intros G w r Q; exact (TR f c w r G Q)) end end.
    clear f c. cbv beta.
    tr1; [apply tr_le|]. tr1; [destruct acp; [apply tr_put|apply tr_segwit]|]. tr1; [destruct (negb acp && negb (ecdsa_single_or_none sh)); [apply tr_segwit|apply tr_put]|].
    tr1. { destruct (tx_in tx i) as [x|e]; [|apply tr_fail]. ta1; [apply tr_outpoint|]. ta1; [apply tr_script|]. ta1; apply tr_le. }
    tr1. { destruct (ecdsa_single_or_none sh); cbn [negb]; [|apply tr_segwit]. destruct (if is_single sh && (i <? lenN (tx_outputs tx)) then getN (tx_outputs tx) i else None); apply tr_put. }
    ta1; [apply tr_le|apply tr_put].
  Qed.
  Lemma tr_inputs : forall i spk keep ins n, tracks (@write (N * N) (legacy_inputs n i spk keep ins)) (fun f => legacy_inputs_to W f n i spk keep ins).
  Proof using Law.
    intros i spk keep. induction ins as [|x ins IH]; intro n; cbn [legacy_inputs legacy_inputs_to]; [apply tr_skip|].
    ta1; [apply tr_outpoint|]. ta1; [destruct (n =? i); apply tr_script|]. ta1; [destruct (negb (n =? i) && negb keep); apply tr_le|apply IH].
  Qed.
  Lemma tr_blanks : forall n, tracks (@write (N * N) (concat (repeat [255; 255; 255; 255; 255; 255; 255; 255; 0] n))) (fun f => blanks_to W f n).
  Proof using Law. induction n as [|n IH]; cbn [repeat concat blanks_to]; [apply tr_skip|]. ta1; [apply tr_put|exact IH]. Qed.
  Lemma tr_cs : forall E b, tracks (@write E b) (fun f => wenc W f (Ret (EBytes b))).
  Proof using Law. intros. apply (tr_enc E (EBytes b)). exact I. Qed.
  Lemma outs_enc : forall os, exists e, prefixed_slice (map txout_encoder os) = Ret e /\ sound e /\ content e = cs_encode (lenN os) ++ flat_map txout_encode os.
  Proof using.
    intro os. destruct (prefixed_slice_law (map txout_encoder os)) as (e & E & S & C).
    - induction os as [|o os IH]; constructor; [|exact IH]. split; [apply txout_encoder_law|]. cbn [chunk txout_encoder]. discriminate.
    - exists e. split; [exact E|]. split; [exact S|]. rewrite C. unfold lenN. rewrite map_length. f_equal. rewrite map_map, flat_map_concat_map. f_equal. apply map_ext. intro o. apply txout_encoder_law.
  Qed.
  Ltac unr Q := apply (f_equal (fun x : rust bytes => match x with Ret d => d | Panic => [] end)) in Q; cbv beta iota in Q; symmetry in Q.
  Lemma tr_legacy : forall t i spk ty data, legacy_inner t i spk ty = Ret data -> tracks (@write (N * N) data) (fun f => legacy_inner_to W f t i spk ty).
  Proof using Law.
    intros t i spk ty data Q. unfold legacy_inner in Q. unfold legacy_inner_to. destruct (ecdsa_split (from_consensus ty)) as [sh acp].
    match type of Q with rbind ?a _ = _ => destruct a as [wi|] eqn:Ei; [|discriminate] end. cbn [rbind] in Q.
    match type of Q with rbind ?a _ = _ => destruct a as [wo|] eqn:Eo; [|discriminate] end. cbn [rbind] in Q. unr Q. subst data.
    ta1; [apply tr_le|]. ta1.
    { destruct acp.
      - destruct (index (tx_inputs t) i) as [x|]; [|discriminate]. cbn [rbind] in Ei. unr Ei. subst wi. ta1; [apply tr_cs|]. ta1; [apply tr_outpoint|]. ta1; [apply tr_script|apply tr_le].
      - unr Ei. subst wi. ta1; [apply tr_cs|apply tr_inputs]. }
    ta1; [|ta1; [apply tr_le|apply tr_put]].
    destruct sh; try discriminate.
    - unr Eo. subst wo. destruct (outs_enc (tx_outputs t)) as (e & E & S & C). rewrite E, <- C. now apply tr_enc.
    - unr Eo. subst wo. apply tr_cs.
    - destruct (1 <=? lenN (tx_outputs t)); [|discriminate]. cbn [rbind] in Eo. cbv zeta in *. destruct (index (tx_outputs t) (N.min i (lenN (tx_outputs t) - 1))) as [o|]; [|discriminate]. cbn [rbind] in Eo. unr Eo. subst wo.
      ta1; [apply tr_cs|]. ta1; [apply tr_blanks|]. destruct (txout_encoder_law o) as [S <-]. now apply tr_enc.
  Qed.

  (** ** That it ends, and without a failure of a willing writer *)
  Context (m : wstate W -> nat) (Sm : settles_w W m).
  Definition polite {E} (ws : nat -> wstep W E) : Prop := exists k, forall f c w, gd c -> (m w + k < f)%nat ->
    exists c' res w', ws f c w = Some (Ret (c', res, w')) /\ gd c' /\ (m w' <= m w)%nat /\
    forall inv, willing W inv -> inv w -> inv w' /\ forall e, res <> Err (DIo e).
  Lemma po_then : forall E (a b : nat -> wstep W E), polite a -> polite b -> polite (fun f => wthen W (a f) (b f)).
  Proof.
    intros E a b [ka A] [kb B]. exists (ka + kb)%nat. intros f c w G F. destruct (A f c w G ltac:(lia)) as (c1 & r1 & w1 & E1 & G1 & M1 & I1). unfold wthen. rewrite E1. destruct r1 as [u|e].
    - destruct (B f c1 w1 G1 ltac:(lia)) as (c2 & r2 & w2 & E2 & G2 & M2 & I2). exists c2, r2, w2. split; [exact E2|]. split; [exact G2|]. split; [lia|]. intros inv Wi I. apply I2; [exact Wi|]. now apply I1.
    - exists c1, (Err e), w1. auto.
  Qed.
  Lemma po_skip : forall E, polite (fun _ => @wskip W E).
  Proof. intro E. exists 0%nat. intros f c w G F. exists c, (Ok tt), w. repeat split; auto; try apply G; discriminate. Qed.
  Lemma po_fail : forall E (e : E), polite (fun _ => wfail W e).
  Proof. intros E e. exists 0%nat. intros f c w G F. exists c, (Err (DSighash e)), w. repeat split; auto; try apply G; discriminate. Qed.
  Lemma put_polite : forall E b f c w, gd c -> (m w + length b < f)%nat -> exists c' res w', @wput W f E b c w = Some (Ret (c', res, w')) /\ gd c' /\ (m w' <= m w)%nat /\
    forall inv, willing W inv -> inv w -> inv w' /\ forall e, res <> Err (DIo e).
  Proof.
    intros E b f c w G F. destruct (write_all_ends W out Law m Sm f w b F) as (res & w' & E1 & M1). unfold wput, io_step. rewrite E1.
    destruct res as [u|k]; eexists _, _, w'; (split; [reflexivity|]); (split; [exact G|]); (split; [exact M1|]); intros inv Wi I; destruct (write_all_willing W out Law inv Wi f w b _ w' I E1) as [Z I']; (split; [exact I'|]); [discriminate|discriminate Z].
  Qed.
  Lemma po_put : forall E b, polite (fun f => @wput W f E b).
  Proof. intros E b. exists (length b). intros. now apply put_polite. Qed.
  Lemma drain_less : forall wfuel fuel e w, sound e -> (steps e <= fuel)%nat -> (m w + length (content e) < wfuel)%nat ->
    exists res w', drain_to_writer W wfuel fuel e w = Some (Ret (res, w')) /\ (m w' <= m w)%nat.
  Proof.
    intros wfuel. induction fuel as [|fuel IH]; intros e w S Hf Hw; [pose proof (steps_pos e S); lia|]. cbn [drain_to_writer].
    destruct (adv_law e S) as (ch & Hc & K). rewrite Hc. destruct (write_all_ends W out Law m Sm wfuel w ch) as (res & w1 & E1 & M1).
    { destruct (content_chunk e ch S Hc) as (t & Et). rewrite Et, app_length in Hw. lia. }
    rewrite E1. destruct res as [u|k]; [|eauto]. destruct (adv e) as [[e' [|]]|]; [|eauto|contradiction].
    destruct K as (Ce & S' & St). destruct (IH e' w1 S') as (res & w2 & E2 & M2); [lia| |]. { rewrite Ce, app_length in Hw. lia. } exists res, w2. split; [exact E2|lia].
  Qed.
  Lemma po_enc : forall E e, sound e -> polite (fun f => @wenc W f E (Ret e)).
  Proof.
    intros E e S. exists (steps e + length (content e))%nat. intros f c w G F. destruct (drain_less f f e w S ltac:(lia) ltac:(lia)) as (res & w' & E1 & M1). unfold wenc, io_step, encode_to_writer. rewrite E1.
    destruct res as [u|k]; eexists _, _, w'; (split; [reflexivity|]); (split; [exact G|]); (split; [exact M1|]); intros inv Wi I; destruct (drain_willing W out Law inv Wi f f e w _ w' I S E1) as [Z I']; (split; [exact I'|]); [discriminate|discriminate Z].
  Qed.
  Lemma po_le : forall E n v, polite (fun f => @wle W f E n v).
  Proof. intros. apply (po_enc E (EBytes (le_bytes n v))). exact I. Qed.
  Lemma po_bytes : forall E b, polite (fun f => @wenc W f E (Ret (EBytes b))).
  Proof. intros. apply (po_enc E (EBytes b)). exact I. Qed.
  Lemma po_script : forall E s, polite (fun f => @wenc W f E (Ret (script_encoder s))).
  Proof. intros. apply po_enc. apply script_encoder_law. Qed.
  Lemma po_outpoint : forall E o, polite (fun f => @wenc W f E (Ret (outpoint_encoder o))).
  Proof. intros. apply po_enc. apply outpoint_encoder_law. Qed.
  Lemma po_common : forall E g, polite (fun f => @wcommon H W f E g).
  Proof.
    intros E g. exists (length (g (compute_common H tx))). intros f c w G F. destruct (gd_common c G) as (c1 & E1 & G1). unfold wcommon. rewrite E1. now apply put_polite.
  Qed.
  Lemma po_segwit : forall E g, polite (fun f => @wsegwit H W f E g).
  Proof.
    intros E g. exists (length (g (segwit_of H (compute_common H tx)))). intros f c w G F. destruct (gd_segwit c G) as (c1 & E1 & G1). unfold wsegwit. rewrite E1. now apply put_polite.
  Qed.
  Lemma po_taproot : forall p g, match p with PAll os => os = ps | POne _ _ => True end -> polite (fun f => wtaproot H W f p g).
  Proof.
    intros [j o|os] g C; unfold wtaproot, get_all; [apply po_fail|]. subst os. exists (length (g (tap_cache_of H ps))). intros f c w G F. destruct (gd_taproot c G) as (c1 & E1 & G1). rewrite E1. now apply put_polite.
  Qed.
  Ltac po1 := lazymatch goal with
    | |- polite (fun f c w => wthen W (@?a f) (@?b f) c w) => apply (po_then _ a b)
    | |- polite (fun f => wthen W (@?a f) (@?b f)) => apply (po_then _ a b) end.
  Ltac po := repeat (cbv beta; first [po1 | apply po_skip | apply po_fail | apply po_put | apply po_le | apply po_bytes | apply po_script | apply po_outpoint | apply po_common | apply po_segwit]).
  Lemma po_ext : forall E (a b : nat -> wstep W E), (forall f c w, gd c -> a f c w = b f c w) -> polite b -> polite a.
  Proof. intros E a b X [k B]. exists k. intros f c w G F. rewrite X by exact G. now apply B. Qed.
  Lemma po_segwit_to : forall i code amount ty, polite (fun f => segwit_to H W f i code amount ty).
  Proof.
    intros i code amount ty. destruct (ecdsa_split ty) as [sh acp] eqn:ES.
    eapply po_ext. { intros f c w G. unfold segwit_to. rewrite (proj2 G), ES. cbv zeta. reflexivity. }
    destruct (tx_in tx i) as [x|e], acp, (ecdsa_single_or_none sh), (if is_single sh && (i <? lenN (tx_outputs tx)) then getN (tx_outputs tx) i else None); cbn [negb andb]; po.
  Qed.
  Lemma po_tap : forall i p annex leaf ty, match p with PAll os => anyone (tap_u8 ty) = true \/ lenN os <> lenN (tx_inputs tx) \/ os = ps | POne _ _ => True end ->
    polite (fun f => tap_to H W f i p annex leaf ty).
  Proof.
    intros i p annex leaf ty C. pose proof (tap_bits ty) as TB. destruct (tap_split ty) as [sh acp] eqn:ES. destruct TB as (B1 & _).
    eapply po_ext. { intros f c w G. unfold tap_to. rewrite (proj2 G), ES. cbv zeta. reflexivity. }
    destruct (check_all p tx) eqn:CK; cbn [negb]; [|po].
    po1; [po|]. po1; [po|]. po1; [po|]. po1; [po|]. po1.
    { destruct acp; cbn [negb]; [po|]. assert (P : match p with PAll os => os = ps | POne _ _ => True end).
      { destruct p as [|os]; [exact I|]. destruct C as [C|[C|C]]; [congruence| |exact C]. cbn [check_all] in CK. apply N.eqb_eq in CK. contradiction. }
      po1; [po|]. po1; [now apply po_taproot|]. po1; [now apply po_taproot|po]. }
    po1; [destruct (tap_single_or_none sh); cbn [negb]; po|]. po1; [po|]. po1; [destruct acp; [|po]; destruct (tap_tx_in tx i); [|po]; destruct (prevouts_get p i); po|].
    po1; [destruct annex; po|]. po1; [destruct sh; try po; destruct (getN (tx_outputs tx) i); po|]. destruct leaf as [[h pos]|]; po.
  Qed.
  Lemma po_inputs : forall i spk keep ins n, polite (fun f => legacy_inputs_to W f n i spk keep ins).
  Proof. intros i spk keep. induction ins as [|x ins IH]; intro n; cbn [legacy_inputs_to]; [po|]. po1; [po|]. po1; [po|]. po1; [po|apply IH]. Qed.
  Lemma po_blanks : forall n, polite (fun f => blanks_to W f n).
  Proof. induction n as [|n IH]; cbn [blanks_to]; [po|]. po1; [po|exact IH]. Qed.
  Lemma po_legacy : forall t i spk ty data, legacy_inner t i spk ty = Ret data -> polite (fun f => legacy_inner_to W f t i spk ty).
  Proof.
    intros t i spk ty data Q. unfold legacy_inner in Q. unfold legacy_inner_to. destruct (ecdsa_split (from_consensus ty)) as [sh acp].
    match type of Q with rbind ?a _ = _ => destruct a as [wi|] eqn:Ei; [|discriminate] end. cbn [rbind] in Q.
    match type of Q with rbind ?a _ = _ => destruct a as [wo|] eqn:Eo; [|discriminate] end. clear Q.
    po1; [po|]. po1.
    { destruct acp; [destruct (index (tx_inputs t) i) as [x|]; [|discriminate]; po|]. po1; [po|apply po_inputs]. }
    po1; [|po]. destruct sh; try discriminate; [|po|].
    - destruct (outs_enc (tx_outputs t)) as (e & E & S & C). rewrite E. now apply po_enc.
    - destruct (1 <=? lenN (tx_outputs t)); [|discriminate]. cbn [rbind] in Eo. cbv zeta in *. destruct (index (tx_outputs t) (N.min i (lenN (tx_outputs t) - 1))) as [o|]; [|discriminate].
      po1; [po|]. po1; [apply po_blanks|]. apply po_enc. apply txout_encoder_law.
  Qed.
End W.
