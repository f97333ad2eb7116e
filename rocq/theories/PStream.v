(** Property C78: the chunks of an encoder handed straight to a decoder (the project's check_roundtrip).
    Model: MStream.v over MEnc.v, MDec.v and the decoders of each type.
    [emits x cs]: from the state [x] the encoder presents the chunks [cs], one per call of advance, and then ends. *)
From Coq Require Import Lia.
From Verif Require Import Base MDec LDec LDrive MEnc SEnc LEnc MWitness SWitness MAmount MTx SWire LCodec LTx2 LBuilt SDec LWire MStream MP2p SP2p MP2pMsg LP2p LP2p2 LP2p3 LP2p4 LP2p5 LP2p7 LP2p8
  MBip152 LBip152 MPmt LPmt3 PP2p PHex PEnc.
Local Open Scope N_scope.

Section Emits.
Context {X : Type} (current_chunk : X -> rust bytes) (advance : X -> rust (X * bool)).
Inductive emits : X -> list bytes -> Prop :=
| emits_last : forall x c x', current_chunk x = Ret c -> advance x = Ret (x', false) -> emits x [c]
| emits_more : forall x c x' cs, current_chunk x = Ret c -> advance x = Ret (x', true) -> emits x' cs -> emits x (c :: cs).
End Emits.

(** ** The loop *)
Section Loop.
Context {X A E : Type} (current_chunk : X -> rust bytes) (advance : X -> rust (X * bool)) (D : decoder A E).
Notation emits := (emits current_chunk advance).
Notation stream_loop := (stream_loop current_chunk advance D).

Lemma feed_dry : forall fuel s c s' r, feed D fuel s c = (s', r, NeedsMore) -> r = [].
Proof.
  induction fuel as [|fuel IH]; intros s [|b c] s' r H; cbn [feed] in H; try (injection H as <- <-; reflexivity); [discriminate|].
  destruct (push D s (b :: c)) as [[s1 r1] []]; try discriminate. eapply IH; eauto.
Qed.
Lemma emits_len : forall x cs, emits x cs -> (1 <= length cs)%nat.
Proof. intros x cs H. destruct H; cbn [length]; lia. Qed.

(** Nothing but empty chunks to come: the decoder is left as it is. *)
Lemma stream_dry : forall x cs, emits x cs -> concat cs = [] -> forall fuel s, (length cs <= fuel)%nat ->
  stream_loop fuel x s = Some (end_unwrap D s).
Proof.
  intros x cs H. induction H as [x c x' C Ad|x c x' cs C Ad H IH]; intros Z fuel s L.
  - cbn [concat] in Z. rewrite app_nil_r in Z. subst c. destruct fuel as [|fuel]; [cbn [length] in L; lia|].
    cbn [MStream.stream_loop]. rewrite C. cbn [length feed]. now rewrite Ad.
  - cbn [concat] in Z. apply app_eq_nil in Z as [-> Z]. destruct fuel as [|fuel]; [cbn [length] in L; lia|].
    cbn [MStream.stream_loop]. rewrite C. cbn [length feed]. rewrite Ad. apply IH; [exact Z|cbn [length] in L; lia].
Qed.

Lemma stream_done : forall x cs, emits x cs -> forall fuel s v, (length cs <= fuel)%nat ->
  feed_chunks D s cs = RDone v [] -> stream_loop fuel x s = Some (Ret v).
Proof.
  intros x cs H. induction H as [x c x' C Ad|x c x' cs C Ad H IH]; intros fuel s v L Fd;
    (destruct fuel as [|fuel]; [cbn [length] in L; lia|]); cbn [MStream.stream_loop feed_chunks] in *; rewrite C.
  - pose proof (feed_dry (length c) s c) as Dy. destruct (feed D (length c) s c) as [[s' r] []] eqn:F.
    + rewrite (Dy s' r eq_refl), Ad. unfold end_unwrap. destruct (fin D s') as [[w|]|]; congruence.
    + destruct r as [|b r]; [|destruct (fin D s') as [[w|]|]; discriminate]. rewrite Ad. unfold end_unwrap.
      destruct (fin D s') as [[w|]|]; congruence.
    + discriminate.
    + discriminate.
  - pose proof (feed_dry (length c) s c) as Dy. destruct (feed D (length c) s c) as [[s' r] []] eqn:F.
    + rewrite (Dy s' r eq_refl), Ad. apply IH; [cbn [length] in L; lia|exact Fd].
    + destruct (fin D s') as [[w|]|] eqn:Fi; try discriminate. injection Fd as -> Z. apply app_eq_nil in Z as [-> Z].
      rewrite Ad, (stream_dry x' cs H Z fuel s') by (cbn [length] in L; lia). unfold end_unwrap. now rewrite Fi.
    + discriminate.
    + discriminate.
Qed.
End Loop.

Lemma slice_chunks : forall A E (D : decoder A E) g den, lawful D g den -> forall l v, decode_from_slice D l = Ret (Ok v) ->
  forall cs, concat cs = l -> feed_chunks D (init D) cs = RDone v [].
Proof.
  intros A E D g den La l v Dc cs Ec. rewrite (slice_whole D g den La l) in Dc.
  assert (H : feed_chunks D (init D) [l] = RDone v []).
  { destruct (feed_chunks D (init D) [l]) as [w [|y r]|e|]; [injection Dc as ->; reflexivity|discriminate|discriminate|discriminate]. }
  subst l. rewrite (chunks_whole D g den La cs). exact H.
Qed.

(** For every decoder the library offers: if the decoder accepts the concatenation of the chunks, handing them over one
    by one gives the same value, in as many rounds as there are chunks, with no unwrap that panics. *)
Theorem C78_stream : forall X A E b (current_chunk : X -> rust bytes) advance (D : decoder A E), built b D ->
  forall x cs v, emits current_chunk advance x cs -> decode_from_slice D (concat cs) = Ret (Ok v) ->
  forall fuel, (length cs <= fuel)%nat -> stream_encode_decode current_chunk advance D fuel x = Some (Ret v).
Proof.
  intros X A E b ch ad D HB x cs v Em Dc fuel L. destruct (built_lawful _ _ _ _ HB) as (g & den & La & _).
  apply (stream_done ch ad D x cs Em fuel (init D) v L). exact (slice_chunks A E D g den La _ v Dc cs eq_refl).
Qed.
Print Assumptions C78_stream.

(** The encoders of the library present their content. *)
Theorem C78_encoders : forall e, sound e -> exists cs, emits chunk adv e cs /\ concat cs = content e /\ (length cs <= steps e)%nat.
Proof.
  intro e. remember (steps e) as n eqn:En. assert (Le : (steps e <= n)%nat) by lia. clear En. revert e Le.
  induction n as [|n IH]; intros e Le S; [pose proof (steps_pos e S); lia|].
  destruct (adv_law e S) as (ch & Hc & H). destruct (adv e) as [[e' [|]]|] eqn:Ad; [| |contradiction].
  - destruct H as (H1 & H2 & H3). destruct (IH e' ltac:(lia) H2) as (cs & Em & Ec & El). exists (ch :: cs).
    split; [eapply emits_more; eauto|]. cbn [concat length]. rewrite Ec, H1. split; [reflexivity|lia].
  - destruct H as (H1 & _). exists [ch]. split; [eapply emits_last; eauto|]. cbn [concat length]. rewrite app_nil_r. split; [now symmetry|lia].
Qed.
Print Assumptions C78_encoders.

(** ** The targets: whatever bytes decode, the value handed to its encoder and back is the value *)
Definition restreams {A E} (D : decoder A E) (encode : A -> bytes) : Prop :=
  forall l v, bytes_ok l -> decode_from_slice D l = Ret (Ok v) ->
  forall X (current_chunk : X -> rust bytes) advance x cs, emits current_chunk advance x cs -> concat cs = encode v ->
  forall fuel, (length cs <= fuel)%nat -> stream_encode_decode current_chunk advance D fuel x = Some (Ret v).

Lemma codec_restreams : forall A E (D : decoder A E) enc wf, codec D enc wf -> restreams D enc.
Proof.
  intros A E D enc wf C l v B Dc X ch ad x cs Em Ec fuel L. assert (C' := C). destruct C' as (g & den & La & _).
  destruct (proj1 (codec_slice C l v B) Dc) as [El _].
  apply (stream_done ch ad D x cs Em fuel (init D) v L). exact (slice_chunks A E D g den La l v Dc cs (eq_trans Ec (eq_sym El))).
Qed.

Lemma max_vec_u64 : MAX_VEC_SIZE < LCompact.U64.
Proof. reflexivity. Qed.
Lemma vec_restreams : forall A E (D : decoder A E) enc wf, codec D enc wf -> restreams (vec_dec D MAX_VEC_SIZE) (slice_encode enc).
Proof. intros A E D enc wf C. eapply codec_restreams, vec_codec; [exact max_vec_u64|exact C]. Qed.

(** Transactions, blocks and their parts; numbers and hashes of fixed size; scripts; witnesses. *)
Theorem C78_consensus :
  restreams tx_dec tx_encode /\ restreams block_dec block_encode /\ restreams header_dec header_encode /\
  restreams txin_dec txin_encode /\ restreams txout_dec txout_encode /\ restreams outpoint_dec outpoint_encode /\
  restreams witness_dec wit_encode /\ restreams script_dec script_encode /\ restreams amount_dec (le_bytes 8) /\
  restreams u32_dec (le_bytes 4) /\ restreams hash_dec (fun b => b).
Proof.
  repeat split; eapply codec_restreams; first [apply tx_codec|apply LTx2.block_codec|apply header_codec|apply txin_codec|apply txout_codec
    |apply outpoint_codec|apply witness_codec|apply script_codec|apply amount_codec|apply u32_codec|apply hash_codec].
Qed.
Print Assumptions C78_consensus.

(** Network messages. *)
Theorem C78_p2p :
  (restreams address_dec address_encode /\ restreams addr_v1_dec addr_v1_encode /\ restreams addr_v2_dec addr_v2_encode /\
   restreams addr_v2_msg_dec addr_v2_msg_encode /\ restreams (vec_dec addr_v1_dec MAX_VEC_SIZE) (slice_encode addr_v1_encode) /\
   restreams (vec_dec addr_v2_msg_dec MAX_VEC_SIZE) (slice_encode addr_v2_msg_encode) /\
   restreams (vec_dec inventory_dec MAX_VEC_SIZE) (slice_encode inventory_encode) /\
   restreams (vec_dec net_header_dec MAX_VEC_SIZE) (slice_encode net_header_encode)) /\
  (restreams prefilled_dec prefilled_encode /\ restreams short_id_dec (fun b => b) /\ restreams cb_dec cb_encode /\
   restreams request_dec request_encode /\ restreams block_txs_dec block_txs_encode) /\
  (restreams feature_dec feature_encode /\ restreams feature_id_dec (fun s => prefixed (as_bytes s)) /\
   restreams services_dec (le_bytes 8) /\ restreams nonce_dec (le_bytes 8) /\ restreams pmt_dec pmt_encode /\ restreams mb_dec mb_encode) /\
  (restreams inventory_dec inventory_encode /\ restreams get_blocks_dec get_blocks_encode /\ restreams bloom_dec (fun f => [bloom_byte f]) /\
   restreams filter_load_dec filter_load_encode /\ restreams blob_dec prefixed /\ restreams command_dec (fun c => c) /\
   restreams send_cmpct_dec send_cmpct_encode /\ restreams rcncl_dec rcncl_encode /\ restreams fee_filter_dec fee_filter_encode) /\
  (restreams cfilter_dec cfilter_encode /\ restreams cfheaders_dec cfheaders_encode /\ restreams cfcheckpt_dec cfcheckpt_encode /\
   restreams get_cf_dec get_cf_encode /\ restreams get_cfcheckpt_dec get_cfcheckpt_encode /\ restreams net_header_dec net_header_encode) /\
  (restreams reject_dec reject_encode /\ restreams reason_dec (fun r => [reject_code r]) /\
   restreams utf8_dec (fun s => prefixed (as_bytes s)) /\ restreams v1_header_dec v1_header_encode).
Proof.
  repeat split; first [eapply vec_restreams|eapply codec_restreams];
    first [apply address_codec|apply addr_v1_codec|apply addr_v2_codec|apply addr_v2_msg_codec|apply inventory_codec|apply net_header_codec
    |apply prefilled_codec|apply short_codec|apply cb_codec|apply request_codec|apply block_txs_codec|apply feature_codec|apply feature_id_codec
    |apply services_codec|apply nonce_codec|apply pmt_codec|apply mb_codec|apply get_blocks_codec|apply bloom_codec|apply filter_load_codec
    |apply blob_codec|apply command_codec|apply send_cmpct_codec|apply rcncl_codec|apply fee_filter_codec|apply cfilter_codec|apply cfheaders_codec
    |apply cfcheckpt_codec|apply get_cf_codec|apply get_cfcheckpt_codec|apply reject_codec|apply reason_codec|apply utf8_codec|apply v1_header_codec].
Qed.
Print Assumptions C78_p2p.

(** The version message: other bytes than those received may be written, and they are read as the same message. *)
Theorem C78_version : restreams version_dec version_encode.
Proof.
  intros l v B Dc X ch ad x cs Em Ec fuel L. destruct version_rcodec as [gd R]. destruct R as (La & RT & CN & _).
  apply (stream_done ch ad version_dec x cs Em fuel (init version_dec) v L).
  assert (Rd : reads_version v l).
  { pose proof (slice_chunks _ _ _ _ _ La l v Dc [l] (app_nil_r l)) as W. rewrite (whole _ _ _ La) in W. apply run_done in W.
    destruct (CN _ _ _ B W) as (p & Ep & K). rewrite app_nil_r in Ep. now subst p. }
  destruct (reads_len (MVersion v) l Rd) as [_ R']. cbn [payload_encode reads] in R'.
  rewrite (chunks_whole _ _ _ La cs), (whole _ _ _ La). apply run_done. rewrite Ec.
  pose proof (RT v (version_encode v) [] R') as Z. now rewrite app_nil_r in Z.
Qed.
Print Assumptions C78_version.

Lemma payload_bytes : forall m p, reads m p -> bytes_ok p -> bytes_ok (payload_encode m).
Proof.
  intros m p R B. pose proof (reads_encode m p R) as E. destruct m; try (rewrite E; exact B). cbn [payload_encode]. clear E. cbn [reads] in R.
  destruct R as (W1 & W2 & W3 & W4 & W5 & W6 & W7 & bu & x & U & UL & X1 & X2 & ->).
  assert (E : version_encode v = le_bytes 4 (v_version v) ++ le_bytes 8 (v_services v) ++ twos 8 (v_timestamp v) ++ wire_address (v_receiver v) ++
      wire_address (v_sender v) ++ le_bytes 8 (v_nonce v) ++ wire_bytes bu ++ twos 4 (v_start_height v) ++ [bool_byte (v_relay v)]).
  { unfold version_encode. rewrite !wire_address_eq, prefixed_wire, <- (utf8_bytes _ _ U). reflexivity. }
  rewrite E. rewrite !bytes_ok_app in B |- *. repeat (split; [apply B|]). destruct (v_relay v); repeat constructor.
Qed.
(** A whole message as sent over the network, received and written again. *)
Theorem C78_message : forall sha256d, (forall m, hash_ok (sha256d m)) -> restreams (v1_dec sha256d) v1_encode.
Proof.
  intros sha256d HS l v B Dc X ch ad x cs Em Ec fuel L.
  apply (stream_done ch ad (v1_dec sha256d) x cs Em fuel (init (v1_dec sha256d)) v L).
  assert (S : decode_from_slice_unbounded (v1_dec sha256d) l = Ret (Ok v, [])).
  { unfold decode_from_slice in Dc. destruct (decode_from_slice_unbounded (v1_dec sha256d) l) as [[[w|] [|]]|]; try discriminate. now injection Dc as ->. }
  apply (C33_v1_slice sha256d HS l v [] B) in S. destruct S as (magic & c & p & m & (El & M & Lp & Nm & R) & (E1 & E2 & E3 & E4 & E5)).
  destruct (reads_len m p R) as [Ln R'].
  assert (EQ : concat cs = frame sha256d magic c (payload_encode m) ++ []).
  { rewrite Ec, app_nil_r. unfold v1_encode, v1_header_encode, frame. rewrite E1, E2, E3, E4, E5, Ln. now rewrite <- !app_assoc. }
  assert (MB : bytes_ok magic /\ bytes_ok (payload_encode m)).
  { rewrite app_nil_r in El. rewrite El in B. unfold frame in B. rewrite !bytes_ok_app in B. split; [apply B|]. apply (payload_bytes m p R). apply B. }
  apply C33_v1_decodes; [exact HS| |].
  - rewrite EQ. unfold frame. rewrite !bytes_ok_app. destruct (named_field m c Nm) as [s F]. destruct (field_ok s c F) as [_ FB]. destruct (hash4 _ (HS (payload_encode m))) as [_ HB].
    destruct MB. repeat (split; try assumption). apply le_bytes_ok. constructor.
  - exists magic, c, (payload_encode m), m. split; [|unfold reported; rewrite E4, Ln; repeat split; assumption]. unfold framed. rewrite Ln. repeat split; try assumption.
Qed.
Print Assumptions C78_message.

(** Transactions and blocks through the encoders they really have, in as many rounds as these take; network addresses
    through theirs, in three. *)
Theorem C78_transaction : forall l tx, bytes_ok l -> decode_from_slice tx_dec l = Ret (Ok tx) ->
  exists e, tx_encoder tx = Ret e /\ stream_encode_decode chunk adv tx_dec (steps e) e = Some (Ret tx).
Proof.
  intros l tx B Dc. destruct (proj1 (codec_slice tx_codec_ok l tx B) Dc) as [El W].
  destruct (C04_transaction tx (proj1 W)) as (e & Ee & So & Ce & _). exists e. split; [exact Ee|].
  destruct (C78_encoders e So) as (cs & Em & Ec & Le). destruct C78_consensus as (K & _).
  exact (K l tx B Dc _ _ _ e cs Em (eq_trans Ec Ce) (steps e) Le).
Qed.
Print Assumptions C78_transaction.
Theorem C78_block : forall l b, bytes_ok l -> decode_from_slice block_dec l = Ret (Ok b) ->
  exists e, block_encoder b = Ret e /\ stream_encode_decode chunk adv block_dec (steps e) e = Some (Ret b).
Proof.
  intros l b B Dc. destruct (proj1 (codec_slice block_codec' l b B) Dc) as [El W].
  destruct (C04_block b) as (e & Ee & So & Ce & _).
  { destruct W as (_ & _ & W). eapply Forall_impl; [|exact W]. intros tx K. exact (proj1 K). }
  exists e. split; [exact Ee|].
  destruct (C78_encoders e So) as (cs & Em & Ec & Le). destruct C78_consensus as (_ & K & _).
  exact (K l b B Dc _ _ _ e cs Em (eq_trans Ec Ce) (steps e) Le).
Qed.
Print Assumptions C78_block.
Theorem C78_addr_v2 : forall l a, bytes_ok l -> decode_from_slice addr_v2_dec l = Ret (Ok a) ->
  stream_encode_decode (fun e => Ret (av2_chunk e)) (fun e => Ret (av2_adv e)) addr_v2_dec 3 (av2_new a) = Some (Ret a).
Proof.
  intros l a B Dc. destruct C78_p2p as ((_ & _ & K & _) & _).
  assert (H : exists c1 c2 c3, emits (fun e => Ret (av2_chunk e)) (fun e => Ret (av2_adv e)) (av2_new a) [c1; c2; c3] /\ c1 ++ c2 ++ c3 = addr_v2_encode a).
  { destruct a; eexists _, _, _; (split; [eapply emits_more; [reflexivity|reflexivity|]; eapply emits_more; [reflexivity|reflexivity|]; eapply emits_last; reflexivity|reflexivity]). }
  destruct H as (c1 & c2 & c3 & Em & Ec). apply (K l a B Dc _ _ _ _ _ Em); [|reflexivity]. cbn [concat]. rewrite app_nil_r. exact Ec.
Qed.
Print Assumptions C78_addr_v2.

(** A transaction of two inputs, one with a witness, decodes, and goes through its encoder and back, in more than five rounds. *)
Example C78_ex : decode_from_slice tx_dec (tx_encode LTxEx.ex_tx) = Ret (Ok LTxEx.ex_tx) /\
  decode_from_slice addr_v2_dec [1; 4; 127; 0; 0; 1] = Ret (Ok (Ipv4 [127; 0; 0; 1])) /\
  match tx_encoder LTxEx.ex_tx with
  | Ret e => stream_encode_decode chunk adv tx_dec 40 e = Some (Ret LTxEx.ex_tx) /\ stream_encode_decode chunk adv tx_dec 5 e = None
  | Panic => False
  end.
Proof. vm_compute. auto. Qed.
