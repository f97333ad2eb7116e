(** Property C58: encoding into, and decoding from, the io crate's readers and writers.
    Model: MIoDrive.v (drivers), MIo.v (readers and writers), MDec.v and MEnc.v (decoders and encoders).  Specification: SIoDrive.v and
    SIo.v ([reads_from R at_]: the reader's contract, [at_ st d] that [d] is still to be read; [writes_to W out]: the writer's), SDec.v
    ([built]: the decoders of the library), SEnc.v ([content]: the bytes of an encoder). *)
From Verif Require Import Base MDec LDec LCodec LDrive LBuilt SDec MWitness MTx SWire STx LWire LTxId LTxEx LHex MEnc SEnc LEnc PEnc MIo SIo LIo MIoDrive SIoDrive LIoDrive.
Local Open Scope N_scope.

(** ** Reading *)
(** What decode_from_read gives, for every reader that keeps its contract: the value exactly when the bytes the reader holds begin with
    an encoding of it, and then the reader is left right behind it; the error that the decoder gives on those bytes; or a failure that
    the reader itself reported.  Nothing but bytes from the front is ever taken. *)
Theorem C58_read : forall A E b (D : decoder A E), built b D -> forall R at_, reads_from R at_ -> forall fuel st d out, at_ st d ->
  decode_from_read R D fuel st = Some out ->
  match out with
  | Panic => whole D d = RPanic
  | Ret (res, st') => exists taken rest, d = taken ++ rest /\ at_ st' rest /\
      match res with
      | Ok v => whole D d = RDone v rest
      | Err (RdDecode e) => whole D d = RErr e
      | Err (RdIo k) => k <> Interrupted /\ exists before, rfill R before = Ret (Err k, st')
      end
  end.
Proof.
  intros A E b D B R at_ Law fuel st d out K Eo. destruct (built_lawful _ _ _ _ B) as (g & den & L & _). unfold whole. rewrite (LBuilt.whole D g den L).
  pose proof (read_with_spec D g den L R at_ Law fuel (init D) st d out (law_init _ _ _ L) K Eo) as H. destruct out as [[res st']|]; cbn [came_to] in H.
  - destruct H as (t & r & Ed & K' & H). exists t, r. split; [exact Ed|]. split; [exact K'|]. destruct res as [v|[k|e]]; [now rewrite H|exact H|exact H].
  - now rewrite H.
Qed.
(** It ends when only finitely many fillings fail. *)
Theorem C58_read_ends : forall A E b (D : decoder A E), built b D -> forall R at_ m, reads_from R at_ -> settles R at_ m -> forall fuel st d, at_ st d ->
  (m st + length d < fuel)%nat -> decode_from_read R D fuel st <> None.
Proof. intros A E b D B R at_ m Law Sm fuel st d K F. destruct (built_lawful _ _ _ _ B) as (g & den & L & _). exact (read_with_ends D g den L R at_ Law m Sm fuel (init D) st d (law_init _ _ _ L) K F). Qed.
(** When the reader is at worst interrupted, the outcome is that of the decoder on the bytes: no schedule of buffer sizes and
    interruptions makes a difference. *)
Theorem C58_read_iff : forall A E b (D : decoder A E), built b D -> forall R at_ m, reads_from R at_ -> settles R at_ m -> patient_fill R at_ ->
  forall fuel st d, at_ st d -> (m st + length d < fuel)%nat ->
  match whole D d with
  | RDone v rest => exists st', decode_from_read R D fuel st = Some (Ret (Ok v, st')) /\ at_ st' rest
  | RErr e => exists st' taken rest, decode_from_read R D fuel st = Some (Ret (Err (RdDecode e), st')) /\ d = taken ++ rest /\ at_ st' rest
  | RPanic => decode_from_read R D fuel st = Some Panic
  end.
Proof.
  intros A E b D B R at_ m Law Sm P fuel st d K F. assert (NE := C58_read_ends A E b D B R at_ m Law Sm fuel st d K F).
  destruct (decode_from_read R D fuel st) as [out|] eqn:Eo; [|congruence]. assert (H := C58_read A E b D B R at_ Law fuel st d out K Eo).
  destruct (built_lawful _ _ _ _ B) as (g & den & L & _). destruct out as [[[v|[k|e]] st']|].
  - destruct H as (t & r & Ed & K' & ->). eauto.
  - exfalso. exact (read_with_patient D g den L R at_ Law P fuel (init D) st d k st' (law_init _ _ _ L) K Eo).
  - destruct H as (t & r & Ed & K' & ->). eauto 6.
  - now rewrite H.
Qed.
(** The same without a buffered reader, for every size of the intermediate buffer but 0: no byte behind the encoding is asked for. *)
Theorem C58_unbuffered : forall A E b (D : decoder A E), built b D -> forall R at_, reads_from R at_ -> forall size fuel st d out, 0 < size -> at_ st d ->
  decode_from_read_unbuffered_with R D size fuel st = Some out ->
  match out with
  | Panic => whole D d = RPanic
  | Ret (res, st') => exists taken rest, d = taken ++ rest /\ at_ st' rest /\
      match res with
      | Ok v => whole D d = RDone v rest
      | Err (RdDecode e) => whole D d = RErr e
      | Err (RdIo k) => k <> Interrupted /\ exists before n, rread R before n = Ret (Err k, st')
      end
  end.
Proof.
  intros A E b D B R at_ Law size fuel st d out Hs K Eo. destruct (built_lawful _ _ _ _ B) as (g & den & L & _). unfold whole. rewrite (LBuilt.whole D g den L).
  pose proof (unbuffered_spec D g den L R at_ Law size Hs fuel (init D) st d out (law_init _ _ _ L) K Eo) as H. destruct out as [[res st']|]; cbn [came_to] in H.
  - destruct H as (t & r & Ed & K' & H). exists t, r. split; [exact Ed|]. split; [exact K'|]. destruct res as [v|[k|e]]; [now rewrite H|exact H|exact H].
  - now rewrite H.
Qed.
Theorem C58_unbuffered_ends : forall A E b (D : decoder A E), built b D -> forall R at_ m, reads_from R at_ -> settles R at_ m -> forall size fuel st d, at_ st d ->
  (m st + length d < fuel)%nat -> decode_from_read_unbuffered_with R D size fuel st <> None.
Proof. intros A E b D B R at_ m Law Sm size fuel st d K F. destruct (built_lawful _ _ _ _ B) as (g & den & L & _). exact (unbuffered_ends D g den L R at_ Law m Sm size fuel (init D) st d (law_init _ _ _ L) K F). Qed.
Theorem C58_unbuffered_iff : forall A E b (D : decoder A E), built b D -> forall R at_ m, reads_from R at_ -> settles R at_ m -> patient R at_ ->
  forall size fuel st d, 0 < size -> at_ st d -> (m st + length d < fuel)%nat ->
  match whole D d with
  | RDone v rest => exists st', decode_from_read_unbuffered_with R D size fuel st = Some (Ret (Ok v, st')) /\ at_ st' rest
  | RErr e => exists st' taken rest, decode_from_read_unbuffered_with R D size fuel st = Some (Ret (Err (RdDecode e), st')) /\ d = taken ++ rest /\ at_ st' rest
  | RPanic => decode_from_read_unbuffered_with R D size fuel st = Some Panic
  end.
Proof.
  intros A E b D B R at_ m Law Sm P size fuel st d Hs K F. assert (NE := C58_unbuffered_ends A E b D B R at_ m Law Sm size fuel st d K F).
  destruct (decode_from_read_unbuffered_with R D size fuel st) as [out|] eqn:Eo; [|congruence]. assert (H := C58_unbuffered A E b D B R at_ Law size fuel st d out Hs K Eo).
  destruct (built_lawful _ _ _ _ B) as (g & den & L & _). destruct out as [[[v|[k|e]] st']|].
  - destruct H as (t & r & Ed & K' & ->). eauto.
  - exfalso. exact (unbuffered_patient D g den L R at_ Law P size fuel (init D) st d k st' (law_init _ _ _ L) K Eo).
  - destruct H as (t & r & Ed & K' & ->). eauto 6.
  - now rewrite H.
Qed.
(** With a buffer of size 0 nothing can be decoded: the driver takes its own empty read for the end of the input. *)
Theorem C58_zero_buffer : forall A E (D : decoder A E), built true D -> forall R at_, reads_from R at_ -> forall fuel st d v st', at_ st d ->
  decode_from_read_unbuffered_with R D 0 fuel st <> Some (Ret (Ok v, st')).
Proof.
  intros A E D B R at_ (LR & _) fuel st d v st' K Eo. destruct (built_lawful _ _ _ _ B) as (g & den & L & NT). specialize (NT eq_refl).
  assert (NF : fin D (init D) <> Ret (Ok v)).
  { intro Ef. pose proof (law_fin _ _ _ L (init D) (law_init _ _ _ L)) as H. destruct (NT (init D) (law_init _ _ _ L)) as (e & He). rewrite He in H. congruence. }
  assert (Fin : forall r, finish R D (init D) r <> Some (Ret (Ok v, st'))) by (intro r; unfold finish; destruct (fin D (init D)) as [[|]|]; congruence).
  unfold decode_from_read_unbuffered_with in Eo. revert st K Eo. induction fuel as [|fuel IH]; intros st K Eo; [discriminate|]. cbn [unbuffered] in Eo.
  destruct (lim D (init D) =? 0); [exact (Fin st Eo)|]. rewrite N.min_0_r in Eo. destruct (LR st d 0 K) as (x & r1 & Ex & H). rewrite Ex in Eo. destruct x as [bs|k].
  - destruct H as (d' & _ & Hl & _). assert (bs = []) as -> by (apply lenN_nil_inv; lia). exact (Fin r1 Eo).
  - destruct (is_interrupted k); [|discriminate]. exact (IH r1 H Eo).
Qed.

(** In terms of values: from a reader at worst interrupted, [v] comes out exactly when the bytes are [v]'s encoding and something more. *)
Lemma whole_decodes : forall A E b (D : decoder A E) enc ok, built b D -> decodes D enc ok -> forall d v rest, bytes_ok d ->
  (whole D d = RDone v rest <-> d = enc v ++ rest /\ ok v).
Proof.
  intros A E b D enc ok B Dc d v rest O. rewrite <- (decodes_iff D enc ok Dc d v rest O). destruct (built_lawful _ _ _ _ B) as (g & den & L & _).
  pose proof (slice_unbounded_whole D g den L d) as K. unfold whole. destruct (feed_chunks D (init D) [d]) as [v' r'|e|].
  - rewrite K. split; [intros [= -> ->]; reflexivity|intros [= -> ->]; reflexivity].
  - destruct K as (r & ->). split; discriminate.
  - rewrite K. split; discriminate.
Qed.
Theorem C58_read_value : forall A E b (D : decoder A E) enc ok, built b D -> decodes D enc ok -> forall R at_ m, reads_from R at_ -> settles R at_ m -> patient_fill R at_ ->
  forall fuel st d v, bytes_ok d -> at_ st d -> (m st + length d < fuel)%nat ->
  ((exists st', decode_from_read R D fuel st = Some (Ret (Ok v, st'))) <-> exists rest, d = enc v ++ rest /\ ok v) /\
  forall st' rest, decode_from_read R D fuel st = Some (Ret (Ok v, st')) -> d = enc v ++ rest -> at_ st' rest.
Proof.
  intros A E b D enc ok B Dc R at_ m Law Sm P fuel st d v O K F. pose proof (C58_read_iff A E b D B R at_ m Law Sm P fuel st d K F) as H.
  assert (U : forall st' rest, decode_from_read R D fuel st = Some (Ret (Ok v, st')) -> d = enc v ++ rest -> at_ st' rest).
  { intros st' rest E1 Ed. rewrite E1 in H. destruct (whole D d) as [v' r'|e|] eqn:Ew.
    - destruct H as (st1 & E2 & K2). injection E2 as <- <-. apply (whole_decodes A E b D enc ok B Dc d v r' O) in Ew as [Ed' _]. rewrite Ed in Ed'. apply app_inv_head in Ed'. now subst.
    - destruct H as (st1 & t & r & E2 & _). discriminate.
    - discriminate. }
  split; [|exact U]. split.
  - intros (st' & E1). rewrite E1 in H. destruct (whole D d) as [v' r'|e|] eqn:Ew; [|destruct H as (? & ? & ? & E2 & _); discriminate|discriminate].
    destruct H as (st1 & E2 & _). injection E2 as <- <-. exists r'. now apply (whole_decodes A E b D enc ok B Dc d v r' O).
  - intros (rest & Hd). apply (whole_decodes A E b D enc ok B Dc d v rest O) in Hd. rewrite Hd in H. destruct H as (st' & E1 & _). eauto.
Qed.
(** And one after the other: reading values from the same reader gives them all, in order, and leaves it behind the last. *)
Theorem C58_stream : forall A E b (D : decoder A E) enc ok, built b D -> decodes D enc ok -> forall R at_ m, reads_from R at_ -> settles R at_ m -> patient_fill R at_ ->
  forall vs rest, Forall ok vs -> bytes_ok rest -> forall fuel st, at_ st (concat (map enc vs) ++ rest) -> (m st + length (concat (map enc vs) ++ rest) < fuel)%nat ->
  exists st', read_many R D fuel (length vs) st = Some (Ret (Ok vs, st')) /\ at_ st' rest.
Proof.
  intros A E b D enc ok B Dc R at_ m Law Sm P. destruct (built_lawful _ _ _ _ B) as (g & den & L & _). induction vs as [|v vs IH]; intros rest F O fuel st K Hf; [exists st; auto|].
  inv F. cbn [map concat length read_many] in *. rewrite <- app_assoc in K. set (t := concat (map enc vs) ++ rest) in *.
  assert (Ot : bytes_ok t). { unfold t. apply bytes_ok_app. split; [|exact O]. clear -H2 Dc. induction H2; cbn [map concat]; [constructor|]. apply bytes_ok_app. split; [now apply (decodes_bytes D enc ok Dc)|assumption]. }
  pose proof (C58_read_iff A E b D B R at_ m Law Sm P fuel st (enc v ++ t) K) as H. rewrite <- app_assoc in Hf. specialize (H Hf).
  assert (Ow : bytes_ok (enc v ++ t)) by (apply bytes_ok_app; split; [now apply (decodes_bytes D enc ok Dc)|exact Ot]).
  rewrite (proj2 (whole_decodes A E b D enc ok B Dc (enc v ++ t) v t Ow)) in H by auto. destruct H as (st1 & E1 & K1). rewrite E1.
  destruct (IH rest H2 O fuel st1 K1) as (st2 & E2 & K2). { rewrite app_length in Hf. fold t in Hf |- *. assert (M := read_with_less D g den L R at_ Law m Sm fuel (init D) st _ _ st1 (law_init _ _ _ L) K E1). lia. } rewrite E2. eauto.
Qed.

(** ** Writing *)
(** For every writer: all the bytes of the encoder, or a proper prefix of them and an error that is not an interruption. *)
Theorem C58_write : forall W out, writes_to W out -> forall wfuel fuel e w r, sound e -> drain_to_writer W wfuel fuel e w = Some r ->
  exists res w' p q, r = Ret (res, w') /\ content e = p ++ q /\ out w' = out w ++ p /\ match res with Ok _ => q = [] | Err k => q <> [] /\ k <> Interrupted end.
Proof. exact drain_spec. Qed.
Theorem C58_write_ends : forall W out, writes_to W out -> forall m, settles_w W m -> forall wfuel fuel e w, sound e -> (steps e <= fuel)%nat -> (m w + length (content e) < wfuel)%nat ->
  drain_to_writer W wfuel fuel e w <> None.
Proof. exact drain_ends. Qed.
(** A writer that is at worst interrupted and always takes something gets all of it. *)
Theorem C58_write_willing : forall W out, writes_to W out -> forall m inv, settles_w W m -> willing W inv -> forall wfuel fuel e w, inv w -> sound e ->
  (steps e <= fuel)%nat -> (m w + length (content e) < wfuel)%nat ->
  exists w', drain_to_writer W wfuel fuel e w = Some (Ret (Ok tt, w')) /\ out w' = out w ++ content e.
Proof.
  intros W out Law m inv Sm Wi wfuel fuel e w I S Hf Hw. assert (NE := C58_write_ends W out Law m Sm wfuel fuel e w S Hf Hw). destruct (drain_to_writer W wfuel fuel e w) as [r|] eqn:Eo; [|congruence].
  destruct (C58_write W out Law wfuel fuel e w r S Eo) as (res & w' & p & q & -> & Ec & O & H). destruct (drain_willing W out Law inv Wi wfuel fuel e w res w' I S Eo) as [-> _]. rewrite app_nil_end in Ec. subst q. exists w'. split; [reflexivity|]. rewrite !app_nil_r in Ec. now rewrite Ec.
Qed.
(** The readers and writers of the crate, and the worlds that are only interrupted, meet these conditions. *)
Theorem C58_conditions : patient_fill slice_reader (fun s d => d = s) /\ patient_fill cursor_reader cursor_at /\ patient_fill world_reader quiet_at /\
  (settles_w vec_writer (fun _ => 0%nat) /\ willing vec_writer (fun _ => True)) /\
  (settles_w world_writer (fun s => length (snd s)) /\ willing world_writer willing_world).
Proof. exact (conj slice_fill_patient (conj cursor_fill_patient (conj quiet_fill (conj vec_willing (conj world_settles_w world_willing))))). Qed.

(** ** From a transaction to a transaction *)
(** A valid transaction written to any willing writer, whose output is then read back, with anything after it, through any reader that
    is at worst interrupted, buffered or not: the same transaction, and the reader at what came after. *)
Lemma tx_decodes : decodes tx_dec tx_encode tx_ok.
Proof.
  constructor.
  - intros v [H _]. now apply LHex.tx_encode_ok.
  - intros l v r O. exact (codec_prefix tx_codec_ok l v r O).
  - intros l O Hl. apply (codec_no_panic tx_codec_ok l O Hl).
Qed.
Theorem C58_transaction : forall tx, tx_ok tx ->
  (forall W out m inv, writes_to W out -> settles_w W m -> willing W inv -> forall w, inv w ->
     exists n, forall fuel, (n <= fuel)%nat -> exists w', encode_to_writer W fuel fuel (tx_encoder tx) w = Some (Ret (Ok tt, w')) /\ out w' = out w ++ tx_encode tx) /\
  forall rest, bytes_ok rest -> forall R at_ m, reads_from R at_ -> settles R at_ m -> forall st, at_ st (tx_encode tx ++ rest) ->
    exists n, forall fuel, (n <= fuel)%nat ->
      (patient_fill R at_ -> exists st', decode_from_read R tx_dec fuel st = Some (Ret (Ok tx, st')) /\ at_ st' rest) /\
      (patient R at_ -> exists st', decode_from_read_unbuffered R tx_dec fuel st = Some (Ret (Ok tx, st')) /\ at_ st' rest).
Proof.
  intros tx T. split.
  - intros W out m inv Law Sm Wi w I. destruct (PEnc.C04_transaction tx (proj1 T)) as (e & Ee & S & Ce & _). exists (steps e + m w + length (content e) + 1)%nat. intros fuel F. unfold encode_to_writer. rewrite Ee.
    destruct (C58_write_willing W out Law m inv Sm Wi fuel fuel e w I S) as (w' & E1 & O1); [lia|lia|]. exists w'. rewrite <- Ce. auto.
  - intros rest O R at_ m Law Sm st K. exists (m st + length (tx_encode tx ++ rest) + 1)%nat. intros fuel F.
    assert (Ot : bytes_ok (tx_encode tx ++ rest)) by (apply bytes_ok_app; split; [apply LHex.tx_encode_ok, T|exact O]).
    assert (Ew := proj2 (whole_decodes _ _ _ tx_dec tx_encode tx_ok B_tx tx_decodes (tx_encode tx ++ rest) tx rest Ot) (conj eq_refl T)). split; intro P.
    + pose proof (C58_read_iff _ _ _ tx_dec B_tx R at_ m Law Sm P fuel st _ K) as H. rewrite Ew in H. apply H. lia.
    + pose proof (C58_unbuffered_iff _ _ _ tx_dec B_tx R at_ m Law Sm P 4096 fuel st _ eq_refl K) as H. rewrite Ew in H. apply H. lia.
Qed.

(** ** Examples *)
(** The hypotheses are met by a world that gives and takes the bytes in uneven pieces with interruptions; a failing world gives its
    error. *)
Example C58_ex_write : let ev := [Give 3; Fail Interrupted; Give 1; Give 50; Fail Interrupted; Fail Interrupted; Give 2] in
  willing_world ([7], ev) /\ exists ev', encode_to_writer world_writer 300 100 (tx_encoder ex_tx) ([7], ev) = Some (Ret (Ok tt, (7 :: tx_encode ex_tx, ev'))).
Proof. split; [repeat constructor|]. exists []. vm_compute. reflexivity. Qed.
Example C58_ex_read : let w := mk_world [] (tx_encode ex_tx ++ [1; 2; 3]) [Give 3; Fail Interrupted; Give 1; Give 50; Fail Interrupted; Give 200] in
  quiet_at w (tx_encode ex_tx ++ [1; 2; 3]) /\
  decode_from_read world_reader tx_dec 300 w = Some (Ret (Ok ex_tx, mk_world [1; 2; 3] [] [])) /\
  decode_from_read_unbuffered world_reader tx_dec 300 w = Some (Ret (Ok ex_tx, mk_world [] [1; 2; 3] [])).
Proof. split; [split; [reflexivity|repeat constructor]|]. split; vm_compute; reflexivity. Qed.
Example C58_ex_fail : decode_from_read world_reader tx_dec 300 (mk_world [] (tx_encode ex_tx) [Give 3; Fail (OtherKind 5)]) = Some (Ret (Err (RdIo (OtherKind 5)), mk_world [] (dropN 3 (tx_encode ex_tx)) [])) /\
  encode_to_writer world_writer 300 100 (tx_encoder ex_tx) ([], [Give 3; Fail (OtherKind 5)]) = Some (Ret (Err (OtherKind 5), (takeN 3 (tx_encode ex_tx), []))).
Proof. split; vm_compute; reflexivity. Qed.
Example C58_ex_stream : exists st', read_many slice_reader tx_dec 600 3 (concat (map tx_encode [ex_tx; ex_plain; ex_tx]) ++ [9]) = Some (Ret (Ok [ex_tx; ex_plain; ex_tx], st')) /\ st' = [9].
Proof. exists [9]. split; [vm_compute|]; reflexivity. Qed.

Print Assumptions C58_read.
Print Assumptions C58_read_ends.
Print Assumptions C58_read_iff.
Print Assumptions C58_unbuffered.
Print Assumptions C58_unbuffered_ends.
Print Assumptions C58_unbuffered_iff.
Print Assumptions C58_zero_buffer.
Print Assumptions C58_read_value.
Print Assumptions C58_stream.
Print Assumptions C58_write.
Print Assumptions C58_write_ends.
Print Assumptions C58_write_willing.
Print Assumptions C58_conditions.
Print Assumptions C58_transaction.
