(** C33: peer-to-peer messages. *)
From Coq Require Import String.
From Verif Require Import Base MDec LDec LDec2 LDrive LBuilt LCompact LCodec MWitness MTx MAmount SAmount LFee MText MPmt MBip152 LTx2 LWire SSha2 MP2p MP2pMsg SWire SPmt SBip152 SP2p LP2p LP2p2 LP2p3 LP2p4 LP2p5 LP2p7 LP2p8 LP2p10.
From Verif Require LBip32b LHash2 LHmac.
Local Open Scope N_scope.

(** * The V1 transport *)
(** A decoder fed a message in any pieces succeeds exactly on a frame whose length field, checksum, name and payload are
    right, and leaves what follows.  The header it reports is the frame's, with the checksum of the payload as it would
    be written again. *)
Definition reported (sha256d : bytes -> bytes) (x : v1_message) (magic c p : bytes) (m : message) : Prop :=
  v1_payload x = m /\ mh_magic (v1_head x) = magic /\ mh_command (v1_head x) = c /\ mh_length (v1_head x) = lenN p /\
  mh_checksum (v1_head x) = firstn 4 (sha256d (payload_encode m)).
Lemma accepts_framed : forall sha256d l x r, v1_accepts sha256d l x r <-> exists magic c p m, framed sha256d l magic c p m r /\ reported sha256d x magic c p m.
Proof.
  intros sha256d l x r. unfold v1_accepts, framed, reported. split; intros (magic & c & p & m & H); exists magic, c, p, m.
  - destruct H as (-> & H1 & H2 & H3 & H4 & ->). repeat split; auto.
  - destruct H as ((-> & H1 & H2 & H3 & H4) & E1 & E2 & E3 & E4 & E5). repeat (split; [assumption || reflexivity|]). destruct x as [[a b d e] f]. cbn [v1_payload v1_head mh_magic mh_command mh_length mh_checksum] in *. subst. reflexivity.
Qed.
Theorem C33_v1_decodes : forall sha256d, (forall m, hash_ok (sha256d m)) -> forall cs x r, bytes_ok (concat cs) ->
  (feed_chunks (v1_dec sha256d) (init (v1_dec sha256d)) cs = RDone x r <->
   exists magic c p m, framed sha256d (concat cs) magic c p m r /\ reported sha256d x magic c p m).
Proof. intros. rewrite <- accepts_framed. now apply v1_chunks. Qed.
Theorem C33_v1_slice : forall sha256d, (forall m, hash_ok (sha256d m)) -> forall l x r, bytes_ok l ->
  (decode_from_slice_unbounded (v1_dec sha256d) l = Ret (Ok x, r) <->
   exists magic c p m, framed sha256d l magic c p m r /\ reported sha256d x magic c p m).
Proof. intros. rewrite <- accepts_framed. now apply v1_slice. Qed.
(** From a buffered reader, whatever sizes it serves and however often it is interrupted; only the message is taken. *)
Theorem C33_v1_read : forall sha256d, (forall m, hash_ok (sha256d m)) -> forall es x r, Forall data_ok es -> bytes_ok (events_bytes es) ->
  ((exists b es', decode_from_read (v1_dec sha256d) es = Ret (Ok x, b, es') /\ b ++ events_bytes es' = r) <->
   exists magic c p m, framed sha256d (events_bytes es) magic c p m r /\ reported sha256d x magic c p m).
Proof. intros. rewrite <- accepts_framed. now apply v1_read. Qed.
(** From an unbuffered one, with any buffer size: not a byte after the message is taken. *)
Theorem C33_v1_unbuffered : forall sha256d, (forall m, hash_ok (sha256d m)) -> forall bs src want x r, 0 < bs -> bytes_ok src ->
  (decode_from_read_unbuffered (v1_dec sha256d) bs src want = Ret (Ok x, r) <->
   exists magic c p m, framed sha256d src magic c p m r /\ reported sha256d x magic c p m).
Proof. intros. rewrite <- accepts_framed. now apply v1_unbuffered. Qed.
Theorem C33_v1_no_panic : forall sha256d cs, bytes_ok (concat cs) -> lenN (concat cs) < 2 ^ 32 ->
  feed_chunks (v1_dec sha256d) (init (v1_dec sha256d)) cs <> RPanic /\ decode_from_slice_unbounded (v1_dec sha256d) (concat cs) <> Panic.
Proof. intros sha256d cs B L. split; [now apply v1_no_panic|now apply v1_slice_no_panic]. Qed.

(** Building and writing a message that some payload carries: the frame of that name and of a payload with the same
    meaning.  It is the only payload with that meaning, but for the version message (see C33_relay_refuted). *)
Theorem C33_v1_encode : forall sha256d magic m c p, named m c -> reads m p -> lenN p <= 5000000 ->
  exists x, v1_new sha256d magic m = Ret x /\ v1_encode x = frame sha256d magic c (payload_encode m) /\
  reads m (payload_encode m) /\ lenN (payload_encode m) = lenN p /\ ((forall v, m <> MVersion v) -> payload_encode m = p).
Proof.
  intros sha256d magic m c p Nm R L. destruct (reads_len m p R) as [E R']. eexists. split; [apply (v1_new_named sha256d magic m c Nm); rewrite E; lia|].
  split; [|split; [exact R'|split; [exact E|]]].
  - unfold v1_encode, v1_header_encode, frame. cbn [v1_head v1_payload mh_magic mh_command mh_length mh_checksum]. now rewrite <- !app_assoc.
  - intros NV. pose proof (reads_encode m p R) as X. destruct m; try exact X. now destruct (NV v).
Qed.
(** Sent and received: the same message comes out, and what follows it is left. *)
Theorem C33_v1_round_trip : forall sha256d, (forall m, hash_ok (sha256d m)) -> forall magic m c p, fixed 4 magic ->
  named m c -> reads m p -> bytes_ok (payload_encode m) -> lenN p <= 5000000 ->
  exists x, v1_new sha256d magic m = Ret x /\ v1_payload x = m /\
  forall cs r, bytes_ok r -> concat cs = v1_encode x ++ r -> feed_chunks (v1_dec sha256d) (init (v1_dec sha256d)) cs = RDone x r.
Proof.
  intros sha256d HS magic m c p [M MB] Nm R PB L. destruct (reads_len m p R) as [E R'].
  eexists. split; [apply (v1_new_named sha256d magic m c Nm); rewrite E; lia|]. split; [reflexivity|]. intros cs r RB EC.
  assert (EQ : concat cs = frame sha256d magic c (payload_encode m) ++ r).
  { rewrite EC. unfold v1_encode, v1_header_encode, frame. cbn [v1_head v1_payload mh_magic mh_command mh_length mh_checksum]. now rewrite <- !app_assoc. }
  apply C33_v1_decodes; [exact HS| |].
  - rewrite EQ. unfold frame. rewrite !bytes_ok_app. destruct (named_field m c Nm) as [s F]. destruct (field_ok s c F) as [_ FB]. destruct (hash4 _ (HS (payload_encode m))) as [_ HB].
    repeat (split; try assumption). apply le_bytes_ok.
  - exists magic, c, (payload_encode m), m. split; [|repeat split; reflexivity]. unfold framed. rewrite E. repeat split; try assumption.
Qed.
(** Every message that is not of an unknown kind has a name, so [command] and the constructor never panic on it. *)
Theorem C33_command_total : forall m, exists c, command m = Ret c /\ ((forall c' p, m <> MUnknown c' p) -> named m c).
Proof.
  intros m. assert (D : (exists c p, m = MUnknown c p) \/ forall c p, m <> MUnknown c p) by (destruct m; try (right; intros; discriminate); left; eauto).
  destruct D as [(c & p & ->)|NU]; [exists c; split; [reflexivity|]; intros X; now destruct (X c p)|].
  destruct (named_exists m NU) as [c Nm]. exists c. split; [now apply command_named|auto].
Qed.

(** A payload byte 2 for "relay" is accepted and read as true, but written back as 1: the frame is not reproduced. *)
Definition some_address : address := mk_addr 9 [0; 0; 0; 0; 0; 65535; 49320; 257] 8333.
Definition some_version : version_msg := mk_version 70016 9 1700000000 some_address some_address 77 (lit "/x:1/") 800000 true.
Definition odd_relay : bytes := firstn (length (version_encode some_version) - 1) (version_encode some_version) ++ [2].
Lemma some_address_ok : address_ok some_address.
Proof. split; [reflexivity|]. split; [reflexivity|]. split; [repeat constructor|reflexivity]. Qed.
Lemma odd_reads : reads (MVersion some_version) odd_relay /\ bytes_ok odd_relay.
Proof.
  split.
  - cbn [reads]. unfold reads_version, some_version. cbn [v_version v_services v_timestamp v_receiver v_sender v_nonce v_start_height v_relay v_user_agent].
    split; [reflexivity|]. split; [reflexivity|]. split; [unfold is_i; lia|]. split; [exact some_address_ok|]. split; [exact some_address_ok|]. split; [reflexivity|]. split; [unfold is_i; lia|].
    exists (lit "/x:1/"), 2. split; [|split; [vm_compute; congruence|split; [reflexivity|split; [split; [discriminate|reflexivity]|]]]].
    + apply from_utf8_spec; [vm_compute; repeat constructor; reflexivity|vm_compute; reflexivity].
    + vm_compute. reflexivity.
  - vm_compute. repeat constructor.
Qed.
Theorem C33_relay_refuted : forall sha256d, (forall m, hash_ok (sha256d m)) -> exists l x, bytes_ok l /\
  decode_from_slice_unbounded (v1_dec sha256d) l = Ret (Ok x, []) /\ v1_encode x <> l.
Proof.
  intros sha256d HS. destruct odd_reads as [R B]. exists (frame sha256d [249; 190; 180; 217] (pad12 (lit "version")) odd_relay).
  destruct (named_exists (MVersion some_version)) as [c Nm]; [discriminate|]. assert (c = pad12 (lit "version")) as ->.
  { destruct Nm as (s & K & F). injection K as <-. exact (field_inj _ _ _ F (known_field (lit "version") (or_introl eq_refl))). }
  eexists. split; [|split].
  - unfold frame. rewrite !bytes_ok_app. destruct (hash4 _ (HS odd_relay)) as [_ HB]. split; [repeat constructor|]. split; [vm_compute; repeat constructor|]. split; [apply le_bytes_ok|]. auto.
  - apply C33_v1_slice; [exact HS| |].
    + unfold frame. rewrite !bytes_ok_app. destruct (hash4 _ (HS odd_relay)) as [_ HB]. split; [repeat constructor|]. split; [vm_compute; repeat constructor|]. split; [apply le_bytes_ok|]. auto.
    + exists [249; 190; 180; 217], (pad12 (lit "version")), odd_relay, (MVersion some_version). split.
      * unfold framed. rewrite app_nil_r. split; [reflexivity|]. split; [reflexivity|]. split; [vm_compute; congruence|]. split; [exact Nm|exact R].
      * instantiate (1 := v1_seen sha256d [249; 190; 180; 217] (pad12 (lit "version")) odd_relay (MVersion some_version)). repeat split; reflexivity.
  - unfold v1_encode. cbn [v1_payload v1_seen payload_encode]. intros E. apply (f_equal (fun l => last l 0)) in E. unfold frame in E. rewrite !app_assoc in E.
    assert (LA : forall (a b : bytes), b <> [] -> last (a ++ b) 0 = last b 0).
    { induction a as [|x a IH]; intros b NB; [reflexivity|]. cbn [app]. rewrite <- (IH b NB). destruct (a ++ b) eqn:X; [|reflexivity]. destruct a; [contradiction|discriminate]. }
    rewrite !LA in E by (vm_compute; discriminate). vm_compute in E. discriminate.
Qed.
(** An unknown message whose name is a known one does not come back as it was. *)
Theorem C33_unknown_refuted : forall sha256d, (forall m, hash_ok (sha256d m)) -> forall magic, fixed 4 magic ->
  let m := MUnknown (pad12 (lit "ping")) (le_bytes 8 7) in
  exists x, v1_new sha256d magic m = Ret x /\
  exists y, decode_from_slice_unbounded (v1_dec sha256d) (v1_encode x) = Ret (Ok y, []) /\ v1_payload y = MPing 7.
Proof.
  intros sha256d HS magic [M MB] m.
  assert (Nm : named (MPing 7) (pad12 (lit "ping"))) by (exists (lit "ping"); split; [reflexivity|apply known_field; vm_compute; tauto]).
  assert (R : reads (MPing 7) (le_bytes 8 7)) by (split; [vm_compute|]; reflexivity).
  eexists. split; [reflexivity|]. exists (v1_seen sha256d magic (pad12 (lit "ping")) (le_bytes 8 7) (MPing 7)). split; [|reflexivity].
  assert (EQ : v1_encode (mk_v1 (mk_v1h magic (pad12 (lit "ping")) (lenN (payload_encode m)) (firstn 4 (sha256d (payload_encode m)))) m) = frame sha256d magic (pad12 (lit "ping")) (le_bytes 8 7)).
  { unfold v1_encode, v1_header_encode, frame. cbn [v1_head v1_payload mh_magic mh_command mh_length mh_checksum m payload_encode]. now rewrite <- !app_assoc. }
  rewrite EQ. apply C33_v1_slice; [exact HS| |].
  - unfold frame. rewrite !bytes_ok_app. destruct (hash4 _ (HS (le_bytes 8 7))) as [_ HB]. split; [exact MB|]. split; [vm_compute; repeat constructor|]. split; [apply le_bytes_ok|]. split; [exact HB|apply le_bytes_ok].
  - exists magic, (pad12 (lit "ping")), (le_bytes 8 7), (MPing 7). split; [|repeat split; reflexivity]. unfold framed. rewrite app_nil_r. split; [reflexivity|]. split; [exact M|]. split; [vm_compute; congruence|]. split; [exact Nm|exact R].
Qed.

(** * The V2 transport *)
Theorem C33_v2_decodes : forall cs m r, bytes_ok (concat cs) ->
  (feed_chunks v2_dec (init v2_dec) cs = RDone m r <-> exists w, concat cs = w ++ r /\ reads_v2 m w).
Proof. exact v2_chunks. Qed.
Theorem C33_v2_slice : forall l m r, bytes_ok l ->
  (decode_from_slice_unbounded v2_dec l = Ret (Ok m, r) <-> exists w, l = w ++ r /\ reads_v2 m w).
Proof. exact v2_slice. Qed.
Theorem C33_v2_read : forall es m r, Forall data_ok es -> bytes_ok (events_bytes es) ->
  ((exists b es', decode_from_read v2_dec es = Ret (Ok m, b, es') /\ b ++ events_bytes es' = r) <->
   exists w, events_bytes es = w ++ r /\ reads_v2 m w).
Proof. exact v2_read. Qed.
Theorem C33_v2_unbuffered : forall bs src want m r, 0 < bs -> bytes_ok src ->
  (decode_from_read_unbuffered v2_dec bs src want = Ret (Ok m, r) <-> exists w, src = w ++ r /\ reads_v2 m w).
Proof. exact v2_unbuffered. Qed.
Theorem C33_v2_no_panic : forall cs, bytes_ok (concat cs) -> lenN (concat cs) < 2 ^ 32 ->
  feed_chunks v2_dec (init v2_dec) cs <> RPanic /\ decode_from_slice_unbounded v2_dec (concat cs) <> Panic.
Proof. intros cs B L. split; [now apply v2_no_panic|now apply v2_slice_no_panic]. Qed.
(** A message of a known kind that some payload carries is written in its short form if it has one, and comes back. *)
Theorem C33_v2_round_trip : forall m p, (forall c q, m <> MUnknown c q) -> reads m p -> exists w, v2_encode m = Ret w /\ reads_v2 m w /\
  forall cs r, bytes_ok (w ++ r) -> concat cs = w ++ r -> feed_chunks v2_dec (init v2_dec) cs = RDone m r.
Proof.
  intros m p NU R. destruct (v2_encode_reads m p NU R) as (w & E & RW). exists w. split; [exact E|]. split; [exact RW|].
  intros cs r B EC. apply C33_v2_decodes; [now rewrite EC|]. exists w. auto.
Qed.
(** An unknown message loses its payload: the decoder stops after the name. *)
Theorem C33_v2_unknown_refuted : forall s c p, field s c -> ~ In s known -> bytes_ok p ->
  v2_encode (MUnknown c p) = Ret (0 :: c ++ p) /\ decode_from_slice_unbounded v2_dec (0 :: c ++ p) = Ret (Ok (MUnknown c []), p).
Proof.
  intros s c p F K B. split; [reflexivity|]. destruct (field_ok s c F) as [_ CB]. apply C33_v2_slice.
  - constructor; [reflexivity|]. now apply bytes_ok_app.
  - exists (0 :: c). split; [reflexivity|]. apply (v2_unknown s); auto.
Qed.
(** So does a message with a short form whose sender wrote its name out instead: BIP324 allows that, here it is not
    recognised. *)
Theorem C33_v2_long_form_refuted : forall n, n < 2 ^ 64 ->
  decode_from_slice_unbounded v2_dec (0 :: pad12 (lit "ping") ++ le_bytes 8 n) = Ret (Ok (MUnknown (pad12 (lit "ping")) []), le_bytes 8 n).
Proof.
  intros n L. apply C33_v2_slice.
  - constructor; [reflexivity|]. apply bytes_ok_app. split; [vm_compute; repeat constructor|apply le_bytes_ok].
  - exists (0 :: pad12 (lit "ping")). split; [reflexivity|]. apply (v2_unknown (lit "ping")); [apply known_field; vm_compute; tauto|]. right. vm_compute. tauto.
Qed.

(** * Names *)
Theorem C33_command_of : forall s c, command_of s = Ok c <-> lenN s <= 12 /\ c = s ++ repeat 0 (12 - length s) /\ exists s', field s' c.
Proof. exact command_of_spec. Qed.
Theorem C33_command_text : forall s c, field s c -> command_str c = s /\ command_of s = Ok c.
Proof. intros s c F. split; [now apply field_str|now apply command_of_field]. Qed.
Theorem C33_command_wire : forall l c r, bytes_ok l ->
  (decode_from_slice_unbounded command_dec l = Ret (Ok c, r) <-> l = c ++ r /\ exists s, field s c).
Proof. intros l c r B. exact (codec_prefix command_codec l c r B). Qed.

(** * Texts *)
Theorem C33_utf8 : forall b s, bytes_ok b -> (from_utf8 b = Some s <-> utf8 s b).
Proof. intros b s B. now apply from_utf8_spec. Qed.
Theorem C33_utf8_encode : forall s b, utf8 s b -> as_bytes s = b.
Proof. intros s b U. symmetry. now apply utf8_bytes. Qed.

(** * Fee filters: in satoshi per 1000 virtual bytes on the wire *)
Theorem C33_fee_filter_total : forall kvb, fee_filter_of kvb = Ret (if 2100000000000000 <? kvb then Err (FfInvalid kvb) else Ok (1000 * Z.of_N kvb)%Z).
Proof. exact fee_filter_of_spec. Qed.
(** Writing a rate rounds it up. *)
Theorem C33_fee_filter_rounds : forall r, (0 <= r < 2 ^ 64)%Z -> exists k, is_ceil_div r 1000 k /\ fee_filter_encode r = le_bytes 8 (Z.to_N k).
Proof. intros r B. exists (feerate_to_kvb_ceil r). split; [|reflexivity]. now apply feerate_conv. Qed.
Theorem C33_fee_filter_refuted : exists r r', (0 <= r < 2 ^ 64)%Z /\ decode_from_slice fee_filter_dec (fee_filter_encode r) = Ret (Ok r') /\ r' <> r.
Proof. exists 1%Z, 1000%Z. repeat split; try lia; vm_compute; reflexivity. Qed.

(** * Addresses *)
Theorem C33_addr_v2_encoder : forall a, av2_drain 3 (av2_new a) = Some (addr_v2_encode a).
Proof. exact av2_drain_spec. Qed.
(** Read byte by byte: its bytes in order, then None once; asked again, the iterator never returns (no number of rounds
    of its loop is enough), where the iterators of the other encoders say None again. *)
Theorem C33_addr_v2_iterator_refuted : forall a, exists s, nexts (S (length (addr_v2_encode a))) (av2_new a, 0) = Some (s, map Some (addr_v2_encode a) ++ [None]) /\
  forall rounds, av2_next rounds s = None.
Proof.
  intros a. destruct (nexts_addr a) as [n E]. exists (av2_done, n). split; [exact E|]. intros f. apply av2_hang. split; reflexivity.
Qed.
(** The address decoder accepts exactly the BIP155 forms it knows. *)
Theorem C33_addr_v2_wire : forall l a r, bytes_ok l ->
  (decode_from_slice_unbounded addr_v2_dec l = Ret (Ok a, r) <-> l = wire_addr_v2 a ++ r /\ addr_v2_ok a).
Proof.
  intros l a r B. rewrite (codec_prefix addr_v2_codec l a r B). split; intros [-> W]; (split; [|exact W]); now rewrite wire_addr_v2_eq.
Qed.
(** So a value outside of them is written to bytes that are read differently: an IPv6 address of a mapped IPv4 one, a
    Cjdns address not starting with FC, an unknown network with a known number. *)
Theorem C33_addr_v2_round_trip_refuted :
  (decode_from_slice addr_v2_dec (addr_v2_encode (Ipv6 [0; 0; 0; 0; 0; 65535; 49320; 257])) = Ret (Err (DeParse (CBad AvWrappedIpv4)))) /\
  (decode_from_slice addr_v2_dec (addr_v2_encode (Ipv6 [64903; 55422; 60227; 1; 2; 3; 4; 5])) = Ret (Err (DeParse (CBad AvOnionCat)))) /\
  (decode_from_slice addr_v2_dec (addr_v2_encode (Cjdns [1; 2; 3; 4; 5; 6; 7; 8])) = Ret (Err (DeParse (CBad AvNotCjdns)))) /\
  (decode_from_slice addr_v2_dec (addr_v2_encode (NetUnknown 1 [1; 2; 3; 4])) = Ret (Ok (Ipv4 [1; 2; 3; 4]))).
Proof. vm_compute. auto. Qed.

(** * Inventories *)
Theorem C33_inventory_wire : forall l i r, bytes_ok l ->
  (decode_from_slice_unbounded inventory_dec l = Ret (Ok i, r) <-> l = wire_inventory i ++ r /\ inventory_ok i).
Proof.
  intros l i r B. rewrite (codec_prefix inventory_codec l i r B). assert (E : inventory_encode i = wire_inventory i) by (destruct i; reflexivity). now rewrite E.
Qed.
Theorem C33_inventory_refuted : forall h, hash_ok h -> decode_from_slice inventory_dec (inventory_encode (InvUnknown 1 h)) = Ret (Ok (InvTx h)).
Proof.
  intros h [L B]. apply (codec_slice inventory_codec); [|split; [reflexivity|split; assumption]]. unfold inventory_encode. apply bytes_ok_app. split; [apply le_bytes_ok|exact B].
Qed.
(** * Features (BIP434) *)
Theorem C33_feature_id : forall s,
  (feature_id_of s = Ok s <-> Forall (fun c => c < 128) s /\ 4 <= lenN s <= 80) /\ (forall t, feature_id_of s = Ok t -> t = s).
Proof.
  intros s. unfold feature_id_of. destruct (is_ascii s) eqn:A; cbn [negb].
  - apply is_ascii_all in A. rewrite str_len_ascii by exact A. destruct ((lenN s <? 4) || (80 <? lenN s)) eqn:L.
    + split; [split; [discriminate|]|discriminate]. intros [_ H]. lia.
    + split; [split; [|reflexivity]|intros t H; congruence]. intros _. split; [exact A|lia].
  - split; [split; [discriminate|]|discriminate]. intros [H _]. apply is_ascii_all in H. congruence.
Qed.
Theorem C33_feature_data : forall b, feature_data_new b = if lenN b <=? 512 then Ok b else Err (lenN b).
Proof. intros b. unfold feature_data_new. destruct (N.ltb_spec 512 (lenN b)), (N.leb_spec (lenN b) 512); try reflexivity; lia. Qed.

(** * Service flags: sets of bits *)
Theorem C33_services : forall a b, a < 2 ^ 64 -> b < 2 ^ 64 ->
  (forall i, N.testbit (sf_add a b) i = N.testbit a i || N.testbit b i) /\
  (forall i, N.testbit (sf_remove a b) i = N.testbit a i && negb (N.testbit b i)) /\
  (sf_has a b = true <-> forall i, N.testbit b i = true -> N.testbit a i = true) /\
  sf_add a b < 2 ^ 64 /\ sf_remove a b < 2 ^ 64.
Proof.
  intros a b A B. split; [apply sf_add_spec|]. split; [intros; now apply sf_remove_spec|]. split; [apply sf_has_spec|]. split; [now apply LHmac.lor_lt|].
  unfold sf_remove. rewrite N.land_comm. now apply LHash2.land_lt.
Qed.

(** * Block locators *)
(** The hashes asked for are those at the tip, one to ten blocks below it, then twice as far each time from ten on, until
    the first block, which is always the last: at most 43 of them.  The first failure is returned. *)
Theorem C33_locator : forall E (get : N -> result bytes E) tip, tip < 2 ^ 32 ->
  exists k, (k <= 42)%nat /\ tip <= offset (N.of_nat k) /\ (forall i, (i < k)%nat -> offset (N.of_nat i) < tip) /\
  locator_build tip get = collect get (map (fun i => tip - offset (N.of_nat i)) (seq 0 (k + 1))).
Proof. exact locator_spec. Qed.
Example locator_ex : locator_build 100 (fun h => Ok [h] : result bytes unit) = Ok (map (fun h => [h]) [100; 99; 98; 97; 96; 95; 94; 93; 92; 91; 90; 89; 87; 83; 75; 59; 27; 0]).
Proof. vm_compute. reflexivity. Qed.

(** * Headers *)
Theorem C33_connected : forall sha256d l, is_connected sha256d l = true <->
  forall i a b, nth_error l i = Some a -> nth_error l (S i) = Some b -> sha256d (header_encode (fst a)) = h_prev (fst b).
Proof. exact is_connected_spec. Qed.
(** Filter headers computed one from another commit to all filter hashes and to the first header. *)
Theorem C33_filter_headers : forall sha256d hs hs' g g', (forall m, lenN (sha256d m) = 32) -> length hs = length hs' -> lenN g = 32 -> lenN g' = 32 ->
  Forall (fun h => lenN h = 32) hs -> Forall (fun h => lenN h = 32) hs' ->
  fold_left (fun prev h => filter_header sha256d h prev) hs g = fold_left (fun prev h => filter_header sha256d h prev) hs' g' ->
  (hs = hs' /\ g = g') \/ exists x y, In x (header_inputs sha256d g hs) /\ In y (header_inputs sha256d g' hs') /\ x <> y /\ sha256d x = sha256d y.
Proof. intros sha256d hs hs' g g' HS L G G' F F' E. rewrite !filter_chain in E. now apply header_chain_bind. Qed.
Theorem C33_filter_header_chain : forall sha256d hs g, fold_left (fun prev h => filter_header sha256d h prev) hs g = header_chain sha256d g hs.
Proof. exact filter_chain. Qed.

(** * Cases *)
Example ping_named : named (MPing 7) (pad12 (lit "ping")) /\ reads (MPing 7) (le_bytes 8 7).
Proof. split; [exists (lit "ping"); split; [reflexivity|apply known_field; vm_compute; tauto]|split; reflexivity]. Qed.
Example hash_32 : forall m, hash_ok (SHA256d m).
Proof. exact LBip32b.SHA256d_ok. Qed.
Example ping_frame : exists x, decode_from_slice_unbounded (v1_dec SHA256d) (frame SHA256d [249; 190; 180; 217] (pad12 (lit "ping")) (le_bytes 8 7) ++ [1; 2]) = Ret (Ok x, [1; 2]) /\ v1_payload x = MPing 7.
Proof. eexists. vm_compute. split; reflexivity. Qed.
(** a wrong checksum, a wrong length *)
Example ping_bad : (exists e, decode_from_slice_unbounded (v1_dec SHA256d) ([249; 190; 180; 217] ++ pad12 (lit "ping") ++ le_bytes 4 8 ++ [0; 0; 0; 0] ++ le_bytes 8 7) = Ret (Err e, [])) /\
  (exists e r, decode_from_slice_unbounded (v1_dec SHA256d) ([249; 190; 180; 217] ++ pad12 (lit "ping") ++ le_bytes 4 9 ++ firstn 4 (SHA256d (le_bytes 8 7)) ++ le_bytes 8 7 ++ [0]) = Ret (Err e, r)).
Proof. split; [eexists|eexists; eexists]; vm_compute; reflexivity. Qed.
Example v2_cases : decode_from_slice_unbounded v2_dec (18 :: le_bytes 8 7) = Ret (Ok (MPing 7), []) /\
  decode_from_slice_unbounded v2_dec (0 :: pad12 (lit "verack") ++ [5]) = Ret (Ok (MBare Verack), [5]) /\ v2_encode (MBare Verack) = Ret (0 :: pad12 (lit "verack")).
Proof. vm_compute. auto. Qed.
Example version_case : reads (MVersion some_version) odd_relay.
Proof. exact (proj1 odd_reads). Qed.
Example unknown_field : field (lit "hello") (pad12 (lit "hello")) /\ ~ In (lit "hello") known.
Proof.
  split; [apply field_pad; [vm_compute; reflexivity|apply Nat.leb_le; vm_compute; reflexivity]|]. intros H. apply existsb_in in H. vm_compute in H. discriminate.
Qed.

Print Assumptions C33_v1_decodes.
Print Assumptions C33_v1_slice.
Print Assumptions C33_v1_read.
Print Assumptions C33_v1_unbuffered.
Print Assumptions C33_v1_no_panic.
Print Assumptions C33_v1_encode.
Print Assumptions C33_v1_round_trip.
Print Assumptions C33_command_total.
Print Assumptions C33_relay_refuted.
Print Assumptions C33_unknown_refuted.
Print Assumptions C33_v2_decodes.
Print Assumptions C33_v2_slice.
Print Assumptions C33_v2_read.
Print Assumptions C33_v2_unbuffered.
Print Assumptions C33_v2_no_panic.
Print Assumptions C33_v2_round_trip.
Print Assumptions C33_v2_unknown_refuted.
Print Assumptions C33_v2_long_form_refuted.
Print Assumptions C33_command_of.
Print Assumptions C33_command_text.
Print Assumptions C33_command_wire.
Print Assumptions C33_utf8.
Print Assumptions C33_utf8_encode.
Print Assumptions C33_fee_filter_total.
Print Assumptions C33_fee_filter_rounds.
Print Assumptions C33_fee_filter_refuted.
Print Assumptions C33_addr_v2_encoder.
Print Assumptions C33_addr_v2_iterator_refuted.
Print Assumptions C33_addr_v2_wire.
Print Assumptions C33_addr_v2_round_trip_refuted.
Print Assumptions C33_inventory_wire.
Print Assumptions C33_inventory_refuted.
Print Assumptions C33_feature_id.
Print Assumptions C33_feature_data.
Print Assumptions C33_services.
Print Assumptions C33_locator.
Print Assumptions C33_connected.
Print Assumptions C33_filter_headers.
Print Assumptions C33_filter_header_chain.

(** The hash named by an inventory entry is the one on the wire; only the error entry has none. *)
Theorem C33_network_hash : forall i, 
  match i with InvError _ => network_hash i = None | _ => exists type h, network_hash i = Some h /\ wire_inventory i = le_bytes 4 type ++ h end.
Proof. intros []; cbn [network_hash wire_inventory]; try reflexivity; do 2 eexists; split; reflexivity. Qed.
Print Assumptions C33_network_hash.
