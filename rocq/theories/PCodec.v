(** C01, C02, C03, C05, C09: the consensus decoders, property theorems. *)
From Verif Require Import Base MDec LDec LDec2 LDrive LCompact MWitness MTx LCodec LTx2 SDec SWire LBuilt LWire MAlloc SAlloc LAlloc.
Local Open Scope N_scope.

(** *** C01 *)
(** The encoder writes the protocol's CompactSize and its advertised size is the true size. *)
Theorem C01_encode : forall v, is_u64 v ->
  cs_encode v = wire_compact v /\ lenN (cs_encode v) = cs_encoded_size v.
Proof. intros v _. split; [apply wire_compact_eq|apply cs_encode_len]. Qed.
Print Assumptions C01_encode.
Example C01_encode_nonvacuous : is_u64 70000 /\ cs_encode 70000 = [254; 112; 17; 1; 0].
Proof. split; reflexivity. Qed.

(** The u64 decoder returns [v] and leaves [r] iff the input is the encoding of [v] followed by [r]:
    it reads back what was written, and accepts nothing but the minimal encoding. *)
Theorem C01_decode_u64 : forall l v r, bytes_ok l ->
  (decode_from_slice_unbounded cs_u64_dec l = Ret (Ok v, r) <-> l = wire_compact v ++ r /\ is_u64 v).
Proof. intros. rewrite <- wire_compact_eq. now apply (codec_prefix cs_u64_codec). Qed.
Print Assumptions C01_decode_u64.
Example C01_u64_nonvacuous : decode_from_slice_unbounded cs_u64_dec [253; 253; 0; 9] = Ret (Ok 253, [9]) /\
  decode_from_slice_unbounded cs_u64_dec [253; 252; 0; 9] = Ret (Err (CsNonMinimal 252), [9]).
Proof. split; reflexivity. Qed.

(** The length decoder accepts in addition only values within its limit ... *)
Theorem C01_decode_limited : forall limit l v r, is_u64 limit -> bytes_ok l ->
  (decode_from_slice_unbounded (cs_dec limit) l = Ret (Ok v, r) <-> l = wire_compact v ++ r /\ v <= limit).
Proof. intros. rewrite <- wire_compact_eq. now apply (codec_prefix (cs_codec limit H)). Qed.
Print Assumptions C01_decode_limited.
(** ... and refuses every greater value, naming it. *)
Theorem C01_limit_enforced : forall limit v t, is_u64 v -> limit < v ->
  exists r, decode_from_slice_unbounded (cs_dec limit) (wire_compact v ++ t) = Ret (Err (CsExceeds limit v), r).
Proof.
  intros limit v t Hv Hl. pose proof (slice_unbounded_den _ _ _ (cs_lawful limit) (wire_compact v ++ t)) as K.
  cbn [init cs_dec] in K. rewrite <- wire_compact_eq in *. rewrite cs_den_encode, cs_fin_encode in K by auto.
  replace (v <=? limit) with false in K by lia. exact K.
Qed.
Print Assumptions C01_limit_enforced.
Example C01_limit_nonvacuous : decode_from_slice_unbounded (cs_dec 500) (wire_compact 501 ++ [7]) = Ret (Err (CsExceeds 500 501), [7])
  /\ decode_from_slice_unbounded (cs_dec 500) (wire_compact 500 ++ [7]) = Ret (Ok 500, [7]).
Proof. split; reflexivity. Qed.

(** No byte string is the start of two encodings: the code is prefix free. *)
Theorem C01_prefix_free : forall a b s t, is_u64 a -> is_u64 b ->
  wire_compact a ++ s = wire_compact b ++ t -> a = b /\ s = t.
Proof. intros a b s t Ha Hb. rewrite <- !wire_compact_eq. now apply cs_encode_inj. Qed.
Print Assumptions C01_prefix_free.

(** *** C02 *)
(** For every decoder the library offers, the outcome (value and unconsumed suffix, or error, or
    panic) does not depend on how the input is cut into slices. *)
Theorem C02_splitting : forall A E b (D : decoder A E), built b D -> forall cs cs',
  concat cs = concat cs' -> feed_chunks D (init D) cs = feed_chunks D (init D) cs'.
Proof.
  intros A E b D HB cs cs' H. destruct (built_lawful _ _ _ _ HB) as (g & den & L & _).
  rewrite (chunks_whole D g den L cs), (chunks_whole D g den L cs'). now rewrite H.
Qed.
Print Assumptions C02_splitting.
Example C02_nonvacuous : built true tx_dec /\ built true (vec_dec (dec2 (array_dec 3) cs_u64_dec) 7) /\
  feed_chunks (vec_dec (dec2 (array_dec 3) cs_u64_dec) 7) (init _) [[2; 1]; [1; 1; 5]; []; [2; 2; 2; 253; 1]; [1; 9]]
  = RDone [([1; 1; 1], 5); ([2; 2; 2], 257)] [9].
Proof.
  split; [constructor|split; [|reflexivity]]. apply B_vec. apply (B_pair _ _ _ _ true true); constructor. reflexivity.
Qed.

(** A decoder that asks for more, driven by the documented loop, has consumed all it was given. *)
Theorem C02_asks_when_dry : forall A E b (D : decoder A E), built b D -> forall l s r,
  feed D (length l) (init D) l = (s, r, NeedsMore) -> r = [].
Proof.
  intros A E b D HB l s r H. destruct (built_lawful _ _ _ _ HB) as (g & den & L & _).
  eapply (asks_consumed D g den L); eauto. apply (law_init _ _ _ L).
Qed.
Print Assumptions C02_asks_when_dry.

(** Completion consumes exactly the encoding: the same bytes followed by anything else give the same
    value and leave exactly what follows, and no shorter input completes. *)
Theorem C02_exact_consumption : forall A E b (D : decoder A E), built b D -> forall l v r,
  feed_chunks D (init D) [l] = RDone v r ->
  exists p, l = p ++ r /\ (forall t, feed_chunks D (init D) [p ++ t] = RDone v t) /\
    forall q v' r', (exists x t, p = q ++ x :: t) -> feed_chunks D (init D) [q] <> RDone v' r'.
Proof.
  intros A E b D HB l v r H. destruct (built_lawful _ _ _ _ HB) as (g & den & L & _).
  eapply (exact_consumption D g den L); eauto.
Qed.
Print Assumptions C02_exact_consumption.

(** *** C03 *)
(** decode_from_slice_unbounded gives the outcome of pushing the whole input. *)
Theorem C03_slice_unbounded : forall A E b (D : decoder A E), built b D -> forall l,
  match feed_chunks D (init D) [l] with
  | RDone v r => decode_from_slice_unbounded D l = Ret (Ok v, r)
  | RErr e => exists r, decode_from_slice_unbounded D l = Ret (Err e, r)
  | RPanic => decode_from_slice_unbounded D l = Panic
  end.
Proof. intros A E b D HB. destruct (built_lawful _ _ _ _ HB) as (g & den & L & _). now apply (slice_unbounded_whole D g den). Qed.
Print Assumptions C03_slice_unbounded.

(** decode_from_slice: the same, and an error iff bytes are left over. *)
Theorem C03_slice : forall A E b (D : decoder A E), built b D -> forall l,
  decode_from_slice D l = match feed_chunks D (init D) [l] with
  | RDone v [] => Ret (Ok v)
  | RDone _ (_ :: _) => Ret (Err DeUnconsumed)
  | RErr e => Ret (Err (DeParse e))
  | RPanic => Panic
  end.
Proof. intros A E b D HB. destruct (built_lawful _ _ _ _ HB) as (g & den & L & _). now apply (slice_whole D g den). Qed.
Print Assumptions C03_slice.

(** decode_from_read, whatever the sequence of buffers the reader hands out, with any number of
    interruptions: the same outcome, and the reader is left exactly after the encoding. *)
Theorem C03_read : forall A E b (D : decoder A E), built b D -> forall es, Forall data_ok es ->
  match feed_chunks D (init D) [events_bytes es] with
  | RDone v r => exists b es', decode_from_read D es = Ret (Ok v, b, es') /\ b ++ events_bytes es' = r
  | RErr e => exists b es', decode_from_read D es = Ret (Err (ReDecode e), b, es')
  | RPanic => decode_from_read D es = Panic
  end.
Proof. intros A E b D HB. destruct (built_lawful _ _ _ _ HB) as (g & den & L & _). now apply (read_whole D g den). Qed.
Print Assumptions C03_read.
Example C03_read_nonvacuous : let es := [EvData [2]; EvInterrupted; EvData [7]; EvData [8; 9; 10]; EvData [11]] in
  Forall data_ok es /\ decode_from_read (bytevec_dec 5) es = Ret (Ok [7; 8], [9; 10], [EvData [11]]).
Proof. split; [repeat constructor; discriminate|reflexivity]. Qed.

(** decode_from_read_unbuffered: for every buffer size and every sequence of short reads and
    interruptions; the reader has given out exactly the encoding. *)
Theorem C03_read_unbuffered : forall A E b (D : decoder A E), built b D -> forall bufsize src want, 0 < bufsize ->
  match feed_chunks D (init D) [src] with
  | RDone v r => decode_from_read_unbuffered D bufsize src want = Ret (Ok v, r)
  | RErr e => exists r, decode_from_read_unbuffered D bufsize src want = Ret (Err (ReDecode e), r)
  | RPanic => decode_from_read_unbuffered D bufsize src want = Panic
  end.
Proof. intros A E b D HB. destruct (built_lawful _ _ _ _ HB) as (g & den & L & _). now apply (unbuffered_whole D g den). Qed.
Print Assumptions C03_read_unbuffered.
Example C03_unbuffered_nonvacuous :
  decode_from_read_unbuffered (vec_dec cs_u64_dec 9) 4 [2; 253; 0; 1; 5; 77; 78] [1; 0; 2; 9] = Ret (Ok [256; 5], [77; 78]).
Proof. reflexivity. Qed.

(** decode_from_hex succeeds iff the hex digits denote bytes the decoder accepts completely. *)
Theorem C03_hex : forall A E b (D : decoder A E), built b D -> forall l v,
  decode_from_hex D (map Some l) = Ret (Ok v) <-> decode_from_slice D l = Ret (Ok v).
Proof.
  intros A E b D HB l v. destruct (built_lawful _ _ _ _ HB) as (g & den & L & _).
  rewrite (hex_whole D g den L). pose proof (slice_whole D g den L l) as K. rewrite K. unfold bytes in *.
  destruct (feed_chunks D (init D) [l]) as [v' []| |]; split; intro H; inv H; auto.
Qed.
Print Assumptions C03_hex.
Theorem C03_hex_bad_char : forall A E b (D : decoder A E), built b D -> forall l tl v,
  decode_from_hex D (map Some l ++ None :: tl) <> Ret (Ok v).
Proof. intros A E b D HB. destruct (built_lawful _ _ _ _ HB) as (g & den & L & _). now apply (hex_bad D g den). Qed.
Print Assumptions C03_hex_bad_char.

(** The read limit advertised while decoding never reaches beyond the end of the encoding ... *)
Theorem C03_limit_sound : forall A E b (D : decoder A E), built b D -> forall p s t v r,
  feed D (length p) (init D) p = (s, [], NeedsMore) -> feed_chunks D (init D) [p ++ t] = RDone v r ->
  exists q, t = q ++ r /\ lim D s <= lenN q.
Proof.
  intros A E b D HB p s t v r Hf Hd. destruct (built_lawful _ _ _ _ HB) as (g & den & L & _).
  pose proof (limit_sound D g den L _ _ _ _ _ Hf Hd) as K.
  destruct (exact_consumption D g den L _ _ _ Hd) as (q & Hq & _).
  apply app_eq_app in Hq as (z & [[-> ->]|[-> Hz]]).
  - rewrite lenN_app in K. exists []. replace z with (@nil N) by (symmetry; apply lenN_nil_inv; lia).
    split; [reflexivity|lia].
  - exists z. split; auto. rewrite Hz, lenN_app in K. lia.
Qed.
Print Assumptions C03_limit_sound.
(** ... and is 0 only when no more input is needed. *)
Theorem C03_limit_live : forall A E b (D : decoder A E), built b D -> forall p s t,
  feed D (length p) (init D) p = (s, [], NeedsMore) -> lim D s = 0 ->
  feed_chunks D (init D) [p ++ t] =
  match fin D s with Panic => RPanic | Ret (Ok v) => RDone v t | Ret (Err e) => RErr e end.
Proof. intros A E b D HB. destruct (built_lawful _ _ _ _ HB) as (g & den & L & _). now apply (limit_zero D g den). Qed.
Print Assumptions C03_limit_live.

(** *** C05 *)
Theorem C05_bytes : forall limit l v r, is_u64 limit -> bytes_ok l ->
  (decode_from_slice_unbounded (bytevec_dec limit) l = Ret (Ok v, r) <->
   l = wire_bytes v ++ r /\ lenN v <= limit /\ bytes_ok v).
Proof. intros limit l v r H Hl. rewrite <- wire_bytes_eq. now apply (codec_prefix (bytevec_codec limit H)). Qed.
Print Assumptions C05_bytes.
Example C05_bytes_nonvacuous : decode_from_slice_unbounded (bytevec_dec 3) (wire_bytes [1; 2; 3] ++ [4]) = Ret (Ok [1; 2; 3], [4])
  /\ decode_from_slice_unbounded (bytevec_dec 3) (wire_bytes [1; 2; 3; 4]) = Ret (Err (BvPrefix (CsExceeds 3 4)), [1; 2; 3; 4]).
Proof. split; reflexivity. Qed.

(** Vectors of any item type whose decoder inverts its encoder. *)
Theorem C05_items : forall A E (D : decoder A E) (enc : A -> bytes) (ok : A -> Prop) limit,
  is_u64 limit -> built true D -> decodes D enc ok -> forall l v r, bytes_ok l ->
  (decode_from_slice_unbounded (vec_dec D limit) l = Ret (Ok v, r) <->
   l = wire_list enc v ++ r /\ lenN v <= limit /\ Forall ok v).
Proof.
  intros A E D enc ok limit H HB C l v r Hl. rewrite <- (wire_list_eq _ enc enc) by auto.
  apply (codec_prefix (vec_codec _ _ D enc ok limit H (decodes_codec _ _ _ _ _ HB C))). exact Hl.
Qed.
Print Assumptions C05_items.
Example C05_items_nonvacuous : built true outpoint_dec /\ decodes outpoint_dec wire_outpoint outpoint_ok.
Proof.
  split; [unfold outpoint_dec; apply B_newtype; constructor; reflexivity|].
  apply codec_decodes; [|apply outpoint_codec]. intros [t v] [[_ H] _]. apply bytes_ok_app. split; [exact H|apply le_bytes_ok].
Qed.

(** Whatever length is claimed, a byte vector's buffer never reserves more than one batch
    (1,000,000 bytes) beyond the number of bytes consumed. *)
Theorem C05_bytes_alloc : forall limit n s, received (bytevec_dec limit) n s -> bv_cap s <= n + 1000000.
Proof. exact bytevec_alloc. Qed.
Print Assumptions C05_bytes_alloc.
Example C05_alloc_nonvacuous : exists s, received (bytevec_dec 4000000) 7 s /\ bv_cap s = 1000000 /\ bv_expected s = 4000000.
Proof.
  eexists. split; [|split].
  - apply (received_push _ 0 (init (bytevec_dec 4000000)) [254; 0; 9; 61; 0; 1; 2] _ [] NeedsMore); [constructor|].
    cbv [push bytevec_dec]. vm_compute. reflexivity.
  - reflexivity.
  - reflexivity.
Qed.

(** An item vector never reserves more than one batch of items (1,000,000 bytes worth of items)
    beyond the items decoded so far, and those are at most as many as the bytes consumed. *)
Theorem C05_items_alloc : forall A E (D : decoder A E) size limit, built true D -> size <= 1000000 ->
  (forall n s cap, received (vec_alloc_dec D size limit) n (s, cap) ->
     cap <= lenN (ev_buffer D (vd_items D s)) + 1000000 / N.max size 1) /\
  (forall n s cap, pending (vec_alloc_dec D size limit) n (s, cap) ->
     lenN (ev_buffer D (vd_items D s)) <= n).
Proof.
  intros A E D size limit HB Hs. destruct (built_lawful _ _ _ _ HB) as (g & den & L & NT). split; intros n s cap R.
  - apply (vec_alloc D size Hs) in R. apply R.
  - eapply (vec_items_bound D size Hs g den); eauto.
Qed.
Print Assumptions C05_items_alloc.
(** The machine with visible capacity behaves as the plain decoder. *)
Theorem C05_alloc_same_decoder : forall A E (D : decoder A E) size limit s cap l, exists cap',
  push (vec_alloc_dec D size limit) (s, cap) l =
  match push (vec_dec D limit) s l with (s', l', x) => ((s', cap'), l', x) end.
Proof. intros. apply vecc_erase. Qed.
Print Assumptions C05_alloc_same_decoder.

(** *** C09 *)
Theorem C09_outpoint : forall l v r, bytes_ok l ->
  (decode_from_slice_unbounded outpoint_dec l = Ret (Ok v, r) <-> l = wire_outpoint v ++ r /\ outpoint_ok v).
Proof. exact (codec_prefix outpoint_codec). Qed.
Print Assumptions C09_outpoint.

(** the witness is not part of an input's encoding: a decoded input has none *)
Theorem C09_txin : forall l v r, bytes_ok l ->
  (decode_from_slice_unbounded txin_dec l = Ret (Ok v, r) <->
   l = wire_txin v ++ r /\ outpoint_ok (ti_prevout v) /\ script_ok (ti_script v) /\ is_u32 (ti_sequence v) /\ ti_witness v = wit_new).
Proof. intros. rewrite <- wire_txin_eq. now apply (codec_prefix txin_codec). Qed.
Print Assumptions C09_txin.

Theorem C09_txout : forall l v r, bytes_ok l ->
  (decode_from_slice_unbounded txout_dec l = Ret (Ok v, r) <-> l = wire_txout v ++ r /\ txout_ok v).
Proof. intros. rewrite <- wire_txout_eq. now apply (codec_prefix txout_codec). Qed.
Print Assumptions C09_txout.

Theorem C09_header : forall l v r, bytes_ok l ->
  (decode_from_slice_unbounded header_dec l = Ret (Ok v, r) <-> l = wire_header v ++ r /\ header_ok v).
Proof. exact (codec_prefix header_codec). Qed.
Print Assumptions C09_header.
Example C09_header_nonvacuous :
  let h := {| h_version := 536870912; h_prev := repeat 7 32; h_merkle := repeat 9 32; h_time := 1700000000; h_bits := 486604799; h_nonce := 5 |} in
  header_ok h /\ decode_from_slice header_dec (wire_header h) = Ret (Ok h).
Proof. split; [repeat split; try reflexivity; repeat constructor|reflexivity]. Qed.

Theorem C09_block : forall l v r, bytes_ok l ->
  (decode_from_slice_unbounded block_dec l = Ret (Ok v, r) <->
   l = wire_header (b_header v) ++ wire_list tx_encode (b_txs v) ++ r /\ block_ok v).
Proof.
  intros l v r Hl. rewrite (codec_prefix block_codec_ok l v r Hl).
  rewrite (wire_list_eq _ tx_encode tx_encode) by auto. now rewrite <- app_assoc.
Qed.
Print Assumptions C09_block.

(** Decoding any of them from fewer than 2^32 bytes never panics. *)
Theorem C09_no_panic : forall l, bytes_ok l -> lenN l < 2 ^ 32 ->
  decode_from_slice outpoint_dec l <> Panic /\ decode_from_slice txin_dec l <> Panic /\
  decode_from_slice txout_dec l <> Panic /\ decode_from_slice header_dec l <> Panic /\
  decode_from_slice block_dec l <> Panic.
Proof.
  intros l H1 H2. repeat split; eapply codec_no_panic; eauto;
    [apply outpoint_codec|apply txin_codec|apply txout_codec|apply header_codec|apply block_codec_ok].
Qed.
Print Assumptions C09_no_panic.
