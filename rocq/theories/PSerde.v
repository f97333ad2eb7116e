(** C56: what serde writes for consensus values, hashes, scripts, witnesses, out points and taproot trees is read back as the
    same value, from formats for people and from formats for machines.  Specification: SSerde.v. *)
From Verif Require Import Base MDec LDec LCompact LCodec LBuilt MText SText LText MWitness MTx SWire SWitness SWitness2 LWire LTxEx MKey LKey LSig MTaproot STaproot LTaproot2 MHex SHex LHex LWitness LWitness2 MSerde SSerde LSerde LSerde2.
From Coq Require Import String Lia.
From Verif Require MP2p LP2p PHex LTaproot PTaproot PWitness SHash LSha2b.
Local Open Scope N_scope.
Notation flat := MSerde.flat.

(** *** Hashes: the display text, or the bytes; read from these only *)
Theorem C56_hash : forall len backward human h, bytes_ok h -> lenN h = len -> len < 2 ^ 62 ->
  (exists s, ser_hash backward true h = SvStr s /\ spells false s (if backward then rev h else h)) /\ ser_hash backward false h = SvBytes h /\
  restores (de_hash len backward human) (ser_hash backward human h) h.
Proof.
  intros len bw human h B L S. split; [|split; [reflexivity|now apply hash_restores]]. exists (hash_display bw false h). split; [reflexivity|]. unfold hash_display. apply hex_spells. destruct bw; [apply Forall_rev|]; exact B.
Qed.
Theorem C56_hash_accepts : forall len backward tagged v h,
  (self tagged (de_hash len backward true) v = Ret (Some h) <-> exists s, offers true v s /\ lenN h = len /\ hex_of s (if backward then rev h else h)) /\
  (self tagged (de_hash len backward false) v = Ret (Some h) <-> v = SvBytes h /\ lenN h = len).
Proof.
  intros len bw t v h. split; unfold de_hash.
  - rewrite str_offers. split; intros (s & O & K); exists s; split; auto.
    + apply hash_from_str_ok. destruct (hash_from_str len bw s) as [x|]; [|discriminate]. cbn in K. congruence.
    + apply hash_from_str_ok in K. now rewrite K.
  - rewrite bytes_offers. split.
    + intros (b & -> & K). destruct (N.eqb_spec (lenN b) len); [|discriminate]. assert (b = h) as -> by (unfold some in K; congruence). auto.
    + intros [-> L]. exists h. split; [reflexivity|]. rewrite L, N.eqb_refl. reflexivity.
Qed.

(** *** Consensus encoding: the encoding in lower case hexadecimal, or as bytes *)
Definition serde_consensus {A E} (D : decoder A E) (enc : A -> bytes) (ok : A -> Prop) : Prop :=
  (forall a, ok a -> lenN (enc a) < 2 ^ 62 -> forall human,
    (exists s, ser_consensus enc true a = SvStr s /\ spells false s (enc a)) /\ ser_consensus enc false a = SvBytes (enc a) /\
    restores (de_consensus D human) (ser_consensus enc human a) a /\
    restores (de_consensus_opt D human) (ser_consensus_opt enc human (Some a)) (Some a)) /\
  (forall human, restores (de_consensus_opt D human) (ser_consensus_opt enc human None) None) /\
  (forall l human, Forall (fun a => ok a /\ lenN (enc a) < 2 ^ 62) l -> lenN l < 2 ^ 64 -> restores (de_consensus_vec D human) (ser_consensus_vec enc human l) l) /\
  (forall tagged v a, self tagged (de_consensus D true) v = Ret (Some a) <-> exists s, offers true v s /\ hex_of s (enc a) /\ ok a) /\
  (forall tagged b a, bytes_ok b -> (self tagged (de_consensus D false) (SvBytes b) = Ret (Some a) <-> b = enc a /\ ok a)) /\
  (forall tagged v a, self tagged (de_consensus D false) v = Ret (Some a) -> exists b, v = SvBytes b) /\
  (forall tagged s, lenN (MP2p.as_bytes s) < 2 ^ 33 -> self tagged (de_consensus D true) (SvStr s) <> Panic) /\
  (forall tagged b human, bytes_ok b -> lenN b < 2 ^ 32 -> self tagged (de_consensus D human) (SvBytes b) <> Panic /\ compact (de_consensus D human) b <> Panic).
Lemma serde_codec : forall A E (D : decoder A E) enc wf, codec D enc wf -> (forall a, wf a -> bytes_ok (enc a)) -> serde_consensus D enc wf.
Proof.
  intros A E D enc wf C B.
  assert (R : forall human a, wf a -> lenN (enc a) < 2 ^ 62 -> restores (de_consensus D human) (ser_consensus enc human a) a).
  { intros [] a W L; cbn [de_consensus ser_consensus].
    - apply str_restores; [apply hex_ascii; auto|rewrite hex_bytes_len; change (2 ^ 64) with (2 ^ 62 * 4); lia|]. unfold r_ok. rewrite (hex_str_back C false a W (B a W)). reflexivity.
    - apply bytes_restores; [change (2 ^ 64) with (2 ^ 62 * 4); lia|]. unfold r_ok. rewrite (proj2 (codec_slice C (enc a) a (B a W))); [reflexivity|]. auto. }
  assert (NS : forall s, lenN (MP2p.as_bytes s) < 2 ^ 33 -> r_ok (decode_from_hex_str D s) <> Panic).
  { intros s L. destruct (hex_str_err C s L) as (r & -> & _). discriminate. }
  assert (NB : forall b, bytes_ok b -> lenN b < 2 ^ 32 -> r_ok (decode_from_slice D b) <> Panic).
  { intros b O L. apply r_ok_safe. exact (proj2 (codec_no_panic C b O L)). }
  assert (NU : forall b, bytes_ok b -> lenN b < 2 ^ 32 -> forall s, MP2p.from_utf8 b = Some s -> r_ok (decode_from_hex_str D s) <> Panic).
  { intros b O L s U. apply NS. apply LP2p.from_utf8_spec in U; [|exact O]. rewrite <- (LP2p.utf8_bytes _ _ U). change (2 ^ 33) with (2 ^ 32 * 2). lia. }
  split; [|split; [|split; [|split; [|split; [|split; [|split]]]]]].
  - intros a W L human. split; [exists (hex_bytes false (enc a)); split; [reflexivity|apply hex_spells; auto]|]. split; [reflexivity|]. split; [now apply R|]. apply opt_restores_some. now apply R.
  - intro human. apply opt_restores_none.
  - intros l human F L. apply (seq_restores _ _ _ _ _ l).
    + clear L. induction F as [|a l [W L] F IH]; [constructor|]. cbn [map]. constructor; [now apply R|exact IH].
    + unfold lenN in *. now rewrite map_length.
    + reflexivity.
  - intros t v a. cbn [de_consensus]. rewrite str_offers. split; intros (s & O & K); exists s; split; auto.
    + apply (hex_str_ok C). unfold r_ok in K. destruct (decode_from_hex_str D s) as [[x|]|]; cbn [rbind ok_only] in K; try discriminate. congruence.
    + apply (hex_str_ok C) in K. rewrite K. reflexivity.
  - intros t b a O. cbn [de_consensus self]. rewrite <- (codec_slice C b a O). unfold r_ok. split.
    + destruct (decode_from_slice D b) as [[x|]|]; cbn [rbind ok_only]; intro K; try discriminate. congruence.
    + intros ->. reflexivity.
  - intros t v a. cbn [de_consensus self]. destruct v; try discriminate. eauto.
  - intros t s L. cbn [de_consensus self]. now apply NS.
  - intros t b [] O L; cbn [de_consensus self compact]; split.
    + destruct (MP2p.from_utf8 b) as [s|] eqn:U; [|discriminate]. exact (NU b O L s U).
    + destruct (rd_block b) as [[[x r]|]|] eqn:Q; [|discriminate|exact (False_ind _ (rd_block_safe b Q))]. cbn [obind].
      assert (bytes_ok x /\ lenN x <= lenN b) as [O' L'].
      { unfold rd_block, rd_uint in Q. destruct (take (64 / 8) b) as [[[p q]|]|] eqn:T; try discriminate. cbn [obind some] in Q. apply take_inv in T as [-> T]. apply take_inv in Q as [-> Q]. apply bytes_ok_app in O as [_ O]. apply bytes_ok_app in O as [O _]. split; [exact O|]. rewrite !lenN_app. lia. }
      destruct (MP2p.from_utf8 x) as [s|] eqn:U; [|discriminate]. apply keep_safe. apply (NU x O' ltac:(lia) s U).
    + now apply NB.
    + destruct (rd_block b) as [[[x r]|]|] eqn:Q; [|discriminate|exact (False_ind _ (rd_block_safe b Q))]. cbn [obind].
      assert (bytes_ok x /\ lenN x <= lenN b) as [O' L'].
      { unfold rd_block, rd_uint in Q. destruct (take (64 / 8) b) as [[[p q]|]|] eqn:T; try discriminate. cbn [obind some] in Q. apply take_inv in T as [-> T]. apply take_inv in Q as [-> Q]. apply bytes_ok_app in O as [_ O]. apply bytes_ok_app in O as [O _]. split; [exact O|]. rewrite !lenN_app. lia. }
      apply keep_safe. apply (NB x O'). lia.
Qed.
Theorem C56_consensus :
  serde_consensus tx_dec tx_encode tx_ok /\ serde_consensus block_dec block_encode block_ok /\ serde_consensus header_dec header_encode header_ok /\
  serde_consensus witness_dec wit_encode witness_ok /\ serde_consensus script_dec script_encode script_ok.
Proof.
  split; [|split; [|split; [|split]]]; apply serde_codec.
  - exact tx_codec_ok.
  - intros a W. apply tx_encode_ok. apply W.
  - exact PHex.block_codec'.
  - intros a W. now apply block_encode_ok.
  - exact PHex.header_codec_ok.
  - intros a W. now apply header_encode_ok.
  - exact PHex.witness_codec_ok.
  - intros a W. now apply wit_encode_ok.
  - exact PHex.script_codec_ok.
  - intros a W. apply script_encode_ok. apply W.
Qed.

(** *** Scripts *)
Theorem C56_script : forall human s, bytes_ok s -> lenN s < 2 ^ 62 ->
  (exists x, ser_script true s = SvStr x /\ spells false x s) /\ ser_script false s = SvBytes s /\
  restores (de_script human) (ser_script human s) s /\ restores (de_script_ref false) (ser_script false s) s.
Proof.
  intros human s B L. split; [exists (hex_bytes false s); split; [reflexivity|now apply hex_spells]|]. split; [reflexivity|]. split; [now apply script_restores|].
  apply bytes_restores; [change (2 ^ 64) with (2 ^ 62 * 4); lia|reflexivity].
Qed.
Theorem C56_script_accepts : forall tagged v s,
  (self tagged (de_script true) v = Ret (Some s) <-> exists x, v = SvStr x /\ hex_of x s) /\
  (self tagged (de_script false) v = Ret (Some s) <-> v = SvBytes s) /\
  (forall b, self tagged (de_script_ref true) v <> Ret (Some b)).
Proof.
  intros t v s. split; [|split]; cbn [de_script de_script_ref].
  - rewrite str_offers. split.
    + intros (x & [->|[X _]] & K); [|discriminate]. exists x. split; [reflexivity|]. apply vec_spec. destruct (decode_to_vec x); [|discriminate]. cbn in K. congruence.
    + intros (x & -> & K). exists x. split; [now left|]. apply vec_spec in K. now rewrite K.
  - rewrite bytes_offers. split; [intros (b & -> & K); unfold some in K; congruence|]. intros ->. exists s. auto.
  - intros b. cbn [self]. destruct v; discriminate.
Qed.

(** *** Witnesses: a list of hexadecimal texts or of lists of numbers *)
Lemma u8_restores : forall b, bytes_ok b -> Forall2 (restores de_u8) (map (SvU 8) b) b.
Proof. intros b B. induction B as [|x b X B IH]; [constructor|]. cbn [map]. constructor; [|exact IH]. unfold byte_ok in X. unfold restores. apply uint_restores; [now left|exact X|reflexivity]. Qed.
Theorem C56_witness : forall human w ls, stack_of w ls -> short_elements ls -> Forall bytes_ok ls ->
  exists vs, ser_witness human w = Ret (SvSeq vs) /\ restores (de_witness human) (SvSeq vs) w /\
  Forall2 (fun v e => if human then exists s, v = SvStr s /\ spells false s e else v = SvSeq (map (SvU 8) e)) vs ls.
Proof.
  intros human w ls St Sh B. pose proof (PWitness.C12_observe w ls St Sh) as (_ & _ & V & _). unfold ser_witness. rewrite V. cbn [rbind]. eexists. split; [reflexivity|].
  assert (SL : Forall (fun e => lenN e <= 4000000) ls) by exact Sh.
  assert (LL : lenN ls < 2 ^ 64).
  { apply stack_of_layout in St as [_ F]. destruct (room ls F Sh) as (R1 & R2 & _). assert (USIZE = 2 ^ 64) by reflexivity. lia. }
  split.
  - apply (seq_restores _ _ _ _ _ ls).
    + clear - B SL. induction B as [|e ls O B IH]; [constructor|]. apply Forall_inv in SL as SE. apply Forall_inv_tail in SL. cbn [map]. constructor; [|now apply IH]. destruct human.
      * apply str_restores; [now apply hex_ascii|rewrite hex_bytes_len; apply (N.le_lt_trans _ 8000000); [lia|reflexivity]|]. assert (X : decode_to_vec (hex_bytes false e) = Ok e) by (apply vec_spec; now apply hex_bytes_of). now rewrite X.
      * apply (seq_restores _ _ _ _ _ e); [now apply u8_restores| |reflexivity]. unfold lenN in *. rewrite map_length. apply (N.le_lt_trans _ 8000000); [lia|reflexivity].
    + unfold lenN in *. now rewrite map_length.
    + unfold stack_of in St. rewrite St. reflexivity.
  - clear - B. induction B as [|e ls O B IH]; [constructor|]. cbn [map]. constructor; [|exact IH]. destruct human; [|reflexivity]. exists (hex_bytes false e). split; [reflexivity|now apply hex_spells].
Qed.
(** exactly the lists of such elements are read; a panic needs elements of more than 4 GiB *)
Definition element (human : bool) (v : sval) (e : bytes) : Prop :=
  if human then exists s, offers true v s /\ hex_of s e
  else exists ns, v = SvSeq ns /\ Forall2 (fun n x => x < 256 /\ exists width, n = SvU width x) ns e.
Lemma element_reads : forall (human t : bool) v e, self t (if human then RStr true (fun s => Ret (ok_only (decode_to_vec s))) else RSeq de_u8 some) v = Ret (Some e) <-> element human v e.
Proof.
  intros human t v e. destruct human; cbn [element].
  - rewrite str_offers. split; intros (s & O & K); exists s; split; auto.
    + apply vec_spec. destruct (decode_to_vec s); [|discriminate]. cbn in K. congruence.
    + apply vec_spec in K. now rewrite K.
  - rewrite seq_offers. assert (U : forall n x, self t de_u8 n = Ret (Some x) <-> x < 256 /\ exists width, n = SvU width x).
    { intros n x. unfold de_u8. rewrite uint_offers. change (2 ^ 8) with 256. split.
      - intros (wd & y & -> & L & K). assert (y = x) as -> by (unfold some in K; congruence). eauto.
      - intros (L & wd & ->). exists wd, x. auto. }
    split.
    + intros (vs & xs & -> & F & K). assert (xs = e) as -> by (unfold some in K; congruence). exists vs. split; [reflexivity|]. eapply Forall2_impl'; [|exact F]. intros a b. apply U.
    + intros (ns & -> & F). exists ns, e. split; [reflexivity|]. split; [|reflexivity]. eapply Forall2_impl'; [|exact F]. intros a b. apply U.
Qed.
Theorem C56_witness_accepts : forall human tagged v w,
  self tagged (de_witness human) v = Ret (Some w) <-> exists vs ls, v = SvSeq vs /\ Forall2 (element human) vs ls /\ stack_of w ls.
Proof.
  intros human t v w. unfold de_witness. rewrite seq_offers. split.
  - intros (vs & ls & -> & F & K). exists vs, ls. split; [reflexivity|]. split.
    + eapply Forall2_impl'; [|exact F]. intros a b. apply element_reads.
    + unfold stack_of. destruct (from_slice ls); [|discriminate]. cbn [rbind] in K. unfold some in K. congruence.
  - intros (vs & ls & -> & F & K). exists vs, ls. split; [reflexivity|]. split; [eapply Forall2_impl'; [|exact F]; intros a b; apply element_reads|]. unfold stack_of in K. rewrite K. reflexivity.
Qed.
Lemma offs_bound : forall ls k o, In o (offs ls k) -> o + 1 <= k + elements_size ls.
Proof.
  intros ls k o. rewrite elements_size_flat. revert k. induction ls as [|e ls IH]; intros k I; [destruct I|]. cbn [offs In] in I. rewrite LWitness.flat_cons, lenN_app.
  assert (1 <= lenN (elem_bytes e)) by (rewrite elem_bytes_len; unfold cs_encoded_size; repeat (destruct (_ <=? _)); lia).
  destruct I as [->|I]; [lia|]. specialize (IH _ I). lia.
Qed.
Theorem C56_witness_panic : forall human tagged v, self tagged (de_witness human) v = Panic ->
  exists vs ls, v = SvSeq vs /\ Forall2 (element human) vs ls /\ 2 ^ 32 < elements_size ls.
Proof.
  intros human t v. unfold de_witness. cbn [self]. destruct v; try discriminate.
  destruct (read_all _ l) as [[ls|]|] eqn:R; [|discriminate|].
  - cbn [obind]. intro P. exists l, ls. split; [reflexivity|]. split.
    + apply read_all_inv in R. eapply Forall2_impl'; [|exact R]. intros a b. apply element_reads.
    + rewrite from_slice_spec in P. destruct (fitsb (offs ls 0)) eqn:F; [discriminate|].
      destruct (existsb (fun o => U32_MAX <? o) (offs ls 0)) eqn:X.
      * apply existsb_exists in X as (o & I & X). apply N.ltb_lt in X. apply offs_bound in I. unfold U32_MAX in X. change (2 ^ 32) with 4294967296. lia.
      * exfalso. assert (fitsb (offs ls 0) = true); [|congruence]. apply fitsb_spec. rewrite Forall_forall. intros o I. destruct (N.ltb_spec U32_MAX o) as [Y|Y]; [|exact Y].
        assert (existsb (fun o => U32_MAX <? o) (offs ls 0) = true); [|congruence]. apply existsb_exists. exists o. split; [exact I|]. now apply N.ltb_lt.
  - intros _. exfalso. revert R. apply read_all_safe. destruct human.
    + intro v. apply (str_safe bytes true); discriminate.
    + intro v. apply (seq_safe N bytes de_u8); [apply uint_safe|]; discriminate.
Qed.

(** *** Out points *)
Theorem C56_outpoint : forall human o, lenN (op_txid o) = 32 -> bytes_ok (op_txid o) -> op_vout o < 2 ^ 32 ->
  ser_outpoint true o = SvStr (outpoint_display o) /\ restores (de_outpoint human) (ser_outpoint human o) o.
Proof.
  intros human o L B V. split; [reflexivity|]. destruct human; cbn [de_outpoint ser_outpoint].
  - assert (X : outpoint_from_str (outpoint_display o) = Ok o).
    { apply outpoint_from_str_ok. exists (hash_display true false (op_txid o)). repeat split; auto. unfold hash_display. apply hex_bytes_of. apply Forall_rev. exact B. }
    assert (OL : ascii (outpoint_display o) /\ lenN (outpoint_display o) < 2 ^ 64).
    { assert (HA : ascii (hash_display true false (op_txid o))) by (apply hex_ascii; apply Forall_rev; exact B).
      assert (HL : lenN (hash_display true false (op_txid o)) = 64) by (unfold hash_display; rewrite hex_bytes_len; unfold lenN; rewrite rev_length; unfold lenN in L; rewrite L; reflexivity).
      assert (FA : ascii (fmt_u (op_vout o))).
      { unfold ascii. rewrite Forall_forall. intros c I. pose proof (proj1 (fmt_u_canonical (op_vout o))) as N1. destruct (numeral_in _ _ _ _ _ N1 I) as [d A]. unfold digit10 in A. lia. }
      assert (FL : lenN (fmt_u (op_vout o)) <= 10) by (apply fmt_u_len; [apply (N.lt_trans _ (2 ^ 32)); [exact V|reflexivity]|lia]).
      unfold outpoint_display. split.
      - unfold ascii in *. rewrite !Forall_app. repeat split; auto. now repeat constructor.
      - rewrite !lenN_app, HL. change (lenN [58]) with 1. apply (N.le_lt_trans _ 75); [lia|reflexivity]. }
    apply str_restores; [apply OL|apply OL|]. now rewrite X.
  - split.
    + intro t. destruct (arr_self_seq _ 32 (@some bytes) (op_txid o) (op_txid o) B L eq_refl) as [S1 _].
      destruct (arr_self_seq _ 4 (fun b => some (le_val b)) (le_bytes 4 (op_vout o)) (op_vout o) (le_bytes_ok 4 _)) as [_ [S2 _]]; [unfold lenN; now rewrite le_bytes_length|now rewrite le_val_bytes|].
      change (obind (read_fields f_txid f_vout (self t (RArr 32 some)) (self t (RArr 4 (fun b => some (le_val b)))) [(f_txid, ser_slice (op_txid o)); (f_vout, ser_array (le_bytes 4 (op_vout o)))] None None) (fun '(x, y) => some {| op_txid := x; op_vout := y |}) = some o).
      cbn [read_fields]. change (str_eqb f_txid f_txid) with true. change (str_eqb f_vout f_txid) with false. change (str_eqb f_vout f_vout) with true. cbv iota. rewrite S1. cbn [obind]. rewrite S2. cbn [obind some]. now destruct o.
    + intro rest. change (flat (SvStruct ?f)) with (flat_map (fun p => flat (snd p)) f). cbn [flat_map snd]. rewrite app_nil_r. unfold ser_slice, ser_array.
      change (flat (SvSeq ?l)) with (flat_len (lenN l) ++ flat_map flat l). change (flat (SvTuple ?l)) with (flat_map flat l). rewrite !u8_items by (try exact B; apply le_bytes_ok).
      assert (lenN (map (SvU 8) (op_txid o)) = 32) as -> by (unfold lenN in *; now rewrite map_length).
      destruct (bytes_restores _ (fun b => if lenN b =? 32 then some b else none) (op_txid o) (op_txid o)) as [_ C1]; [rewrite L; reflexivity|rewrite L; reflexivity|].
      destruct (uint_restores _ 32 32 (@some N) (op_vout o) (op_vout o)) as [_ C2]; [unfold width; tauto|exact V|reflexivity|].
      specialize (C1 (le_bytes 4 (op_vout o) ++ rest)). cbn [flat] in C1. rewrite L in C1. specialize (C2 rest). change (flat (SvU 32 (op_vout o))) with (le_bytes 4 (op_vout o)) in C2.
      rewrite <- !app_assoc in *. change (compact (RStruct2 _ _ ?a ?b _ _ ?k) ?x) with (obind (compact a x) (fun '(u, y) => obind (compact b y) (fun '(w, z) => some (k u w, z)))). unfold de_hash. rewrite C1. cbn [obind]. rewrite C2. cbn [obind some]. now destruct o.
Qed.

(** A format for machines that stores a structure as the sequence of its fields, and keeps their kinds, cannot read back what it wrote. *)
Theorem C56_outpoint_sequence_refuted : forall o fields, ser_outpoint false o = SvStruct fields -> forall tagged, self tagged (de_outpoint false) (SvSeq (map snd fields)) = Ret None.
Proof. intros o fields E t. cbn [ser_outpoint] in E. assert (fields = [(f_txid, ser_slice (op_txid o)); (f_vout, ser_array (le_bytes 4 (op_vout o)))]) as -> by congruence. reflexivity. Qed.

(** *** Taproot: leaf versions, leaves, trees, branches *)
Theorem C56_leaf : forall human l, leaf_ok l -> leaf_bytes l ->
  restores (de_tap_leaf human) (ser_tap_leaf human l) l /\
  match l with LScript s v => restores de_leaf_version (ser_leaf_version v) v | LHidden _ => True end.
Proof. intros human l O B. split; [now apply tap_leaf_restores|]. destruct l as [s v|h]; [|exact I]. apply leaf_version_restores. apply O. Qed.
Theorem C56_leaf_version_accepts : forall tagged v x, self tagged de_leaf_version v = Ret (Some x) <->
  version_ok x /\ exists width, v = SvU width (match x with TapScript => 0xc0 | Future f => f end).
Proof.
  intros t v x. unfold de_leaf_version. rewrite uint_offers. change (2 ^ 8) with 256. split.
  - intros (w & n & -> & L & K). rewrite (PTaproot.lv_exact n L) in K. unfold r_ok in K. cbn [rbind] in K. destruct (N.eqb_spec (n mod 2) 0); [|discriminate]. cbn [andb] in K. destruct (N.eqb_spec n 0x50); [discriminate|]. cbn [negb ok_only] in K.
    destruct (N.eqb_spec n 0xc0) as [->|]; [assert (x = TapScript) as -> by congruence; split; [exact I|eauto]|]. assert (x = Future n) as -> by congruence. split; [repeat split; assumption|eauto].
  - intros (V & w & ->). destruct (lv_back x V) as [E L]. exists w, (lv_to_consensus x). split; [now destruct x|]. split; [exact L|]. unfold r_ok. rewrite E. reflexivity.
Qed.
(** A tree without hidden parts is read back from formats that keep the kind of each value, for people or for machines. *)
Theorem C56_tree : forall H, (forall m, hash_ok (H m)) -> forall t n human, tree_ok t -> height t <= 128 -> hidden t = false -> Forall (fun x => leaf_bytes (snd x)) (dfs 0 t) -> build H (dfs 0 t) = Ret (Ok [Some n]) ->
  reads_self (de_node H human) (ser_node human n) n /\ reads_self (de_tap_tree H human) (ser_node human n) n.
Proof.
  intros H HO t n human T HT HF LB B. destruct (PTaproot.C34_serde H HO t n T HT HF B) as (_ & TT & ND & PM & _).
  assert (F : Forall (fun p => reads_self de_u8 (SvU 64 (fst p)) (fst p) /\ reads_self (de_tap_leaf human) (ser_tap_leaf human (snd p)) (snd p)) (node_serialize n)).
  { rewrite Forall_forall. intros [d l] I. assert (J : In (d, l) (dfs 0 t)) by (now apply (Permutation.Permutation_in _ PM)). cbn [fst snd]. split.
    - apply (uint_restores _ 8 64); [now left| |reflexivity].
      assert (X : forall t k x, In x (dfs k t) -> fst x <= k + height t).
      { clear. induction t as [l|a IA b IB]; intros k x I; cbn [dfs height] in *; [destruct I as [<-|[]]; cbn [fst]; lia|]. apply in_app_iff in I as [I|I]; [apply IA in I|apply IB in I]; lia. }
      specialize (X t 0 (d, l) J). cbn [fst] in X. change (2 ^ 8) with 256. lia.
    - apply tap_leaf_restores.
      + pose proof (proj2 (LTaproot.dfs_leaves_ok t 0) T) as X. rewrite Forall_forall in X. exact (X _ J).
      + rewrite Forall_forall in LB. exact (LB _ J). }
  split.
  - apply (pairs_self _ _ _ de_u8 (de_tap_leaf human) (fun l => r_ok (node_deserialize H l)) (SvU 64) (ser_tap_leaf human) (node_serialize n) n F). cbv beta. rewrite ND. reflexivity.
  - apply (pairs_self _ _ _ de_u8 (de_tap_leaf human) (fun l => obind (r_ok (node_deserialize H l)) (fun n => Ret (ok_only (tap_tree_of n)))) (SvU 64) (ser_tap_leaf human) (node_serialize n) n F).
    cbv beta. rewrite ND. cbn [r_ok rbind ok_only obind]. rewrite TT. reflexivity.
Qed.
(** What is read is a tree: the listing of depths and leaves that was delivered determines it, and a TapTree has no hidden part. *)
Theorem C56_tree_accepts : forall H tagged human v n, self tagged (de_tap_tree H human) v = Ret (Some n) -> ni_hidden n = false /\ self tagged (de_node H human) v = Ret (Some n).
Proof.
  intros H t human v n. unfold de_tap_tree, de_node. cbn [self]. destruct v; try discriminate. destruct (read_pairs _ _ l) as [[ps|]|]; try discriminate. cbn [obind].
  destruct (r_ok (node_deserialize H ps)) as [[m|]|]; try discriminate. cbn [obind]. unfold tap_tree_of. destruct (ni_hidden m) eqn:E; [discriminate|]. cbn [ok_only]. intro K. assert (m = n) as -> by congruence. auto.
Qed.
(** The compact format never reads a tree back when the length of its first script is not a multiple of 256: the depth is
    written in eight bytes and read from one. *)
Theorem C56_tree_compact : forall H n s v path ls, ni_leaves n = mk_leaf (LScript s v) path :: ls -> lenN path < 256 -> lenN s mod 256 <> 0 -> lenN (flat (ser_node false n)) < 2 ^ 56 ->
  compact (de_node H false) (flat (ser_node false n)) = Ret None.
Proof.
  intros H n s v path ls LV LP LM LF. remember (flat_map (fun '(d, l) => [SvU 64 d; ser_tap_leaf false l]) (map (fun l => (lenN (ln_branch l), ln_leaf l)) ls)) as tl eqn:TL.
  assert (E : ser_node false n = SvSeq (SvU 64 (lenN path) :: SvVariant 0 (lit "Script"%string) [SvBytes s; ser_leaf_version v] :: tl)).
  { unfold ser_node, node_serialize. rewrite LV. cbn [map flat_map app ln_branch ln_leaf ser_tap_leaf ser_script]. now rewrite TL. }
  assert (TB : lenN tl <= lenN (flat_map flat tl)).
  { rewrite TL. clear. induction ls as [|l ls IH]; [reflexivity|]. cbn [map flat_map app]. rewrite !lenN_cons, !lenN_app. change (lenN (flat (SvU 64 ?x))) with 8. lia. }
  rewrite E in *. clear TL E LV.
  change (flat (SvSeq ?l)) with (flat_len (lenN l) ++ flat_map flat l) in *. cbn [flat_map] in *.
  change (flat (SvU 64 (lenN path))) with (le_bytes 8 (lenN path)) in *. change (flat (SvVariant 0 ?nm [SvBytes s; ?w])) with (le_bytes 4 0 ++ (flat_len (lenN s) ++ s) ++ flat w ++ []) in *.
  assert (P : le_bytes 8 (lenN path) = [lenN path; 0; 0; 0; 0; 0; 0; 0]).
  { cbn [le_bytes]. rewrite N.mod_small by exact LP. rewrite N.div_small by exact LP. reflexivity. }
  rewrite P in *. remember (lenN (SvU 64 (lenN path) :: SvVariant 0 (lit "Script"%string) [SvBytes s; ser_leaf_version v] :: tl)) as cnt eqn:CNT.
  remember (flat_map flat tl) as rest eqn:REST. remember (flat (ser_leaf_version v)) as w eqn:W.
  assert (CB : cnt < 2 ^ 64).
  { assert (cnt = 2 + lenN tl) by (subst cnt; rewrite !lenN_cons; lia). clear - H0 TB LF. rewrite !lenN_app in LF. apply (N.lt_trans _ (2 ^ 56 + 2)); [lia|reflexivity]. }
  unfold de_node. change (compact (RPairs ?r1 ?r2 ?k) ?b) with (obind (rd_uint 64 b) (fun '(n, b1) => obind (rd_pairs (compact r1) (compact r2) (N.to_nat n) b1) (fun '(l, b2) => keep b2 (k l)))).
  rewrite rd_len by exact CB. cbn [obind some]. assert (exists m, N.to_nat cnt = S (S m)) as [m ->] by (subst cnt; unfold lenN; rewrite Nat2N.id; cbn [List.length]; eauto).
  cbn [rd_pairs]. change ([lenN path; 0; 0; 0; 0; 0; 0; 0] ++ ?x) with ([lenN path] ++ [0; 0; 0; 0; 0; 0; 0] ++ x).
  assert (U : forall x, compact de_u8 ([lenN path] ++ x) = some (lenN path, x)).
  { intro x. destruct (uint_restores N 8 8 some (lenN path) (lenN path) ltac:(now left) ltac:(exact LP) eq_refl) as [_ C]. specialize (C x). change (flat (SvU 8 (lenN path))) with [lenN path mod 256] in C. rewrite N.mod_small in C by exact LP. exact C. }
  rewrite U. cbn [obind some].
  assert (LS : flat_len (lenN s) = (lenN s mod 256) :: le_bytes 7 (lenN s / 256)) by reflexivity.
  remember (le_bytes 7 (lenN s / 256) ++ s ++ w ++ rest) as Y eqn:HY.
  assert (Q : [0; 0; 0; 0; 0; 0; 0] ++ (le_bytes 4 0 ++ (flat_len (lenN s) ++ s) ++ w ++ []) ++ rest = [0; 0; 0; 0] ++ [0; 0; 0; 0; 0; 0; 0; lenN s mod 256] ++ Y).
  { rewrite LS, app_nil_r, HY. change (le_bytes 4 0) with [0; 0; 0; 0]. cbn [app]. now rewrite <- !app_assoc. }
  assert (YB : lenN Y < 2 ^ 56).
  { rewrite LS in LF. rewrite HY. rewrite app_nil_r in LF. repeat rewrite ?lenN_app, ?lenN_cons in LF. rewrite !lenN_app. lia. }
  rewrite Q. unfold de_tap_leaf. clear - LM YB.
  change (compact (REnum2 _ ?a ?b _ ?c ?k1 ?k2) ?x) with (obind (rd_uint 32 x) (fun '(i, y) =>
    if i =? 0 then obind (compact a y) (fun '(u, z) => obind (compact b z) (fun '(t, q) => some (k1 u t, q)))
    else if i =? 1 then obind (compact c y) (fun '(u, z) => some (k2 u, z)) else none)).
  unfold rd_uint at 1. rewrite take_exact by reflexivity. cbn [obind some]. change (le_val [0; 0; 0; 0] =? 0) with true. cbv iota.
  cbn [de_script]. change (compact (RBytes ?k) ?x) with (obind (rd_block x) (fun '(u, z) => keep z (k u))).
  assert (R : rd_block ([0; 0; 0; 0; 0; 0; 0; lenN s mod 256] ++ Y) = none); [|rewrite R; reflexivity].
  unfold rd_block, rd_uint. rewrite take_exact by reflexivity. cbn [obind some]. unfold take. destruct (N.ltb_spec (lenN Y) (le_val [0; 0; 0; 0; 0; 0; 0; lenN s mod 256])) as [|X]; [reflexivity|].
  exfalso. cbn [le_val] in X. remember (lenN s mod 256) as z. change (2 ^ 56) with 72057594037927936 in YB. lia.
Qed.
(** Where it is one, another tree can come back without an error: here the leaf version changes. *)
Theorem C56_tree_compact_refuted : forall H, exists t n m rest, tree_ok t /\ hidden t = false /\ build H (dfs 0 t) = Ret (Ok [Some n]) /\
  compact (de_tap_tree H false) (flat (ser_node false n)) = Ret (Some (m, rest)) /\ map ln_leaf (ni_leaves m) <> map ln_leaf (ni_leaves n).
Proof.
  intro H. exists (Leaf (LScript [] TapScript)), (new_leaf H [] TapScript), (new_leaf H [] (Future 0)). eexists. split; [split; [reflexivity|exact I]|]. split; [reflexivity|]. split; [reflexivity|].
  split; [reflexivity|discriminate].
Qed.
Theorem C56_branch : forall human b, Forall hash_ok b -> lenN b <= 128 -> restores (de_branch human) (ser_branch human b) b.
Proof.
  intros human b F L. apply (seq_restores _ _ _ _ _ b).
  - clear L. induction F as [|h b [O1 O2] F IH]; [constructor|]. cbn [map]. constructor; [|exact IH]. apply hash_restores; [exact O2|exact O1|reflexivity].
  - unfold lenN in *. rewrite map_length. apply (N.le_lt_trans _ 128); [lia|reflexivity].
  - unfold branch_from_collection, MAX_NODE_COUNT. destruct (N.ltb_spec 128 (lenN b)); [lia|reflexivity].
Qed.
Theorem C56_branch_accepts : forall human tagged v b, self tagged (de_branch human) v = Ret (Some b) <->
  lenN b <= 128 /\ exists vs, v = SvSeq vs /\ Forall2 (fun v h => self tagged (de_hash 32 false human) v = Ret (Some h)) vs b.
Proof.
  intros human t v b. unfold de_branch. rewrite seq_offers. unfold branch_from_collection, MAX_NODE_COUNT. split.
  - intros (vs & xs & -> & F & K). destruct (N.ltb_spec 128 (lenN xs)); [discriminate|]. cbn [ok_only] in K. assert (xs = b) as -> by congruence. eauto.
  - intros (L & vs & -> & F). exists vs, b. split; [reflexivity|]. split; [exact F|]. destruct (N.ltb_spec 128 (lenN b)); [lia|reflexivity].
Qed.

(** *** Arrays of bounded length *)
Theorem C56_array_vec : forall T (ser : T -> sval) (de : req T) cap l, Forall (fun x => restores de (ser x) x) l -> lenN l <= cap -> cap < 2 ^ 64 ->
  restores (de_array_vec cap de) (ser_array_vec ser l) l.
Proof.
  intros T ser de cap l F L C. apply (seq_restores _ _ _ _ _ l).
  - clear L. induction F; [constructor|]. cbn [map]. constructor; assumption.
  - unfold lenN in *. rewrite map_length. lia.
  - destruct (N.ltb_spec cap (lenN l)); [lia|reflexivity].
Qed.
Theorem C56_array_vec_accepts : forall T (de : req T) cap tagged v l, self tagged (de_array_vec cap de) v = Ret (Some l) <->
  lenN l <= cap /\ exists vs, v = SvSeq vs /\ Forall2 (fun v x => self tagged de v = Ret (Some x)) vs l.
Proof.
  intros T de cap t v l. unfold de_array_vec. rewrite seq_offers. split.
  - intros (vs & xs & -> & F & K). destruct (N.ltb_spec cap (lenN xs)); [discriminate|]. assert (xs = l) as -> by (unfold some in K; congruence). eauto.
  - intros (L & vs & -> & F). exists vs, l. split; [reflexivity|]. split; [exact F|]. destruct (N.ltb_spec cap (lenN l)); [lia|reflexivity].
Qed.

(** *** Nothing a format delivers makes these panic *)
Theorem C56_safe : forall human,
  (forall len backward, safe (de_hash len backward human)) /\ safe (de_script human) /\ safe (de_script_ref human) /\ safe (de_outpoint human) /\
  safe de_leaf_version /\ safe (de_tap_leaf human) /\ (forall H, safe (de_node H human) /\ safe (de_tap_tree H human)) /\ safe (de_branch human) /\
  (forall T cap (de : req T), safe de -> safe (de_array_vec cap de)).
Proof.
  intro human. split; [intros; apply hash_safe|]. split; [apply script_safe|]. split; [destruct human; [apply str_safe|apply bytes_safe]; discriminate|]. split; [apply outpoint_safe|].
  split; [apply leaf_version_safe|]. split; [apply tap_leaf_safe|]. split; [intro; apply node_safe|]. split.
  - apply seq_safe; [apply hash_safe|discriminate].
  - intros T cap de S. apply seq_safe; [exact S|]. intro l. destruct (_ <? _); discriminate.
Qed.

(** *** Concrete cases *)
Example C56_outpoint_case : let o := {| op_txid := repeat 171 32; op_vout := 7 |} in
  lenN (op_txid o) = 32 /\ bytes_ok (op_txid o) /\ self true (de_outpoint false) (ser_outpoint false o) = Ret (Some o) /\
  compact (de_outpoint false) (flat (ser_outpoint false o) ++ [9]) = Ret (Some (o, [9])) /\ lenN (flat (ser_outpoint false o)) = 44.
Proof. repeat split; try reflexivity. repeat constructor. Qed.
Example C56_tx_case : tx_ok ex_tx /\ self false (de_consensus tx_dec true) (ser_consensus tx_encode true ex_tx) = Ret (Some ex_tx).
Proof. split; [exact ex_tx_ok|]. destruct C56_consensus as [T _]. destruct T as [T _]. destruct (T ex_tx ex_tx_ok ltac:(vm_compute; reflexivity) true) as (_ & _ & [R _] & _). apply R. Qed.
Example C56_witness_case : exists w, stack_of w [[1; 2]; []] /\ short_elements [[1; 2]; []] /\
  ser_witness true w = Ret (SvSeq [SvStr (lit "0102"%string); SvStr []]) /\ self true (de_witness true) (SvSeq [SvStr (lit "0102"%string); SvStr []]) = Ret (Some w).
Proof. eexists. split; [reflexivity|]. split; [repeat constructor; discriminate|]. split; reflexivity. Qed.
Example C56_tree_case : let t := Branch (Leaf (LScript [0x51] TapScript)) (Leaf (LScript [0x52; 0x53] (Future 0xc2))) in
  tree_ok t /\ hidden t = false /\ Forall (fun x => leaf_bytes (snd x)) (dfs 0 t) /\ exists n, build (fun _ => repeat 5 32) (dfs 0 t) = Ret (Ok [Some n]) /\
  self true (de_tap_tree (fun _ => repeat 5 32) true) (ser_node true n) = Ret (Some n) /\ compact (de_node (fun _ => repeat 5 32) false) (flat (ser_node false n)) = Ret None.
Proof.
  split; [repeat split; discriminate|]. split; [reflexivity|]. split; [repeat constructor|]. eexists. split; [reflexivity|]. split; reflexivity.
Qed.

Print Assumptions C56_hash.
Print Assumptions C56_hash_accepts.
Print Assumptions C56_consensus.
Print Assumptions C56_script.
Print Assumptions C56_script_accepts.
Print Assumptions C56_witness.
Print Assumptions C56_witness_accepts.
Print Assumptions C56_witness_panic.
Print Assumptions C56_outpoint.
Print Assumptions C56_outpoint_sequence_refuted.
Print Assumptions C56_leaf.
Print Assumptions C56_leaf_version_accepts.
Print Assumptions C56_tree.
Print Assumptions C56_tree_accepts.
Print Assumptions C56_tree_compact.
Print Assumptions C56_tree_compact_refuted.
Print Assumptions C56_branch.
Print Assumptions C56_branch_accepts.
Print Assumptions C56_array_vec.
Print Assumptions C56_array_vec_accepts.
Print Assumptions C56_safe.
