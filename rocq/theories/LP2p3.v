(** What the payload decoders accept. *)
From Coq Require Import String.
From Verif Require Import Base MDec LDec LDec2 LPrefix LCompact LCodec MWitness SWitness LWitness LWitDec MTx MAmount MText MPmt MBip152 LTx2 LWire LPmt3 LBip152 LTaproot LBip32b LSha2b MP2p MP2pMsg SWire SPmt SBip152 SP2p LP2p LP2p2.
Local Open Scope N_scope.

(** A lawful decoder and the relation between values and the bytes read as them. *)
Definition rlaws {A E} (D : decoder A E) (rel : A -> bytes -> Prop) (gd : (st D -> Prop) * (st D -> bytes -> outcome A E)) : Prop :=
  lawful D (fst gd) (snd gd) /\ (forall a p t, rel a p -> snd gd (init D) (p ++ t) = Done a t) /\
  (forall l a r, bytes_ok l -> snd gd (init D) l = Done a r -> exists p, l = p ++ r /\ rel a p) /\ no_boom D (snd gd).
Definition rcodec {A E} (D : decoder A E) (rel : A -> bytes -> Prop) : Prop := exists gd, rlaws D rel gd.

Lemma codec_rcodec : forall A E (D : decoder A E) enc wf, codec D enc wf -> rcodec D (fun a p => wf a /\ p = enc a).
Proof.
  intros A E D enc wf (g & den & L & NT & RT & CN & NB). exists (g, den). split; [exact L|]. split; [|split; [|exact NB]].
  - intros a p t [W ->]. now apply RT.
  - intros l a r B H. destruct (CN l a r B H) as [-> W]. exists (enc a). auto.
Qed.
Lemma rnewtype : forall A E B F (D : decoder A E) (me : E -> F) (f : A -> result B F) rel, rcodec D rel ->
  rcodec (newtype_dec D me f) (fun b p => exists a, rel a p /\ f a = Ok b).
Proof.
  intros A E B F D me f rel ([g den] & L & RT & CN & NB). cbn [fst snd] in *. exists (g, nt_den D me f den). split; [now apply newtype_lawful|]. cbn [fst snd]. split; [|split].
  - intros b p t (a & R & Hf). unfold nt_den. cbn [init newtype_dec]. rewrite (RT a p t R). cbn [nt_out]. now rewrite Hf.
  - intros l b r Hok H. unfold nt_den in H. cbn [init newtype_dec] in H. destruct (den (init D) l) eqn:Hd; cbn [nt_out] in H; try discriminate.
    destruct (f v) eqn:Hf; inv H. destruct (CN l v r Hok Hd) as (p & -> & R). eauto.
  - intros l Hok Hl. unfold nt_den. cbn [init newtype_dec]. specialize (NB l Hok Hl).
    destruct (den (init D) l); cbn [nt_out]; try discriminate; auto. destruct (f v); discriminate.
Qed.
Lemma rcodec_ext : forall A E (D : decoder A E) rel rel', rcodec D rel -> (forall a p, rel a p <-> rel' a p) -> rcodec D rel'.
Proof.
  intros A E D rel rel' ([g den] & L & RT & CN & NB) H. exists (g, den). split; [exact L|]. split; [|split; [|exact NB]].
  - intros a p t R. apply RT. now apply H.
  - intros l a r B Hd. destruct (CN l a r B Hd) as (p & -> & R). exists p. split; [auto|]. now apply H.
Qed.
Lemma wrap_rcodec : forall A E (D : decoder A E) enc wf (c : A -> message) (rel : message -> bytes -> Prop), codec D enc wf ->
  (forall m p, rel m p <-> exists a, m = c a /\ wf a /\ p = enc a) -> rcodec (wrap D c) rel.
Proof.
  intros A E D enc wf c rel H K. unfold wrap. eapply rcodec_ext; [apply rnewtype, codec_rcodec, H|].
  intros m p. rewrite K. split.
  - intros (a & [W ->] & Hf). injection Hf as <-. eauto.
  - intros (a & -> & W & ->). exists a. auto.
Qed.

(** *** Text in byte vectors *)
Lemma utf8_codec : codec utf8_dec (fun s => prefixed (as_bytes s)) (fun s => exists b, utf8 s b /\ lenN b <= MAX_LEN).
Proof.
  unfold utf8_dec. eapply newtype_codec; [apply bytevec_codec; reflexivity| |].
  - intros s (b & U & L). exists b. split; [split; [exact L|now apply (utf8_ok s)]|]. rewrite (from_utf8_complete s b U). split; [reflexivity|]. now rewrite <- (utf8_bytes s b U).
  - intros b s [W1 W2] H. destruct (from_utf8 b) as [s'|] eqn:E; inv H. apply from_utf8_spec in E; [|exact W2]. split; [eauto|]. now rewrite <- (utf8_bytes _ b E).
Qed.
Lemma reason_codec : codec reason_dec (fun r => [reject_code r]) (fun _ => True).
Proof.
  unfold reason_dec. eapply newtype_codec; [apply (array_codec 1); lia| |].
  - intros f _. exists [reject_code f]. split; [apply is_arr1; destruct f; reflexivity|]. rewrite le_val1. split; [|reflexivity]. now destruct f.
  - intros b f W H. destruct (arr1 b W) as (x & -> & X1 & X2 & _). cbv zeta in H. rewrite X2 in H. split; [exact I|]. clear W X1 X2. unfold reject_of in H.
    repeat match type of H with context [x =? ?k] => destruct (N.eqb_spec x k) as [E0|_]; [subst x; now inv H|] end. discriminate.
Qed.
Definition reject_ok (r : reject) : Prop :=
  hash_ok (r_hash r) /\ (exists b, utf8 (r_message r) b /\ lenN b <= MAX_LEN) /\ (exists b, utf8 (r_reason r) b /\ lenN b <= MAX_LEN).
Lemma reject_codec : codec reject_dec reject_encode reject_ok.
Proof.
  unfold reject_dec. eapply newtype_codec; [apply dec4_codec; [apply bytevec_codec; reflexivity|apply reason_codec|apply bytevec_codec; reflexivity|apply (array_codec 32); lia]| |].
  - intros [m c t h] (W1 & (bm & U1 & L1) & (bt & U2 & L2)). cbn [r_message r_ccode r_reason r_hash] in *. exists (bm, c, bt, h). cbn [fst snd]. split; [|split].
    + split; [split; [exact L1|now apply (utf8_ok m)]|]. split; [exact I|]. split; [split; [exact L2|now apply (utf8_ok t)]|exact W1].
    + now rewrite (from_utf8_complete m bm U1), (from_utf8_complete t bt U2).
    + unfold reject_encode, prefixed. cbn [r_message r_ccode r_reason r_hash]. rewrite <- (utf8_bytes m bm U1), <- (utf8_bytes t bt U2). now rewrite <- !app_assoc.
  - intros [[[m c] t] h] r ([L1 B1] & _ & [L2 B2] & W) H. cbn [fst snd] in *. destruct (from_utf8 m) as [m'|] eqn:E1; [|discriminate]. destruct (from_utf8 t) as [t'|] eqn:E2; inv H.
    apply from_utf8_spec in E1; [|exact B1]. apply from_utf8_spec in E2; [|exact B2]. split; [split; [exact W|split; [exists m; split; [exact E1|exact L1]|exists t; split; [exact E2|exact L2]]]|].
    unfold reject_encode, prefixed. cbn [r_message r_ccode r_reason r_hash]. rewrite <- (utf8_bytes _ m E1), <- (utf8_bytes _ t E2). now rewrite <- !app_assoc.
Qed.

(** *** Version: the decoder forgets which byte other than zero stood for the relay flag *)
Lemma wire_address_eq : forall a, address_encode a = wire_address a.
Proof. intros a. unfold address_encode, wire_address. now rewrite octets_groups. Qed.
Lemma prefixed_wire : forall b, prefixed b = wire_bytes b.
Proof. intros b. unfold prefixed, wire_bytes. now rewrite wire_compact_eq. Qed.
Lemma twos_arr : forall n z, is_array (N.of_nat n) (twos n z).
Proof. intros. split; [apply twos_len|apply le_bytes_ok]. Qed.
Lemma version_rcodec : rcodec version_dec reads_version.
Proof.
  unfold version_dec. eapply rcodec_ext.
  - apply rnewtype, codec_rcodec. apply dec2_codec; [apply dec3_codec; [apply u32_codec|apply services_codec|apply (array_codec 8); lia]|].
    apply dec6_codec; [apply address_codec|apply address_codec|apply (array_codec 8); lia|apply utf8_codec|apply (array_codec 4); lia|apply (array_codec 1); lia].
  - intros v p. split.
    + intros ([[[vv s] t] [[[[[r sd] n] ua] h] rl]] & [[(W1 & W2 & W3) W4] ->] & Hv). cbn [fst snd] in *. destruct W4 as (W4 & W5 & W6 & (bu & U & UL) & W8 & W9). injection Hv as <-.
      destruct (i_from_le_ok 8 t) as [T1 T2]; [lia|apply W3|apply W3|]. destruct (i_from_le_ok 4 h) as [H1 H2]; [lia|apply W8|apply W8|].
      destruct (le_back 8 n W6) as [N1 N2]. destruct (arr1 rl W9) as (x & -> & X1 & _ & X3). unfold reads_version.
      cbn [v_version v_services v_timestamp v_receiver v_sender v_nonce v_user_agent v_start_height v_relay].
      split; [exact W1|]. split; [exact W2|]. split; [exact T1|]. split; [exact W4|]. split; [exact W5|]. split; [exact N2|]. split; [exact H1|].
      exists bu, x. split; [exact U|]. split; [exact UL|]. split; [exact X1|]. split; [cbn [hd]; destruct (N.eqb_spec x 0); cbn [negb]; split; congruence|].
      rewrite T2, H2, N1, <- !wire_address_eq, <- prefixed_wire, (utf8_bytes _ _ U). now rewrite <- !app_assoc.
    + destruct v as [vv s t r sd n ua h rl]. unfold reads_version. cbn [v_version v_services v_timestamp v_receiver v_sender v_nonce v_user_agent v_start_height v_relay].
      intros (W1 & W2 & W3 & W4 & W5 & W6 & W7 & bu & x & U & UL & X1 & X2 & ->).
      exists ((vv, s, twos 8 t), (r, sd, le_bytes 8 n, ua, twos 4 h, [x])). cbn [fst snd hd]. split; [split; [split|]|].
      * split; [exact W1|split; [exact W2|apply (twos_arr 8)]].
      * split; [exact W4|]. split; [exact W5|]. split; [apply (le_arr 8)|]. split; [eauto|]. split; [apply (twos_arr 4)|now apply is_arr1].
      * rewrite <- !wire_address_eq, <- prefixed_wire, (utf8_bytes _ _ U). now rewrite <- !app_assoc.
      * rewrite (twos_back 8) by (try lia; exact W3). rewrite (twos_back 4) by (try lia; exact W7). rewrite le_val_bytes by exact W6.
        do 2 f_equal. destruct rl; destruct (N.eqb_spec x 0); cbn [negb]; auto; exfalso; intuition congruence.
Qed.

(** *** Kinds *)
Definition kind_of (m : message) : option kind :=
  match m with
  | MBare _ | MUnknown _ _ => None
  | MVersion _ => Some KVersion | MAddr _ => Some KAddr | MInv _ => Some KInv | MGetData _ => Some KGetData | MNotFound _ => Some KNotFound
  | MGetBlocks _ => Some KGetBlocks | MGetHeaders _ => Some KGetHeaders | MTx _ => Some KTx | MBlock _ => Some KBlock | MHeaders _ => Some KHeaders
  | MPing _ => Some KPing | MPong _ => Some KPong | MMerkleBlock _ => Some KMerkleBlock | MFilterLoad _ => Some KFilterLoad | MFilterAdd _ => Some KFilterAdd
  | MGetCFilters _ => Some KGetCFilters | MCFilter _ => Some KCFilter | MGetCFHeaders _ => Some KGetCFHeaders | MCFHeaders _ => Some KCFHeaders
  | MGetCFCheckpt _ => Some KGetCFCheckpt | MCFCheckpt _ => Some KCFCheckpt | MSendCmpct _ => Some KSendCmpct | MCmpctBlock _ => Some KCmpctBlock
  | MGetBlockTxn _ => Some KGetBlockTxn | MBlockTxn _ => Some KBlockTxn | MAlert _ => Some KAlert | MReject _ => Some KReject | MFeeFilter _ => Some KFeeFilter
  | MAddrV2 _ => Some KAddrV2 | MSendTxRcnCl _ => Some KSendTxRcnCl | MFeature _ => Some KFeature
  end.
Definition kreads (k : kind) (m : message) (p : bytes) : Prop := kind_of m = Some k /\ reads m p.

Lemma addr_list_eq : forall l, slice_encode addr_v1_encode l = wire_list (fun x => le_bytes 4 (fst x) ++ wire_address (snd x)) l.
Proof. intros. apply wire_list_eq. intros x. unfold addr_v1_encode. now rewrite wire_address_eq. Qed.
Lemma wire_inventory_eq : forall i, inventory_encode i = wire_inventory i.
Proof. now destruct i. Qed.
Lemma inv_list_eq : forall l, slice_encode inventory_encode l = wire_list wire_inventory l.
Proof. intros. apply wire_list_eq. apply wire_inventory_eq. Qed.
Lemma hash_list_eq : forall l, slice_encode (fun h : bytes => h) l = wire_list (fun h => h) l.
Proof. intros. now apply wire_list_eq. Qed.
Lemma tx_list_eq : forall l, slice_encode tx_encode l = wire_list tx_encode l.
Proof. intros. now apply wire_list_eq. Qed.
Lemma header_list_eq : forall l, slice_encode net_header_encode l = wire_list (fun x => wire_header (fst x) ++ [snd x]) l.
Proof. intros. apply wire_list_eq. reflexivity. Qed.
Lemma wire_addr_v2_eq : forall a, addr_v2_ok a -> addr_v2_encode a = wire_addr_v2 a.
Proof.
  intros a W. destruct a; cbn [addr_v2_ok] in W; cbn [addr_v2_encode wire_addr_v2]; unfold wire_bytes; rewrite <- wire_compact_eq.
  - destruct W as [-> _]. reflexivity.
  - rewrite groups_len, octets_groups. destruct W as [-> _]. reflexivity.
  - destruct W as [-> _]. reflexivity.
  - destruct W as [-> _]. reflexivity.
  - rewrite groups_len, octets_groups. destruct W as [-> _]. reflexivity.
  - reflexivity.
Qed.
Lemma wire_list_cond : forall A (f h : A -> bytes) (ok : A -> Prop) xs, Forall ok xs -> (forall x, ok x -> f x = h x) -> slice_encode f xs = wire_list h xs.
Proof.
  intros A f h ok xs F K. unfold slice_encode, wire_list. rewrite <- wire_compact_eq. f_equal. rewrite flat_map_concat_map. f_equal.
  apply map_ext_in. intros x X. apply K. rewrite Forall_forall in F. now apply F.
Qed.
Lemma addr_v2_list_eq : forall l, Forall addr_v2_msg_ok l -> slice_encode addr_v2_msg_encode l =
  wire_list (fun x => le_bytes 4 (am_time x) ++ wire_compact (am_services x) ++ wire_addr_v2 (am_addr x) ++ be_bytes 2 (am_port x)) l.
Proof.
  intros l F. eapply wire_list_cond; [exact F|]. intros x (_ & _ & W & _). unfold addr_v2_msg_encode. now rewrite wire_compact_eq, wire_addr_v2_eq by exact W.
Qed.
Lemma reject_eq : forall r p, reads_reject r p <-> reject_ok r /\ p = reject_encode r.
Proof.
  intros r p. unfold reads_reject, reject_ok, reject_encode. rewrite !prefixed_wire. split.
  - intros (W & m & t & U1 & U2 & L1 & L2 & ->). split; [split; [exact W|split; [exists m; auto|exists t; auto]]|]. now rewrite <- (utf8_bytes _ m U1), <- (utf8_bytes _ t U2).
  - intros [(W & (m & U1 & L1) & (t & U2 & L2)) ->]. split; [exact W|]. exists m, t. rewrite <- (utf8_bytes _ m U1), <- (utf8_bytes _ t U2). auto.
Qed.

Ltac kind C := eapply (wrap_rcodec _ _ _ _ _ _ _ C); intros m p; unfold kreads; split;
  [intros [K R]; destruct m; try discriminate K; clear K; cbn [reads] in R | intros (a & -> & W & ->); split; [reflexivity|cbn [reads]]].
Lemma kind_rcodec : forall k, rcodec (kind_dec k) (kreads k).
Proof.
  intros []; unfold kind_dec.
  - unfold wrap. eapply rcodec_ext; [apply rnewtype, version_rcodec|]. intros m p. unfold kreads. split.
    + intros (a & R & H). injection H as <-. split; [reflexivity|exact R].
    + intros [K R]. destruct m; try discriminate K. eexists. split; [exact R|reflexivity].
  - kind (vec_codec _ _ _ _ _ MAX_VEC_SIZE eq_refl addr_v1_codec).
    + exists l. rewrite addr_list_eq. split; [reflexivity|exact R].
    + split; [exact W|apply addr_list_eq].
  - kind (vec_codec _ _ _ _ _ MAX_VEC_SIZE eq_refl inventory_codec).
    + exists l. rewrite inv_list_eq. split; [reflexivity|exact R].
    + split; [exact W|apply inv_list_eq].
  - kind (vec_codec _ _ _ _ _ MAX_VEC_SIZE eq_refl inventory_codec).
    + exists l. rewrite inv_list_eq. split; [reflexivity|exact R].
    + split; [exact W|apply inv_list_eq].
  - kind (vec_codec _ _ _ _ _ MAX_VEC_SIZE eq_refl inventory_codec).
    + exists l. rewrite inv_list_eq. split; [reflexivity|exact R].
    + split; [exact W|apply inv_list_eq].
  - kind get_blocks_codec.
    + exists g. destruct R as (R1 & R2 & R3 & ->). split; [reflexivity|]. split; [split; auto|]. unfold get_blocks_encode. now rewrite hash_list_eq.
    + destruct W as (R1 & R2 & R3). split; [exact R1|]. split; [exact R2|]. split; [exact R3|]. unfold get_blocks_encode. now rewrite hash_list_eq.
  - kind get_blocks_codec.
    + exists g. destruct R as (R1 & R2 & R3 & ->). split; [reflexivity|]. split; [split; auto|]. unfold get_blocks_encode. now rewrite hash_list_eq.
    + destruct W as (R1 & R2 & R3). split; [exact R1|]. split; [exact R2|]. split; [exact R3|]. unfold get_blocks_encode. now rewrite hash_list_eq.
  - kind tx_codec_ok; [eauto|auto].
  - kind block_codec_ok.
    + exists b. rewrite tx_list_eq. eauto.
    + rewrite tx_list_eq. auto.
  - kind (vec_codec _ _ _ _ _ MAX_VEC_SIZE eq_refl net_header_codec).
    + exists l. rewrite header_list_eq. split; [reflexivity|exact R].
    + split; [exact W|apply header_list_eq].
  - kind nonce_codec; [eauto|auto].
  - kind nonce_codec; [eauto|auto].
  - kind mb_codec.
    + destruct R as (R1 & R2 & R3 & w & R4 & ->). apply encode_wire in R4 as ->. exists m. split; [reflexivity|]. split; [split; [exact R1|split; auto]|reflexivity].
    + destruct W as (W1 & W2 & W3). repeat (split; [assumption|]). exists (pmt_encode (mb_txn a)). split; [now apply encode_wire|reflexivity].
  - kind filter_load_codec.
    + exists f. destruct R as (R1 & R2 & R3 & ->). split; [reflexivity|]. split; [split; auto|]. unfold filter_load_encode. rewrite prefixed_wire. now destruct (fl_flags f).
    + destruct W as (R1 & R2 & R3). split; [exact R1|]. split; [exact R2|]. split; [exact R3|]. unfold filter_load_encode. rewrite prefixed_wire. now destruct (fl_flags a).
  - kind blob_codec.
    + exists b. rewrite prefixed_wire. auto.
    + rewrite prefixed_wire. auto.
  - kind get_cf_codec.
    + exists g. destruct R as (R1 & R2 & R3 & ->). split; [reflexivity|]. split; [split; auto|reflexivity].
    + destruct W as (R1 & R2 & R3). repeat (split; [assumption|]). reflexivity.
  - kind cfilter_codec.
    + exists c. destruct R as (R1 & R2 & R3 & ->). split; [reflexivity|]. split; [split; auto|]. unfold cfilter_encode. now rewrite prefixed_wire.
    + destruct W as (R1 & R2 & R3). repeat (split; [assumption|]). unfold cfilter_encode. now rewrite prefixed_wire.
  - kind get_cf_codec.
    + exists g. destruct R as (R1 & R2 & R3 & ->). split; [reflexivity|]. split; [split; auto|reflexivity].
    + destruct W as (R1 & R2 & R3). repeat (split; [assumption|]). reflexivity.
  - kind cfheaders_codec.
    + exists c. destruct R as (R1 & R2 & R3 & R4 & ->). split; [reflexivity|]. split; [split; auto|]. unfold cfheaders_encode. now rewrite hash_list_eq.
    + destruct W as (R1 & R2 & R3 & R4). repeat (split; [assumption|]). unfold cfheaders_encode. now rewrite hash_list_eq.
  - kind get_cfcheckpt_codec.
    + exists g. destruct g as [t h]. destruct R as (R1 & R2 & ->). split; [reflexivity|]. split; [split; auto|reflexivity].
    + destruct a as [t h], W as [R1 R2]. repeat (split; [assumption|]). reflexivity.
  - kind cfcheckpt_codec.
    + exists c. destruct R as (R1 & R2 & R3 & ->). split; [reflexivity|]. split; [split; auto|]. unfold cfcheckpt_encode. now rewrite hash_list_eq.
    + destruct W as (R1 & R2 & R3). repeat (split; [assumption|]). unfold cfcheckpt_encode. now rewrite hash_list_eq.
  - kind send_cmpct_codec.
    + exists s. destruct s as [c v]. destruct R as (R1 & ->). split; [reflexivity|]. split; [exact R1|reflexivity].
    + destruct a as [c v]. split; [exact W|reflexivity].
  - kind cb_codec.
    + exists c. rewrite wire_cb_eq. auto.
    + rewrite wire_cb_eq. auto.
  - kind request_codec.
    + exists r. rewrite wire_request_eq. auto.
    + rewrite wire_request_eq. auto.
  - kind block_txs_codec.
    + exists t. rewrite wire_block_txs_eq. auto.
    + rewrite wire_block_txs_eq. auto.
  - kind blob_codec.
    + exists b. rewrite prefixed_wire. auto.
    + rewrite prefixed_wire. auto.
  - kind reject_codec.
    + exists r. split; [reflexivity|]. now apply reject_eq.
    + now apply reject_eq.
  - kind fee_filter_codec.
    + destruct R as (kvb & R1 & -> & ->). exists (1000 * Z.of_N kvb)%Z. split; [reflexivity|]. split; [exists kvb; auto|]. now rewrite fee_enc.
    + destruct W as (kvb & R1 & ->). exists kvb. now rewrite fee_enc.
  - kind (vec_codec _ _ _ _ _ MAX_VEC_SIZE eq_refl addr_v2_msg_codec).
    + exists l. destruct R as [R ->]. rewrite addr_v2_list_eq by (apply R). split; [reflexivity|]. split; [exact R|reflexivity].
    + split; [exact W|apply addr_v2_list_eq; apply W].
  - kind rcncl_codec.
    + exists s. destruct s as [c v]. destruct R as (R1 & R2 & ->). split; [reflexivity|]. split; [split; auto|reflexivity].
    + destruct a as [c v], W. repeat (split; [assumption|]). reflexivity.
  - kind feature_codec.
    + exists f. destruct f as [i d]. destruct R as (R1 & R2 & R3 & R4 & ->). split; [reflexivity|]. split; [split; auto|]. unfold feature_encode. cbn [fst snd]. now rewrite !prefixed_wire, ascii_bytes.
    + destruct a as [i d], W as (R1 & R2 & R3 & R4). cbn [fst snd] in *. split; [exact R1|]. split; [exact R2|]. split; [exact R3|]. split; [exact R4|]. unfold feature_encode. cbn [fst snd]. now rewrite !prefixed_wire, ascii_bytes.
Qed.
