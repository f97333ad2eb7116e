(** C76: what one node sends, another one uses. *)
From Coq Require Import Sorting.Sorted Sorting.Permutation.
From Verif Require Import Base MDec LDec LDec2 LDrive LBuilt LCompact LCodec MWitness MTx MMerkle MPmt MBip158 MBip152 MP2p MP2pMsg SWire STx SMerkle SPmt SBip152 SBip158 SP2p.
From Verif Require Import LWire LTx2 LTxId LWitness LHex LMerkle LBlock LPmt LPmt2 LPmt3 LP2p LP2p8 PTx PMerkle PPmt PPmt2 PBip158 PBip152 PP2p SBlock.
Local Open Scope N_scope.

(** One node builds and writes the message [m]; another one, which gets it in any pieces, reads [m'] and is left with what follows. *)
Definition delivered (H : bytes -> bytes) (magic : bytes) (m m' : MP2pMsg.message) : Prop :=
  exists x, v1_new H magic m = Ret x /\ v1_payload x = m /\
  forall cs r, bytes_ok r -> concat cs = v1_encode x ++ r ->
  exists y, feed_chunks (v1_dec H) (init (v1_dec H)) cs = RDone y r /\ v1_payload y = m' /\ mh_magic (v1_head y) = magic.

Lemma cs_short : forall v, lenN (cs_encode v) <= 9.
Proof. intro v. rewrite cs_encode_len. unfold cs_encoded_size. repeat destr_if; lia. Qed.
Lemma hashes_len : forall l, Forall hash_ok l -> lenN (slice_encode (fun h => h) l) <= 9 + 32 * lenN l /\ bytes_ok (slice_encode (fun h => h) l).
Proof.
  intros l F. split; [|apply slice_ok; eapply Forall_impl; [|exact F]; intros a K; apply K]. unfold slice_encode. rewrite lenN_app. pose proof (cs_short (lenN l)) as CS.
  assert (lenN (flat_map (fun h : bytes => h) l) = 32 * lenN l); [|lia]. clear CS. induction F as [|a l [La _] _ IH]; [reflexivity|]. cbn [flat_map]. rewrite lenN_app, lenN_cons, IH, La. lia.
Qed.
Lemma header_len : forall h, header_ok h -> lenN (header_encode h) = 80.
Proof. intros h (_ & [L1 _] & [L2 _] & _). unfold header_encode. rewrite !lenN_app, !le_bytes_lenN, L1, L2. reflexivity. Qed.
Lemma mb_size : forall hd p, header_ok hd -> pmt_ok p -> lenN (pm_hashes p) <= 32768 -> lenN (pm_bits p) <= 65536 ->
  bytes_ok (mb_encode {| mb_header := hd; mb_txn := p |}) /\ lenN (mb_encode {| mb_header := hd; mb_txn := p |}) <= 5000000.
Proof.
  intros hd p OH (_ & OK & _ & _) L1 L2. unfold mb_encode, pmt_encode. cbn [mb_header mb_txn]. destruct (hashes_len _ OK) as [LH BH]. split.
  - apply bytes_ok_app. split; [now apply header_encode_ok|]. apply bytes_ok_app. split; [apply le_bytes_ok|]. apply bytes_ok_app. split; [exact BH|]. apply bytes_ok_app. split; [apply cs_encode_ok|apply pack_ok].
  - rewrite !lenN_app, le_bytes_lenN, pack_len, header_len by exact OH. pose proof (cs_short (div_ceil8 (lenN (pm_bits p)))). assert (div_ceil8 (lenN (pm_bits p)) <= 8200) by (unfold div_ceil8; apply N.div_le_upper_bound; lia). lia.
Qed.
Lemma block_shapes : forall b, block_ok b -> Forall tx_shape (b_txs b) /\ Forall witnesses_ok (b_txs b).
Proof. intros b [_ [_ F]]. split; (eapply Forall_impl; [|exact F]); intros t [T _]; auto using shape_witnesses. Qed.

Definition total (l : list transaction) : N := lenN (flat_map tx_encode l).
Lemma total_cons : forall x l, total (x :: l) = lenN (tx_encode x) + total l.
Proof. intros x l. unfold total. cbn [flat_map]. apply lenN_app. Qed.
Lemma placed_total : forall f l i, total (map snd (placed f i l)) <= total l.
Proof. induction l as [|x l IH]; intro i; [apply N.le_refl|]. cbn [placed]. specialize (IH (i + 1)). destruct (f i); cbn [app map snd]; rewrite !total_cons; lia. Qed.
Lemma picked_total : forall l k s ts, StronglySorted N.lt s -> Forall2 (fun i tx => k <= i /\ nth_error l (N.to_nat (i - k)) = Some tx) s ts -> total ts <= total l.
Proof.
  induction l as [|x l IH]; intros k s ts SS F.
  - destruct F as [|i tx s' ts' [_ K] _]; [apply N.le_refl|]. destruct (N.to_nat (i - k)); discriminate.
  - assert (SH : forall s ts, Forall (fun i => k < i) s -> Forall2 (fun i tx => k <= i /\ nth_error (x :: l) (N.to_nat (i - k)) = Some tx) s ts -> Forall2 (fun i tx => k + 1 <= i /\ nth_error l (N.to_nat (i - (k + 1))) = Some tx) s ts).
    { clear. intros s ts G F. induction F as [|i tx s ts [A B] F IH]; [constructor|]. inv G. constructor; [|auto]. split; [lia|]. replace (N.to_nat (i - k)) with (S (N.to_nat (i - (k + 1)))) in B by lia. exact B. }
    destruct F as [|i tx s ts [A B] F]; [unfold total at 1; cbn; apply N.le_0_l|]. inv SS. rewrite (total_cons x l). destruct (N.eq_dec i k) as [->|NE].
    + rewrite N.sub_diag in B. cbn [N.to_nat nth_error] in B. injection B as ->. rewrite total_cons. apply N.add_le_mono_l, (IH (k + 1) s); auto.
    + etransitivity; [apply (IH (k + 1) (i :: s) (tx :: ts)); [now constructor|]|apply N.le_add_l]. apply SH; [|now constructor]. constructor; [lia|]. eapply Forall_impl; [|eassumption]. cbn beta. intros. lia.
Qed.
Lemma prefilled_size : forall l, Forall (fun p => lenN (wire_compact (pf_idx p)) <= 9) l -> lenN (flat_map wire_prefilled l) <= 9 * lenN l + total (map pf_tx l).
Proof. intros l F. induction F as [|p l K _ IH]; [apply N.le_refl|]. cbn [flat_map map]. rewrite total_cons, lenN_app, lenN_cons. unfold wire_prefilled at 1. rewrite lenN_app. lia. Qed.
Lemma fixed_size : forall k l, Forall (fun s => lenN s = k) l -> lenN (flat_map (fun s : bytes => s) l) = k * lenN l.
Proof. intros k l F. induction F as [|s l K _ IH]; [cbn; now rewrite N.mul_0_r|]. cbn [flat_map]. rewrite lenN_app, lenN_cons, IH, K. lia. Qed.
Lemma offsets_size : forall l, lenN (flat_map wire_compact l) <= 9 * lenN l.
Proof. induction l as [|x l IH]; [apply N.le_refl|]. cbn [flat_map]. rewrite lenN_app, lenN_cons, <- wire_compact_eq. pose proof (cs_short x). lia. Qed.
Lemma combine_split' : forall A B (l : list (A * B)), List.combine (map fst l) (map snd l) = l.
Proof. induction l as [|[a b] l IH]; [reflexivity|]. cbn [map fst snd List.combine]. now rewrite IH. Qed.
Lemma in_combine2 : forall A B (P : A -> B -> Prop) s ts i x, (forall y, P i y -> y = x) -> P i x -> Forall2 P s ts -> (In (i, x) (List.combine s ts) <-> In i s).
Proof.
  intros A B P s ts i x U Pi F. split; [apply in_combine_l|]. induction F as [|j y s ts K _ IH]; [intros []|]. cbn [List.combine In]. intros [->|I]; [left; f_equal; now apply U|right; auto].
Qed.
Lemma forall2_eq : forall A (l l' : list A), Forall2 (fun a t => t = a) l l' -> l' = l.
Proof. intros A l l' F. induction F; congruence. Qed.

Section Flow.
Context (H : bytes -> bytes) (HH : forall m, hash_ok (H m)).

Lemma deliver : forall magic m p, fixed 4 magic -> (forall c q, m <> MUnknown c q) -> reads m p -> bytes_ok (payload_encode m) -> lenN p <= 5000000 -> delivered H magic m m.
Proof using HH.
  intros magic m p F NU R B L. destruct (named_exists m NU) as [c Nm]. destruct (C33_v1_round_trip H HH magic m c p F Nm R B L) as (x & E & P & D).
  exists x. split; [exact E|]. split; [exact P|]. intros cs r Br EC. exists x. split; [now apply D|]. split; [exact P|].
  destruct (reads_len m p R) as [EL _]. rewrite (v1_new_named H magic m c Nm) in E by lia. injection E as <-. reflexivity.
Qed.

(** *** Merkle proofs *)
Lemma shown_size : forall T n h pos (t : ptree T), fits n h pos t -> lenN (shown t) <= 2 ^ h /\ lenN (flags t) + 1 <= 2 ^ (h + 1).
Proof.
  intros T n h pos t F. induction F as [h pos x|pos x|h pos l r _ _ [A1 A2] _ [B1 B2]|h pos l _ _ [A1 A2]]; cbn [shown flags]; rewrite ?lenN_cons, ?lenN_app, ?lenN_nil, ?(N.add_1_r (h + 1)), ?N.pow_succ_r', ?(N.add_1_r h), ?N.pow_succ_r' in *; try lia.
Qed.
Lemma node_hash : forall l h pos x, Forall hash_ok l -> LPmt.node (node H) l h pos = Some x -> hash_ok x.
Proof using HH.
  intros l h pos x F E. destruct h as [|h].
  - unfold LPmt.node, get in E. cbn [level_up] in E. apply nth_error_In in E. rewrite Forall_forall in F. auto.
  - rewrite node_S in E. destruct (LPmt.node (node H) l h (2 * pos)); [|discriminate]. injection E as <-. apply HH.
Qed.
Lemma shown_hash : forall l t h pos, Forall hash_ok l -> agrees (node H) l t h pos -> Forall hash_ok (shown t).
Proof using HH.
  intros l t. induction t as [x|x|a IHa b IHb|a IHa]; intros h pos F A; cbn [agrees shown proot] in *.
  1, 2: constructor; [|constructor]; apply (node_hash l h pos x F), A.
  - destruct A as (_ & h' & -> & A & B). apply Forall_app. split; eauto.
  - destruct A as (_ & h' & -> & A). eauto.
Qed.
(** A proof of at most 16666 transactions is well formed and short. *)
Lemma proof_size : forall ids marks p, Forall hash_ok ids -> 1 <= lenN ids <= 16666 -> length ids = length marks -> from_txids (node H) ids marks = Ret p ->
  pmt_ok p /\ pm_num p <= 16666 /\ lenN (pm_hashes p) <= 32768 /\ lenN (pm_bits p) <= 65536.
Proof using HH.
  intros ids marks p F L EL E. destruct (build_law (node H) beqb beqb_spec ids marks) as (p' & h & t & E' & Nm & TH & FT & B & S1 & _ & _ & A); [change (2 ^ 31) with 2147483648; lia|exact EL|].
  assert (p' = p) as -> by congruence. destruct (small_height _ _ (proj2 L) TH) as [H15 _]. destruct (shown_size _ _ _ _ _ FT) as [A1 A2].
  assert (2 ^ h <= 32768) by (change 32768 with (2 ^ 15); apply N.pow_le_mono_r; lia). assert (2 ^ (h + 1) <= 65536) by (change 65536 with (2 ^ 16); apply N.pow_le_mono_r; lia).
  rewrite <- B in A2. rewrite <- S1 in A1. split; [|lia]. unfold pmt_ok. split; [change (2 ^ 32) with 4294967296; lia|]. split; [rewrite S1; eapply shown_hash; eauto|]. split; [lia|].
  apply N.div_le_upper_bound; lia.
Qed.
(** A node that serves a valid block of at most 16666 transactions, and any choice of its transactions: the proof it sends arrives, and the
    receiver gets from it exactly the chosen transactions' ids and positions, under the block's own header. *)
Theorem C76_proof : forall b wr chosen magic, block_ok b -> validate H b = Ret (Ok (b, wr)) -> lenN (b_txs b) <= 16666 -> fixed 4 magic ->
  exists m m', MPmt.from_block H b chosen = Ret m /\ delivered H magic (MMerkleBlock m) (MMerkleBlock m') /\ mb_header m' = b_header b /\
  mb_extract H m' [] [] =
    Ret (filter chosen (map (txid_of H) (b_txs b)),
         map fst (filter (fun q => chosen (snd q)) (List.combine (map N.of_nat (seq 0 (length (b_txs b)))) (map (txid_of H) (b_txs b)))), Ok tt).
Proof using HH.
  intros b wr chosen magic OK V L FM. destruct (block_shapes b OK) as [_ W]. destruct (C31_from_block H b wr chosen [] [] W V L) as (m & E & Hd & X). exists m.
  apply C46_validate in V as (_ & (cb & rest & ET & _) & _); [|exact W].
  assert (PS : pmt_ok (mb_txn m) /\ pm_num (mb_txn m) <= 16666 /\ lenN (pm_hashes (mb_txn m)) <= 32768 /\ lenN (pm_bits (mb_txn m)) <= 65536).
  { unfold MPmt.from_block in E. rewrite rmap_txids in E. cbn [rbind] in E. unfold from_header_txids in E. change (node_combine H) with (node H) in E.
    destruct (from_txids (node H) (map (txid_of H) (b_txs b)) (map chosen (map (txid_of H) (b_txs b)))) as [p|] eqn:EP; cbn [rbind] in E; [|discriminate]. injection E as <-. cbn [mb_txn].
    assert (LI : lenN (map (txid_of H) (b_txs b)) = lenN (b_txs b)) by (unfold lenN; now rewrite map_length).
    eapply proof_size; [| | |exact EP]; [|rewrite LI; split; [rewrite ET, lenN_cons; lia|exact L]|now rewrite !map_length].
    apply Forall_map, Forall_forall. intros t _. apply HH. }
  destruct PS as (PO & PN & PH & PB). set (p := mb_txn m) in *. exists {| mb_header := b_header b; mb_txn := padded p |}.
  assert (OH : header_ok (b_header b)) by apply OK. destruct (mb_size (b_header b) p OH PO PH PB) as [SB SL].
  assert (EM : m = {| mb_header := b_header b; mb_txn := p |}) by (unfold p; rewrite <- Hd; now destruct m).
  assert (EE : payload_encode (MMerkleBlock m) = payload_encode (MMerkleBlock {| mb_header := b_header b; mb_txn := padded p |})).
  { rewrite EM. cbn [payload_encode]. unfold mb_encode. cbn [mb_header mb_txn]. now rewrite padded_encode. }
  destruct (padded_full p PO) as [PO' P8].
  assert (R : reads (MMerkleBlock {| mb_header := b_header b; mb_txn := padded p |}) (payload_encode (MMerkleBlock m))).
  { rewrite EE. cbn [reads payload_encode mb_header mb_txn]. split; [exact OH|]. split; [exact PO'|]. split; [exact P8|]. exists (pmt_encode (padded p)). split; [now apply C31_encode|reflexivity]. }
  assert (SL' : lenN (payload_encode (MMerkleBlock m)) <= 5000000) by (rewrite EM; exact SL).
  split; [exact E|]. split; [|split; [reflexivity|]].
  - destruct (deliver magic (MMerkleBlock {| mb_header := b_header b; mb_txn := padded p |}) _ FM ltac:(intros; discriminate) R) as (x & EX & PX & D); [rewrite <- EE, EM; exact SB|exact SL'|].
    destruct (named_exists (MMerkleBlock m) ltac:(intros; discriminate)) as [c Nm]. assert (Nm' : named (MMerkleBlock {| mb_header := b_header b; mb_txn := padded p |}) c) by exact Nm.
    eexists. split; [apply (v1_new_named H magic _ c Nm); lia|]. split; [reflexivity|]. intros cs r Br EC.
    rewrite (v1_new_named H magic _ c Nm') in EX by (rewrite <- EE; lia). injection EX as <-. apply (D cs r Br). rewrite EC. f_equal. unfold v1_encode. cbn [v1_head v1_payload]. now rewrite EE.
  - apply C31_merkle_block in X. apply C31_merkle_block. cbn [mb_txn mb_header]. rewrite Hd in X. apply C31_padding with (p := p); [|lia|lia|exact X]. exact (padded_ceil p).
Qed.

(** *** Verifying a payment *)
(** What a client hashes that got the proof [m] and the transaction [tx]. *)
Inductive checked (m : merkle_block) (tx : transaction) : bytes -> Prop :=
| by_header : checked m tx (wire_header (mb_header m))
| by_node : forall t pad x y, written (mb_txn m) t pad -> In (x, y) (pairs (node H) t) -> checked m tx (x ++ y)
| by_tx : checked m tx (wire_legacy tx).
Lemma received : forall cs x r, bytes_ok (concat cs) -> feed_chunks (v1_dec H) (init (v1_dec H)) cs = RDone x r -> exists p, reads (v1_payload x) p.
Proof using HH. intros cs x r B E. apply (C33_v1_decodes H HH) in E as (magic & c & p & m & (_ & _ & _ & _ & R) & (-> & _)); [|exact B]. now exists p. Qed.
Lemma pairs_len : forall t x y, Forall hash_ok (shown t) -> In (x, y) (pairs (node H) t) -> lenN x = 32 /\ lenN y = 32.
Proof using HH.
  assert (P : forall t, Forall hash_ok (shown t) -> lenN (proot (node H) t) = 32) by (intros [x|x|a b|a] F; cbn [shown proot] in *; try apply HH; inv F; match goal with K : hash_ok _ |- _ => apply K end).
  induction t as [z|z|a IHa b IHb|a IHa]; intros x y F I; cbn [shown pairs] in *; try now destruct I.
  - apply Forall_app in F as [F1 F2]. destruct I as [E|I]; [injection E as <- <-; auto|]. apply in_app_or in I as [I|I]; auto.
  - destruct I as [E|I]; [injection E as <- <-; auto|auto].
Qed.
Lemma header_wire_inj : forall a b, header_ok a -> header_ok b -> wire_header a = wire_header b -> a = b.
Proof using.
  clear HH. clear H. intros a b A B E. change (header_encode a = header_encode b) in E.
  assert (D : forall h, header_ok h -> decode_from_slice_unbounded header_dec (header_encode h) = Ret (Ok h, [])) by (intros h O; apply (codec_prefix header_codec); [now apply header_encode_ok|split; [now rewrite app_nil_r|exact O]]).
  pose proof (D a A) as X. rewrite E, (D b B) in X. congruence.
Qed.
(** A client is given, by nodes it does not trust, a proof and a transaction that the proof reports. If the proof's header has the hash of a
    valid block, and the proof counts as many transactions as this has, then the block contains the transaction, but for its witnesses, at the reported
    place; or the client has hashed a message that collides with one hashed for the block. *)
Theorem C76_spv : forall b wr cs r x m cs' r' y tx ids ixs k i,
  block_ok b -> validate H b = Ret (Ok (b, wr)) ->
  bytes_ok (concat cs) -> feed_chunks (v1_dec H) (init (v1_dec H)) cs = RDone x r -> v1_payload x = MMerkleBlock m ->
  bytes_ok (concat cs') -> feed_chunks (v1_dec H) (init (v1_dec H)) cs' = RDone y r' -> v1_payload y = MTx tx ->
  H (wire_header (mb_header m)) = H (wire_header (b_header b)) -> pm_num (mb_txn m) = lenN (b_txs b) ->
  mb_extract H m [] [] = Ret (ids, ixs, Ok tt) -> nth_error ixs k = Some i -> (exists id, nth_error ids k = Some id /\ compute_txid H tx = Ret id) ->
  (exists tx', nth_error (b_txs b) (N.to_nat i) = Some tx' /\ same_but_witness tx tx') \/
  (exists m1 m2, checked m tx m1 /\ (m2 = wire_header (b_header b) \/ message H b m2) /\ m1 <> m2 /\ H m1 = H m2).
Proof using HH.
  intros b wr cs r x m cs' r' y tx ids ixs k i OK V B1 E1 P1 B2 E2 P2 EH EN X KI (id & KD & ET).
  destruct (received _ _ _ B1 E1) as [p R1]. rewrite P1 in R1. destruct R1 as (OH & (PO1 & PO2 & PO3 & PO4) & _ & _).
  destruct (received _ _ _ B2 E2) as [p' R2]. rewrite P2 in R2. destruct R2 as ([TS _] & _).
  destruct (block_shapes b OK) as [BS BW]. apply C46_validate in V as (_ & _ & (MR & _) & _); [|exact BW].
  destruct (list_eq_dec N.eq_dec (wire_header (mb_header m)) (wire_header (b_header b))) as [EW|NW].
  2: { right. exists (wire_header (mb_header m)), (wire_header (b_header b)). split; [constructor|]. auto. }
  apply header_wire_inj in EW; [|exact OH|apply OK]. rewrite <- EW in MR. apply C31_merkle_block in X.
  assert (LB : lenN (pm_bits (mb_txn m)) < 2 ^ 32). { pose proof (N.div_mod (lenN (pm_bits (mb_txn m)) + 7) 8 ltac:(lia)). pose proof (N.mod_lt (lenN (pm_bits (mb_txn m)) + 7) 8 ltac:(lia)). change (2 ^ 32) with 4294967296. lia. }
  rewrite C08_txid in ET. injection ET as ET.
  destruct (C31_sound beqb beqb_spec (node H) (mb_txn m) [] [] ids ixs _ _ LB ltac:(change (2 ^ 32) with 4294967296; lia) X MR) as [[F _]|(t & pad & W & a & b0 & c & d & I1 & I2 & NE & EQ)].
  - unfold lenN in *. rewrite map_length. lia.
  - assert (NT : nth_error (map (txid_of H) (b_txs b)) (N.to_nat i) = Some id).
    { clear - F KI KD. revert k KI KD. induction F as [|j z l l' K _ IH]; intros [|k] KI KD; cbn [nth_error] in *; try discriminate; [congruence|eauto]. }
    rewrite nth_error_map in NT. destruct (nth_error (b_txs b) (N.to_nat i)) as [tx'|] eqn:NB; [|discriminate]. injection NT as NT. unfold txid_of in NT.
    assert (IT : In tx' (b_txs b)) by (eapply nth_error_In; eauto). rewrite Forall_forall in BS.
    destruct (list_eq_dec N.eq_dec (wire_legacy tx) (wire_legacy tx')) as [EL|NL].
    + left. exists tx'. split; [reflexivity|]. apply wire_legacy_inj; auto.
    + right. exists (wire_legacy tx), (wire_legacy tx'). split; [constructor|]. split; [right; now constructor|]. split; [exact NL|congruence].
  - right. exists (a ++ b0), (c ++ d). split; [econstructor; eauto|]. split; [right; now constructor|]. split; [|exact EQ].
    intro E. apply NE. destruct W as (_ & W & _). rewrite W in PO2. destruct (pairs_len t a b0 PO2 I1) as [La _].
    assert (Lc : lenN c = 32). { refine (proj1 (hashed_len H (fun z => proj1 (HH z)) _ _ _ _ I2)). apply Forall_map, Forall_forall. intros z _. apply HH. }
    assert (LL : length a = length c) by (unfold lenN in *; lia). clear - E LL. revert c LL E. induction a as [|z a IH]; intros [|z' c] LL E; cbn in *; try discriminate; [congruence|]. injection E as -> E. apply IH in E; [congruence|congruence].
Qed.

(** *** Blocks *)
(** A block of at most 5000000 bytes arrives as it was sent. *)
Theorem C76_block : forall b magic, block_ok b -> lenN (block_encode b) <= 5000000 -> fixed 4 magic -> delivered H magic (MBlock b) (MBlock b).
Proof using HH.
  intros b magic OK L F. apply deliver with (p := block_encode b); [exact F|intros; discriminate| |now apply block_encode_ok|exact L].
  split; [exact OK|]. unfold block_encode. f_equal. unfold slice_encode, wire_list. rewrite wire_compact_eq, flat_map_concat_map. reflexivity.
Qed.
(** A block got from anyone, that is valid and has the hash of a valid block [b], is [b]; or two of the messages hashed for them collide; or the transaction
    ids of one are a higher level of the tree over those of the other, which needs transactions of 64 bytes. *)
Theorem C76_download : forall b wr cs r x b' wr',
  block_ok b -> validate H b = Ret (Ok (b, wr)) ->
  bytes_ok (concat cs) -> feed_chunks (v1_dec H) (init (v1_dec H)) cs = RDone x r -> v1_payload x = MBlock b' -> validate H b' = Ret (Ok (b', wr')) ->
  H (wire_header (b_header b')) = H (wire_header (b_header b)) ->
  b' = b \/
  (exists m1 m2, (m1 = wire_header (b_header b') \/ message H b' m1) /\ (m2 = wire_header (b_header b) \/ message H b m2) /\ m1 <> m2 /\ H m1 = H m2) \/
  (exists k, (length (b_txs b') < length (b_txs b))%nat /\ level_up (node H) (S k) (map (txid_of H) (b_txs b)) = map (txid_of H) (b_txs b')) \/
  (exists k, (length (b_txs b) < length (b_txs b'))%nat /\ level_up (node H) (S k) (map (txid_of H) (b_txs b')) = map (txid_of H) (b_txs b)).
Proof using HH.
  intros b wr cs r x b' wr' OK V B E P V' EH. destruct (received _ _ _ B E) as [p R]. rewrite P in R. destruct R as [OK' _].
  destruct (list_eq_dec N.eq_dec (wire_header (b_header b')) (wire_header (b_header b))) as [EW|NW].
  2: { right. left. exists (wire_header (b_header b')), (wire_header (b_header b)). auto. }
  apply header_wire_inj in EW; [|apply OK'|apply OK].
  destruct (C46_binds H b' b wr' wr (fun z => proj1 (HH z)) (proj1 (block_shapes b' OK')) (proj1 (block_shapes b OK)) V' V (f_equal h_merkle EW)) as [K|[(m1 & m2 & K1 & K2 & K3 & K4)|[K|K]]]; auto.
  - left. clear - K EW. destruct b as [h1 t1], b' as [h2 t2]. change (t2 = t1) in K. change (h2 = h1) in EW. congruence.
  - right. left. exists m1, m2. auto.
Qed.

(** *** Filters *)
Lemma filter_bytes : forall k0 k1 m p els content, is_filter k0 k1 m p els content -> bytes_ok content.
Proof using. clear HH. clear H. intros k0 k1 m p els content (vs & pad & _ & _ & _ & _ & body & -> & B & _). apply bytes_ok_app. split; [rewrite <- wire_compact_eq; apply cs_encode_ok|exact B]. Qed.
(** A block's filter of at most 4000000 bytes arrives as it was sent, and with it the receiver, who knows the block's hash only, finds every script of the block. *)
Theorem C76_filter : forall E (coin : outpoint -> result bytes E) b content magic, block_ok b -> fixed 4 magic ->
  (forall tx o, In tx (b_txs b) -> In o (tx_outputs tx) -> element_ok (to_script o)) -> (forall o s, coin o = Ok s -> element_ok s) ->
  lenN (flat_map tx_outputs (b_txs b)) + lenN (spent_coins b) < 2 ^ 44 -> (forall o, In o (spent_coins b) -> exists s, coin o = Ok s) ->
  new_script_filter coin H b = Ret (Ok content) -> lenN content <= 4000000 ->
  let c := mk_cf 0 (H (wire_header (b_header b))) content in
  delivered H magic (MCFilter c) (MCFilter c) /\
  forall query, Forall element_ok query -> (exists s, In s query /\ (output_script b s \/ spent_script coin b s) /\ s <> []) -> match_any (cf_filter c) (cf_block c) query = Ret (Ok true).
Proof using HH.
  intros E coin b content magic OK F Ho Hc Ln Known Ef L c. split.
  - destruct (C30_block_filter E coin H b HH Ho Hc Ln Known) as (els & content' & Ef' & _ & _ & _ & IF). assert (content' = content) as -> by congruence. apply filter_bytes in IF.
    assert (R : reads (MCFilter c) (payload_encode (MCFilter c))). { cbn [reads payload_encode c cf_type cf_block cf_filter]. split; [reflexivity|]. split; [apply HH|]. split; [split; [exact L|exact IF]|]. unfold cfilter_encode. cbn [cf_type cf_block cf_filter c]. unfold prefixed, wire_bytes. now rewrite wire_compact_eq. }
    apply deliver with (p := payload_encode (MCFilter c)); [exact F|intros; discriminate|exact R| |].
    + cbn [payload_encode c]. unfold cfilter_encode. cbn [cf_type cf_block cf_filter]. apply bytes_ok_app. split; [repeat constructor|]. apply bytes_ok_app. split; [apply HH|]. unfold prefixed. apply bytes_ok_app. split; [apply cs_encode_ok|exact IF].
    + cbn [payload_encode c]. unfold cfilter_encode. cbn [cf_type cf_block cf_filter]. unfold prefixed. pose proof (cs_short (lenN content)) as C9. pose proof (proj1 (HH (wire_header (b_header b)))) as LH. assert (G : forall u v w z : bytes, lenN u = 1 -> lenN v = 32 -> lenN w <= 9 -> lenN z <= 4000000 -> lenN (u ++ v ++ w ++ z) <= 5000000) by (intros u v w z; rewrite !lenN_app; lia). apply G; auto.
  - intros query Q Ex. exact (proj1 (C30_block_no_false_negative E coin H b content query HH Ho Hc Ln Known Ef Q) Ex).
Qed.
(** A filter got from anyone, that leads from the header before to the right filter header: no script of the block is missed; or there is a collision. *)
Theorem C76_filter_checked : forall E (coin : outpoint -> result bytes E) b content prev cs r x c,
  (forall tx o, In tx (b_txs b) -> In o (tx_outputs tx) -> element_ok (to_script o)) -> (forall o s, coin o = Ok s -> element_ok s) ->
  lenN (flat_map tx_outputs (b_txs b)) + lenN (spent_coins b) < 2 ^ 44 -> (forall o, In o (spent_coins b) -> exists s, coin o = Ok s) ->
  new_script_filter coin H b = Ret (Ok content) ->
  bytes_ok (concat cs) -> feed_chunks (v1_dec H) (init (v1_dec H)) cs = RDone x r -> v1_payload x = MCFilter c ->
  filter_header H (filter_hash H (cf_filter c)) prev = filter_header H (filter_hash H content) prev ->
  (forall query, Forall element_ok query -> (exists s, In s query /\ (output_script b s \/ spent_script coin b s) /\ s <> []) ->
     match_any (cf_filter c) (H (wire_header (b_header b))) query = Ret (Ok true)) \/
  (cf_filter c <> content /\ H (cf_filter c) = H content) \/
  (H (cf_filter c) ++ prev <> H content ++ prev /\ H (H (cf_filter c) ++ prev) = H (H content ++ prev)).
Proof using HH.
  intros E coin b content prev cs r x c Ho Hc Ln Known Ef B EF P EQ. unfold filter_header, filter_hash in EQ.
  destruct (list_eq_dec N.eq_dec (H (cf_filter c) ++ prev) (H content ++ prev)) as [K|K]; [|right; right; auto]. apply app_inv_tail in K.
  destruct (list_eq_dec N.eq_dec (cf_filter c) content) as [->|K']; [left|right; left; auto].
  intros query Q Ex. exact (proj1 (C30_block_no_false_negative E coin H b content query HH Ho Hc Ln Known Ef Q) Ex).
Qed.

(** *** Compact blocks *)
(** A node sends a valid block of fewer than 65536 transactions and at most 4000000 bytes as a compact block. The receiver asks for the positions that are
    not prefilled, in whatever order it has listed them, and gets them: with the prefilled ones it then has each transaction of the block at its place. *)
Theorem C76_compact : forall (sha256 : bytes -> bytes), (forall m, hash_ok (sha256 m)) -> forall b nonce prefill magic, block_ok b -> lenN (b_txs b) < 65536 -> lenN (block_encode b) <= 4000000 ->
  is_u64 nonce -> SBip152.increasing prefill -> Forall (fun p => p < lenN (b_txs b)) prefill -> fixed 4 magic ->
  exists c, MBip152.from_block sha256 H b nonce 2 prefill = Ret (Ok c) /\ delivered H magic (MCmpctBlock c) (MCmpctBlock c) /\
  let count := lenN (cb_short_ids c) + lenN (cb_prefilled c) in
  let have := positions 0 (map pf_idx (cb_prefilled c)) in
  count = lenN (b_txs b) /\
  forall missing, NoDup missing -> (forall i, In i missing <-> i < count /\ ~ In i have) ->
  exists q t asked, from_unsorted_indices (H (wire_header (cb_header c))) missing = Ret q /\ delivered H magic (MGetBlockTxn q) (MGetBlockTxn q) /\
    from_request q b = Ok t /\ delivered H magic (MBlockTxn t) (MBlockTxn t) /\ Permutation missing asked /\ SBip152.increasing asked /\
    forall i tx, nth_error (b_txs b) (N.to_nat i) = Some tx <-> In (i, tx) (List.combine have (map pf_tx (cb_prefilled c)) ++ List.combine asked (bt_txs t)).
Proof using HH.
  intros sha256 SHA b nonce prefill magic OK LN LB NU IP FP FM. destruct (block_shapes b OK) as [BS BW].
  destruct (C32_from_block sha256 H SHA HH b nonce 2 prefill (or_intror eq_refl) BW ltac:(lia) IP FP) as (c & E & Hd & _ & PP & PT & PS).
  set (chosen := fun i => (i =? 0) || existsb (N.eqb i) prefill) in *. destruct (C32_round_trip sha256 H SHA HH b nonce 2 prefill c OK NU LN E) as [CO _].
  change (2 =? 1) with false in PT, PS. cbv iota in PT, PS. apply forall2_eq in PT. destruct (C32_placed _ chosen (b_txs b)) as (_ & PI & PL).
  assert (LC : lenN (cb_short_ids c) + lenN (cb_prefilled c) = lenN (b_txs b)).
  { rewrite <- PL, PS. apply (f_equal (@length transaction)) in PT. rewrite !map_length in PT. unfold lenN in *. rewrite map_length, PT, N.add_comm. reflexivity. }
  assert (LT : total (b_txs b) <= 4000000). { unfold block_encode, slice_encode in LB. rewrite !lenN_app in LB. unfold total. lia. }
  exists c. split; [exact E|]. split.
  - destruct CO as (C1 & C2 & C3 & C4 & C5).
    assert (R : reads (MCmpctBlock c) (wire_cb c)) by (split; [repeat (split; [assumption|]); assumption|reflexivity]).
    apply deliver with (p := wire_cb c); [exact FM|intros; discriminate|exact R| |].
    + cbn [payload_encode]. unfold cb_encode. apply bytes_ok_app. split; [now apply header_encode_ok|]. apply bytes_ok_app. split; [apply le_bytes_ok|]. apply bytes_ok_app. split.
      * apply slice_ok. eapply Forall_impl; [|exact C3]. intros a K. apply K.
      * apply slice_ok. eapply Forall_impl; [|exact C4]. intros a [_ [K _]]. unfold prefilled_encode. apply bytes_ok_app. split; [apply cs_encode_ok|now apply tx_encode_ok].
    + unfold wire_cb, wire_list. rewrite <- !wire_compact_eq, <- !flat_map_concat_map, !lenN_app, le_bytes_lenN. change (lenN (wire_header (cb_header c))) with (lenN (header_encode (cb_header c))). rewrite header_len by exact C1.
      rewrite (fixed_size 6) by (eapply Forall_impl; [|exact C3]; intros a K; apply K).
      pose proof (cs_short (lenN (cb_short_ids c))). pose proof (cs_short (lenN (cb_prefilled c))). pose proof (placed_total chosen (b_txs b) 0) as T1. rewrite <- PT in T1.
      assert (T2 := prefilled_size (cb_prefilled c) ltac:(apply Forall_forall; intros a _; rewrite <- wire_compact_eq; apply cs_short)).
      assert (G : forall a d k e f g tb n, a <= 9 -> d <= 9 -> k + e = n -> n < 65536 -> g <= 9 * e + f -> f <= tb -> tb <= 4000000 -> 80 + (N.of_nat 8 + (a + 6 * k + (d + g))) <= 5000000) by (intros; lia). eapply G; eauto.
  - cbn zeta. split; [exact LC|]. intros missing ND IM. rewrite LC in IM. assert (FL : Forall (fun i => i < lenN (b_txs b)) missing) by (apply Forall_forall; intros i I; now apply IM in I).
    destruct (C32_answer (H (wire_header (cb_header c))) missing b ND FL ltac:(change (2 ^ 64) with 18446744073709551616; lia)) as (q & t & s & EQ & ER & HT & PM & IS & F2).
    assert (HQ : rq_hash q = H (wire_header (cb_header c))).
    { destruct (proj1 (C32_from_unsorted (H (wire_header (cb_header c))) missing)) as (q' & s' & EQ' & HQ' & _); [split; [exact ND|]; eapply Forall_impl; [|exact FL]; cbn beta; intros; change (2 ^ 64) with 18446744073709551616; lia|]. congruence. }
    exists q, t, s. split; [exact EQ|].
    assert (RO : request_ok q). { split; [rewrite HQ; apply HH|]. apply (C32_request_round_trip (H (wire_header (cb_header c))) missing q (HH _) EQ). eapply Forall_impl; [|exact FL]. cbn beta. intros. lia. }
    assert (LQ : lenN (rq_offsets q) < 65536).
    { destruct (proj1 (C32_from_unsorted (H (wire_header (cb_header c))) missing)) as (q' & s' & EQ' & _ & IX & PX & IC); [split; [exact ND|]; eapply Forall_impl; [|exact FL]; cbn beta; intros; change (2 ^ 64) with 18446744073709551616; lia|].
      assert (q' = q) as -> by congruence. destruct (C32_increasing q s' IX) as (_ & L1 & _).
      assert (NI : (length missing <= length (b_txs b))%nat).
      { rewrite <- (seq_length (length (b_txs b)) 0), <- (map_length N.of_nat). apply NoDup_incl_length; [exact ND|]. intros i I. apply in_map_iff. exists (N.to_nat i). split; [lia|]. apply in_seq. rewrite Forall_forall in FL. specialize (FL i I). unfold lenN in FL. lia. }
      apply Permutation_length in PX. unfold lenN in *. lia. }
    split; [|split; [exact ER|split]].
    + apply deliver with (p := wire_request q); [exact FM|intros; discriminate|split; [exact RO|reflexivity]| |].
      * cbn [payload_encode]. unfold request_encode. apply bytes_ok_app. split; [apply RO|]. apply slice_ok. apply Forall_forall. intros a _. apply cs_encode_ok.
      * unfold wire_request, wire_list. rewrite <- wire_compact_eq, <- flat_map_concat_map, !lenN_app, (proj1 (proj1 RO)). pose proof (cs_short (lenN (rq_offsets q))). pose proof (offsets_size (rq_offsets q)). lia.
    + assert (FT : Forall tx_ok (bt_txs t)). { destruct OK as [_ [_ OT]]. rewrite Forall_forall in OT. apply Forall_forall. intros a I. apply In_nth_error in I as [n I]. apply OT. clear - F2 I. revert n I. induction F2 as [|j z l l' K _ IH]; intros [|n] I; cbn [nth_error] in I; try discriminate; [injection I as ->; eapply nth_error_In; eauto|eauto]. }
      assert (TT : total (bt_txs t) <= total (b_txs b)). { apply (picked_total (b_txs b) 0 s); [exact IS|]. clear - F2. induction F2 as [|i x s ts K _ IH]; constructor; auto. rewrite N.sub_0_r. split; [apply N.le_0_l|exact K]. }
      assert (LL : lenN (bt_txs t) <= 65536).
      { assert (L2 : length s = length (bt_txs t)) by (clear - F2; induction F2; cbn [length]; congruence). apply Permutation_length in PM.
        assert (NI : (length missing <= length (b_txs b))%nat).
        { rewrite <- (seq_length (length (b_txs b)) 0), <- (map_length N.of_nat). apply NoDup_incl_length; [exact ND|]. intros i I. apply in_map_iff. exists (N.to_nat i). split; [lia|]. apply in_seq. rewrite Forall_forall in FL. specialize (FL i I). unfold lenN in FL. lia. }
        unfold lenN in *. lia. }
      apply deliver with (p := wire_block_txs t); [exact FM|intros; discriminate| | |].
      * split; [|reflexivity]. split; [rewrite HT; apply HH|]. split; [unfold MAX_LEN; lia|exact FT].
      * cbn [payload_encode]. unfold block_txs_encode. apply bytes_ok_app. split; [rewrite HT; apply HH|]. apply slice_ok. eapply Forall_impl; [|exact FT]. intros a [K _]. now apply tx_encode_ok.
      * unfold wire_block_txs, wire_list. rewrite <- wire_compact_eq, <- flat_map_concat_map, !lenN_app, HT, (proj1 (HH _)). pose proof (cs_short (lenN (bt_txs t))). unfold total in *. lia.
    + split; [exact PM|]. split; [exact IS|]. intros i tx. rewrite PP, PT, combine_split', in_app_iff, PI.
      assert (IH' : In i (map fst (placed chosen 0 (b_txs b))) <-> i < lenN (b_txs b) /\ chosen i = true).
      { rewrite in_map_iff. split.
        - intros ([j z] & <- & I). apply PI in I as [I1 I2]. cbn [fst]. split; [|exact I2]. assert (N.to_nat j < length (b_txs b))%nat by (apply nth_error_Some; congruence). unfold lenN. lia.
        - intros [I1 I2]. destruct (nth_error (b_txs b) (N.to_nat i)) as [z|] eqn:NZ; [|apply nth_error_None in NZ; unfold lenN in I1; lia]. exists (i, z). split; [reflexivity|]. apply PI. auto. }
      split.
      * intro NT. destruct (chosen i) eqn:CH; [left; auto|right]. apply (in_combine2 _ _ (fun i tx => nth_error (b_txs b) (N.to_nat i) = Some tx)) with (3 := F2); [intros y K; congruence|exact NT|].
        apply (Permutation_in i PM), IM. rewrite PP, IH'. split; [|intros [_ K]; congruence]. assert (N.to_nat i < length (b_txs b))%nat by (apply nth_error_Some; congruence). unfold lenN. lia.
      * intros [[K _]|I]; [exact K|]. clear - F2 I. induction F2 as [|j z l l' K _ IH]; [destruct I|]. cbn [List.combine In] in I. destruct I as [J|I]; [injection J as -> ->; exact K|auto].
Qed.
End Flow.

(** A valid block of two transactions; the hash is a toy one. *)
Lemma toy_ok : forall m, hash_ok (toy_hash m).
Proof. intro m. split; [unfold lenN, toy_hash; now rewrite le_bytes_length|apply le_bytes_ok]. Qed.
Lemma ex_valid_ok : block_ok ex_valid.
Proof.
  split.
  - split; [reflexivity|]. split; [split; [reflexivity|repeat constructor]|]. split; [exact (toy_ok (txid_of toy_hash ex_coinbase ++ txid_of toy_hash LTxEx.ex_tx))|]. split; [reflexivity|]. split; reflexivity.
  - split; [discriminate|]. constructor; [split; [apply ex_coinbase_shape|]|constructor; [apply LTxEx.ex_tx_ok|constructor]].
    split; unfold ex_coinbase; cbn [tx_inputs tx_outputs map length]; [discriminate|lia| |repeat constructor; intros []|vm_compute; discriminate].
    intros i E _. injection E as <-. vm_compute. split; discriminate.
Qed.
Definition ex_magic : bytes := [249; 190; 180; 217].
Lemma ex_magic_ok : fixed 4 ex_magic.
Proof. split; [reflexivity|repeat constructor]. Qed.
Lemma ex_valid_valid : validate toy_hash ex_valid = Ret (Ok (ex_valid, Some ex_wroot)).
Proof. apply C46_witness. Qed.
Example C76_ex : (forall m, hash_ok (toy_hash m)) /\ block_ok ex_valid /\ validate toy_hash ex_valid = Ret (Ok (ex_valid, Some ex_wroot)) /\ lenN (b_txs ex_valid) = 2 /\ lenN (block_encode ex_valid) <= 4000000 /\
  fixed 4 ex_magic /\ (exists content, new_script_filter (fun _ => Ok (E := unit) [81; 32]) toy_hash ex_valid = Ret (Ok content) /\ lenN content <= 4000000) /\ spent_coins ex_valid <> [].
Proof.
  split; [exact toy_ok|]. split; [exact ex_valid_ok|]. split; [exact ex_valid_valid|]. split; [reflexivity|]. split; [vm_compute; discriminate|]. split; [exact ex_magic_ok|].
  split; [|discriminate]. eexists. split; [vm_compute; reflexivity|vm_compute; discriminate].
Qed.
(** A client that got a proof and the transaction it reports. *)
Example C76_spv_ex : exists cs r x m cs' r' y ids ixs, bytes_ok (concat cs) /\ feed_chunks (v1_dec toy_hash) (init (v1_dec toy_hash)) cs = RDone x r /\ v1_payload x = MMerkleBlock m /\
  bytes_ok (concat cs') /\ feed_chunks (v1_dec toy_hash) (init (v1_dec toy_hash)) cs' = RDone y r' /\ v1_payload y = MTx LTxEx.ex_tx /\
  mb_header m = b_header ex_valid /\ pm_num (mb_txn m) = lenN (b_txs ex_valid) /\ mb_extract toy_hash m [] [] = Ret (ids, ixs, Ok tt) /\ nth_error ixs 0 = Some 1 /\
  exists id, nth_error ids 0 = Some id /\ compute_txid toy_hash LTxEx.ex_tx = Ret id.
Proof.
  set (m := {| mb_header := b_header ex_valid; mb_txn := {| pm_num := 2; pm_bits := [true; false; true; false; false; false; false; false]; pm_hashes := [txid_of toy_hash ex_coinbase; txid_of toy_hash LTxEx.ex_tx] |} |}).
  assert (PO : pmt_ok (mb_txn m)). { split; [reflexivity|]. split; [constructor; [apply toy_ok|constructor; [apply toy_ok|constructor]]|]. split; vm_compute; discriminate. }
  assert (OH : header_ok (b_header ex_valid)) by apply ex_valid_ok. destruct (mb_size (b_header ex_valid) (mb_txn m) OH PO ltac:(vm_compute; discriminate) ltac:(vm_compute; discriminate)) as [SB SL].
  assert (D1 : delivered toy_hash ex_magic (MMerkleBlock m) (MMerkleBlock m)).
  { apply (deliver toy_hash toy_ok ex_magic _ (payload_encode (MMerkleBlock m)) ex_magic_ok); [intros; discriminate| |exact SB|exact SL].
    split; [exact OH|]. split; [exact PO|]. split; [reflexivity|]. exists (pmt_encode (mb_txn m)). split; [now apply C31_encode|reflexivity]. }
  assert (D2 : delivered toy_hash ex_magic (MTx LTxEx.ex_tx) (MTx LTxEx.ex_tx)).
  { apply (deliver toy_hash toy_ok ex_magic _ (tx_encode LTxEx.ex_tx) ex_magic_ok); [intros; discriminate|split; [apply LTxEx.ex_tx_ok|reflexivity]|apply tx_encode_ok, LTxEx.ex_tx_ok|vm_compute; discriminate]. }
  destruct D1 as (x & E1 & P1 & D1), D2 as (y & E2 & P2 & D2).
  destruct (D1 [v1_encode x] []) as (x' & F1 & G1 & _); [constructor|cbn [concat]; now rewrite !app_nil_r|]. destruct (D2 [v1_encode y] []) as (y' & F2 & G2 & _); [constructor|cbn [concat]; now rewrite !app_nil_r|].
  exists [v1_encode x], [], x', m, [v1_encode y], [], y'.
  assert (BX : forall mm z, bytes_ok (payload_encode mm) -> (exists c, command mm = Ret c /\ bytes_ok c) -> v1_new toy_hash ex_magic mm = Ret z -> bytes_ok (concat [v1_encode z])).
  { intros mm z B (c & EC & CB) E. unfold v1_new in E. rewrite EC in E. cbn [rbind] in E. unfold v1_header_new, sha2_checksum in E. destruct (lenN (payload_encode mm) <? 4294967296); [|discriminate]. cbn [rbind] in E. injection E as <-. cbn [concat]. rewrite app_nil_r.
    unfold v1_encode, v1_header_encode. cbn [v1_head v1_payload mh_magic mh_command mh_length mh_checksum]. apply bytes_ok_app. split; [|exact B]. repeat (apply bytes_ok_app; split); try apply le_bytes_ok; try apply ex_magic_ok; auto.
    pose proof (proj2 (toy_ok (payload_encode mm))) as BH. rewrite <- (firstn_skipn 4 (toy_hash (payload_encode mm))) in BH. apply bytes_ok_app in BH. apply BH. }
  eexists _, _. split; [apply (BX (MMerkleBlock m) x SB ltac:(eexists; split; [reflexivity|repeat constructor]) E1)|]. split; [exact F1|]. split; [exact G1|].
  split; [apply (BX (MTx LTxEx.ex_tx) y (tx_encode_ok _ (proj1 LTxEx.ex_tx_ok)) ltac:(eexists; split; [reflexivity|repeat constructor]) E2)|]. split; [exact F2|]. split; [exact G2|]. split; [reflexivity|]. split; [reflexivity|].
  split; [vm_compute; reflexivity|]. split; [reflexivity|]. eexists. split; [reflexivity|]. rewrite C08_txid. reflexivity.
Qed.
Print Assumptions C76_proof.
Print Assumptions C76_spv.
Print Assumptions C76_block.
Print Assumptions C76_download.
Print Assumptions C76_filter.
Print Assumptions C76_filter_checked.
Print Assumptions C76_compact.
