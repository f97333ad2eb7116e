(** C71: the fuzzing generators of blocks and peer-to-peer messages.  Generators: MArb2.v, specification: SArb.v. *)
From Coq Require Import String.
From Verif Require Import Base MText MWitness MTx MDec MPmt MBip152 MP2p MP2pMsg MSocket MArb MArb2 SArb.
From Verif Require Import SWire SBip152 SP2p SPmt LDec LWire LTx2 LP2p LP2p2 LP2p4 LP2p8 LPmt3 LBuilt LArb PHex PPmt PP2p PArb.
From Verif Require LWitness LHex LTxEx MAgent SAgent.
Local Open Scope list_scope.
Local Open Scope N_scope.

Lemma hash_got : forall h, arb_hash (Got h) <-> hash_ok h.
Proof. intro h. unfold arb_hash, arb_array. apply any_got. Qed.
Lemma block_version_got : forall v, arb_block_version (Got v) <-> is_u32 v.
Proof.
  intro v. unfold arb_block_version. split.
  - intro H. ginv. apply upto3 in G. destruct G as [->|[->|[->| ->]]]; cbv beta iota in K; ginv; subst; reflexivity || assumption.
  - intro H. gdraw 3; [apply range_got; lia|]. now apply any_got.
Qed.
(** Every header can be made, and nothing else. *)
Theorem C71_header : panic_free arb_header /\ makes arb_header header_ok.
Proof.
  split.
  - unfold panic_free, arb_header, arb_block_version, arb_hash. intro H. ginv; try lia. apply upto3 in G. destruct G as [->|[->|[->| ->]]]; cbv beta iota in K; ginv.
  - intro h. unfold arb_header. split.
    + intro H. apply gbind_got in H as (v & Hv & H). apply gbind_got in H as (p & Hp & H). apply gbind_got in H as (m & Hm & H). apply block_version_got in Hv. apply hash_got in Hp, Hm. ginv. subst h. repeat split; try apply Hp; try apply Hm; assumption.
    + destruct h as [v p m t b n]. intros (A & B & C & D & E & F). cbn [h_version h_prev h_merkle h_time h_bits h_nonce] in *.
      gdraw v; [now apply block_version_got|]. gdraw p; [now apply hash_got|]. gdraw m; [now apply hash_got|]. gdraw t; [now apply any_got|]. gdraw b; [now apply any_got|]. gdraw n; [now apply any_got|]. now apply gret_got.
Qed.
Print Assumptions C71_header.

(** A generated block obeys the rules of the decoder and, within its limits on counts and lengths, survives being written and read; *)
Theorem C71_block : forall b, arb_block (Got b) ->
  header_ok (b_header b) /\ Forall tx_rules (b_txs b) /\
  (lenN (b_txs b) <= 4000000 -> Forall sizes (b_txs b) -> block_ok b /\ decode_from_slice block_dec (block_encode b) = Ret (Ok b)).
Proof.
  intros b H. unfold arb_block in H. apply gbind_got in H as (h & Hh & H). apply gbind_got in H as (l & Hl & H). rewrite gret_got in H. subst b. cbn [b_header b_txs].
  apply C71_header in Hh. rewrite vec_got in Hl. split; [exact Hh|]. split.
  - eapply Forall_impl; [|exact Hl]. intros tx T. exact (proj1 (C71_transaction tx T)).
  - intros L S. assert (OK : block_ok {| b_header := h; b_txs := l |}).
    { split; [exact Hh|]. cbn [b_txs]. split; [exact L|]. rewrite Forall_forall in *. intros tx I. destruct (C71_transaction tx (Hl tx I)) as [_ X]. now apply X, S. }
    split; [exact OK|]. apply (codec_slice block_codec'); [now apply LHex.block_encode_ok|]. split; [reflexivity|exact OK].
Qed.
Print Assumptions C71_block.
(** every block that the decoder accepts can be generated, *)
Theorem C71_block_all : forall b, block_ok b -> arb_block (Got b).
Proof.
  intros [h l] [A [_ B]]. cbn [b_header b_txs] in *. unfold arb_block. gdraw h; [now apply C71_header|].
  gdraw l; [apply vec_got; eapply Forall_impl; [|exact B]; intros tx T; now apply C71_transaction_all|]. now apply gret_got.
Qed.
Print Assumptions C71_block_all.
(** and generating one panics only if a drawn witness takes four gibibytes or more. *)
Theorem C71_block_panic : arb_block Panicked -> exists ls, Forall bytes_ok ls /\ 2 ^ 32 <= lenN (concat (map wire_bytes ls)).
Proof.
  intro H. unfold arb_block in H. apply gbind_panic in H as [(h & _ & H)|H]; [|now apply C71_header in H].
  apply gbind_panic in H as [(l & _ & H)|H]; [now apply gret_panic in H|]. rewrite vec_panic in H. now apply C71_transaction_panic.
Qed.
Print Assumptions C71_block_panic.

(** * Messages *)
(** the limits of the decoders on counts and lengths *)
Definition fits (m : message) : Prop :=
  match m with
  | MVersion v => lenN (as_bytes (v_user_agent v)) <= 4000000
  | MAddr l => lenN l <= 4000000
  | MInv l | MGetData l | MNotFound l => lenN l <= 4000000
  | MGetBlocks g | MGetHeaders g => lenN (gb_locator g) <= 4000000
  | MTx t => sizes t
  | MBlock b => lenN (b_txs b) <= 4000000 /\ Forall sizes (b_txs b)
  | MHeaders l => lenN l <= 4000000
  | MMerkleBlock b => lenN (pm_hashes (mb_txn b)) <= 4000000 /\ lenN (pm_bits (mb_txn b)) <= 32000000
  | MFilterLoad f => lenN (fl_filter f) <= 4000000
  | MFilterAdd b | MAlert b => lenN b <= 4000000
  | MCFilter c => lenN (cf_filter c) <= 4000000
  | MCFHeaders c => lenN (ch_hashes c) <= 4000000
  | MCFCheckpt c => lenN (cc_headers c) <= 4000000
  | MCmpctBlock c => lenN (cb_short_ids c) + lenN (cb_prefilled c) < 2 ^ 16 /\ Forall (fun p => sizes (pf_tx p)) (cb_prefilled c)
  | MGetBlockTxn r => lenN (rq_offsets r) <= 4000000
  | MBlockTxn t => lenN (bt_txs t) <= 4000000 /\ Forall sizes (bt_txs t)
  | MReject r => lenN (as_bytes (r_message r)) <= 4000000 /\ lenN (as_bytes (r_reason r)) <= 4000000
  | MAddrV2 l => lenN l <= 4000000
  | _ => True
  end.
(** an inventory item of an unknown kind with the number of a known one *)
Definition mislabelled (i : inventory) : Prop := exists t h, i = InvUnknown t h /\ In t [0; 1; 2; 4; 5; 2 ^ 30 + 1; 2 ^ 30 + 2].
(** the messages that do not survive: such an item, an offset that the decoder does not take, a name that is not unknown *)
Definition misfit (m : message) : Prop :=
  match m with
  | MInv l | MGetData l | MNotFound l => exists i, In i l /\ mislabelled i
  | MGetBlockTxn r => exists o, In o (rq_offsets r) /\ 4000000 < o
  | MUnknown c _ => exists s, field s c /\ In s known
  | _ => False
  end.

Lemma char_utf8_all : forall c, c < 0x110000 -> ~ 0xD800 <= c <= 0xDFFF -> utf8_char c (char_utf8 c).
Proof.
  intros c L S. unfold char_utf8. destruct (N.ltb_spec c 128) as [A|A]; [now constructor|]. destruct (N.ltb_spec c 2048) as [B|B].
  { pose proof (N.div_mod c 64 ltac:(lia)) as E. pose proof (N.mod_lt c 64 ltac:(lia)) as M. set (x := c / 64) in *. set (y := c mod 64) in *. clearbody x y.
    replace c with (x * 64 + y) by lia. constructor; lia. }
  pose proof (N.div_mod c 64 ltac:(lia)) as E. pose proof (N.mod_lt c 64 ltac:(lia)) as M.
  assert (E4 : c / 4096 = c / 64 / 64) by (rewrite N.div_div by lia; reflexivity).
  pose proof (N.div_mod (c / 64) 64 ltac:(lia)) as E'. pose proof (N.mod_lt (c / 64) 64 ltac:(lia)) as M'.
  destruct (N.ltb_spec c 65536) as [C|C].
  { rewrite E4. set (x := c / 64) in *. set (y := c mod 64) in *. set (z := x / 64) in *. set (w := x mod 64) in *. clearbody x y z w.
    replace c with (z * 4096 + w * 64 + y) by lia. constructor; lia. }
  assert (E5 : c / 262144 = c / 64 / 64 / 64) by (rewrite !N.div_div by lia; reflexivity).
  pose proof (N.div_mod (c / 64 / 64) 64 ltac:(lia)) as E''. pose proof (N.mod_lt (c / 64 / 64) 64 ltac:(lia)) as M''.
  rewrite E4, E5. set (x := c / 64) in *. set (y := c mod 64) in *. set (z := x / 64) in *. set (w := x mod 64) in *. set (u := z / 64) in *. set (v := z mod 64) in *. clearbody x y z w u v.
  replace c with (u * 262144 + v * 4096 + w * 64 + y) by lia. constructor; lia.
Qed.
Lemma utf8_all : forall s, Forall (fun c => c < 0x110000 /\ ~ 0xD800 <= c <= 0xDFFF) s -> utf8 s (as_bytes s).
Proof.
  intros s F. induction F as [|c s [A B] F IH]; [exists []; split; [constructor|reflexivity]|]. unfold as_bytes. cbn [flat_map].
  apply utf8_cons; [now apply char_utf8_all|exact IH].
Qed.
Lemma address_got : forall a, arb_address (Got a) -> address_ok a.
Proof.
  intros a H. unfold arb_address in H. apply gbind_got in H as (b & _ & H). apply gbind_got in H as (s & Hs & H). apply gbind_got in H as (sv & Hv & H). rewrite gret_got in H. subst a.
  unfold arb_u64 in Hv. rewrite any_got in Hv. destruct b; apply gbind_got in Hs as (o & Ho & Hs); apply gbind_got in Hs as (q & Hq & Hs); rewrite gret_got in Hs; subst s; unfold arb_u16 in Hq; rewrite any_got in Hq; unfold address_new, address_ok; cbn [a_services a_addr a_port].
  - unfold arb_array in Ho. rewrite any_got in Ho. destruct Ho as [L B]. unfold to_ipv6_mapped. destruct o as [|x [|y [|z [|w [|u o]]]]]; try (exfalso; unfold lenN in L; cbn [length] in L; lia).
    unfold bytes_ok in B. rewrite !Forall_cons_iff in B. unfold byte_ok in B. destruct B as (B1 & B2 & B3 & B4 & _).
    split; [exact Hv|]. split; [reflexivity|]. split; [|exact Hq]. cbn [app segments]. repeat constructor; unfold group_ok; lia.
  - unfold arb_segments in Ho. rewrite any_got in Ho. destruct Ho as [L B]. split; [exact Hv|]. split; [exact L|]. split; [exact B|exact Hq].
Qed.
Lemma txs_got : forall l, Forall (fun t => arb_transaction (Got t)) l -> Forall sizes l -> Forall tx_ok l.
Proof. intros l G S. rewrite Forall_forall in *. intros t I. destruct (C71_transaction t (G t I)) as [_ X]. now apply X, S. Qed.
Lemma pmt_got : forall p, arb_pmt (Got p) -> lenN (pm_hashes p) <= 4000000 -> lenN (pm_bits p) <= 32000000 -> pmt_ok p /\ lenN (pm_bits p) mod 8 = 0.
Proof.
  intros p H L1 L2. destruct C71_pmt as [_ X]. destruct (X p H) as [M _]. split; [|exact M]. unfold arb_pmt in H. apply gbind_got in H as (bits & _ & H). apply gbind_got in H as (n & Hn & H). apply gbind_got in H as (hs & Hh & H). rewrite gret_got in H. subst p. cbn [pm_bits pm_hashes pm_num] in *.
  unfold arb_u32 in Hn. rewrite any_got in Hn. rewrite vec_got in Hh. unfold pmt_ok. cbn [pm_bits pm_hashes pm_num]. split; [exact Hn|]. split; [eapply Forall_impl; [|exact Hh]; intros h A; unfold arb_array in A; now rewrite any_got in A|]. split; [exact L1|].
  apply N.lt_succ_r, N.div_lt_upper_bound; lia.
Qed.
Lemma block_number_got : forall n, arb_block_number (Got n) -> is_u32 n.
Proof. intros n H. apply C71_block_number in H. destruct H as [->| ->]; reflexivity. Qed.
Lemma get_cf_got : forall g, arb_get_cf (Got g) -> exists p, reads_get_cf g p.
Proof.
  intros g H. unfold arb_get_cf in H. apply gbind_got in H as (t & Ht & H). apply gbind_got in H as (h & Hh & H). apply gbind_got in H as (s & Hs & H). rewrite gret_got in H. subst g.
  unfold arb_u8 in Ht. rewrite any_got in Ht. apply hash_got in Hs. apply block_number_got in Hh. eexists. split; [exact Ht|]. split; [exact Hh|]. split; [exact Hs|reflexivity].
Qed.
Lemma hashes_got : forall l, Forall (fun h => arb_hash (Got h)) l -> Forall hash_ok l.
Proof. intros l H. eapply Forall_impl; [|exact H]. intros h. apply hash_got. Qed.
Lemma get_blocks_got : forall g, arb_get_blocks (Got g) -> lenN (gb_locator g) <= 4000000 -> exists p, reads_get_blocks g p.
Proof.
  intros g H L. unfold arb_get_blocks in H. apply gbind_got in H as (v & Hv & H). apply gbind_got in H as (l & Hl & H). apply gbind_got in H as (s & Hs & H). rewrite gret_got in H. subst g. cbn [gb_locator] in L.
  unfold arb_u32 in Hv. rewrite any_got in Hv. rewrite vec_got in Hl. apply hashes_got in Hl. apply hash_got in Hs. eexists. split; [exact Hv|]. split; [split; [exact L|exact Hl]|]. split; [exact Hs|reflexivity].
Qed.
Lemma inventories_got : forall l, Forall (fun i => arb_inventory (Got i)) l -> (~ exists i, In i l /\ mislabelled i) -> Forall inventory_ok l.
Proof.
  intros l H N. rewrite Forall_forall in *. intros i I. specialize (H i I). unfold arb_inventory in H. ginv. apply upto7 in G. destruct G as [->|[->|[->|[->|[->|[->|[->| ->]]]]]]]; cbv beta iota in K; ginv; subst i; try exact G.
  destruct (in_dec N.eq_dec v [0; 1; 2; 4; 5; 2 ^ 30 + 1; 2 ^ 30 + 2]) as [J|J]; [exfalso; apply N; eexists; split; [exact I|]; unfold mislabelled; eauto|]. split; [exact G|]. split; [exact J|]. assumption.
Qed.
Lemma header_got : forall h, arb_header (Got h) -> header_ok h.
Proof. intros h H. now apply C71_header. Qed.
Lemma upto36 : forall n, 0 <= n <= 36 -> In n (map N.of_nat (seq 0 37)).
Proof. intros n H. apply in_map_iff. exists (N.to_nat n). split; [lia|]. apply in_seq. lia. Qed.

Lemma fee_got : forall r, arb_fee_filter (Got r) -> exists p, reads (MFeeFilter r) p.
Proof.
  intros r H. destruct C71_fee_filter as [_ X]. specialize (X r H).
  assert (B : bytes_ok (fee_filter_encode r)) by apply le_bytes_ok.
  apply (codec_slice fee_filter_codec _ _ B) in X. destruct X as [_ (k & E1 & E2)]. exists (le_bytes 8 k), k. auto.
Qed.
Lemma ascii_scalar : forall s, Forall (fun c => c < 128) s -> Forall (fun c => c < 0x110000 /\ ~ 0xD800 <= c <= 0xDFFF) s.
Proof. intros s F. eapply Forall_impl; [|exact F]. intros c H. cbv beta in *. lia. Qed.
Lemma fmt_u_ascii : forall n, Forall (fun c => c < 128) (fmt_u n).
Proof. intro n. apply Forall_forall. intros c I. destruct (LText.numeral_in _ _ _ _ _ (proj1 (LText.fmt_u_canonical n)) I) as [d D]. unfold SText.digit10 in D. lia. Qed.
Lemma agent_chars : forall a, arb_user_agent (Got a) -> Forall (fun c => c < 0x110000 /\ ~ 0xD800 <= c <= 0xDFFF) a.
Proof.
  intros a H. apply C71_user_agent in H as (name & sw & C & _ & S & _ & ->). unfold SAgent.agent_text. cbn [map concat]. unfold SAgent.client_text. cbn [MAgent.c_name MAgent.c_software MAgent.c_comments].
  assert (V : Forall (fun c => c < 128) (SAgent.version_text sw)).
  { destruct sw as [x y z|y m d]; cbn [SAgent.version_text SAgent.joined]; rewrite ?Forall_app; repeat split; try apply fmt_u_ascii; try (repeat constructor; fail).
    all: unfold SAgent.two_digits; match goal with |- context [if ?b then _ else _] => destruct b end; rewrite ?Forall_app; repeat split; try apply fmt_u_ascii; repeat constructor. }
  rewrite !Forall_app. repeat split; try exact C; apply ascii_scalar; try exact V; repeat constructor.
Qed.

(** Within the limits of the decoders every generated message that is none of the three misfits travels under its own name and
    has a payload that is read as that message; *)
Theorem C71_message : forall m, arb_message (Got m) -> fits m -> ~ misfit m ->
  exists c, command m = Ret c /\ named m c /\ reads m (payload_encode m).
Proof.
  intros m H F M.
  assert (R : exists p, reads m p).
  { unfold arb_message in H. apply gbind_got in H as (choice & Hc & H). rewrite range_got in Hc. apply upto36 in Hc. cbn [map seq N.of_nat Pos.of_succ_nat Pos.succ In] in Hc.
    repeat (destruct Hc as [<-|Hc]); [..|contradiction]; cbv beta iota in H;
      try (rewrite gret_got in H; subst m; exists []; reflexivity);
      apply gbind_got in H as (x & Hx & H); try (rewrite gret_got in H; subst m; cbn [fits misfit reads] in * ).
    - (* version *) unfold arb_version_msg in Hx. apply gbind_got in Hx as (v & Hv & Hx). apply gbind_got in Hx as (s & Hs & Hx). apply gbind_got in Hx as (t & Ht & Hx). apply gbind_got in Hx as (r & Hr & Hx).
      apply gbind_got in Hx as (f & Hf & Hx). apply gbind_got in Hx as (n & Hn & Hx). apply gbind_got in Hx as (a & Ha & Hx). apply gbind_got in Hx as (h & Hh & Hx). rewrite gret_got in Hx. subst x. cbn [v_user_agent] in F.
      unfold arb_u32, arb_u64, arb_i64, arb_i32 in *. rewrite any_got in *. apply address_got in Hr, Hf.
      eexists. unfold reads_version. cbn [v_version v_services v_timestamp v_receiver v_sender v_nonce v_user_agent v_start_height v_relay].
      split; [exact Hv|]. split; [exact Hs|]. split; [exact Ht|]. split; [exact Hr|]. split; [exact Hf|]. split; [exact Hn|]. split; [exact Hh|].
      exists (as_bytes a), 0. split; [apply utf8_all; now apply agent_chars|]. split; [exact F|]. split; [reflexivity|]. split; [|reflexivity]. split; intro Q; [discriminate Q|now destruct Q].
    - (* addr *) rewrite vec_got in Hx. eexists. split; [|reflexivity]. split; [exact F|]. eapply Forall_impl; [|exact Hx]. intros y Hy. unfold arb_addr_v1 in Hy. apply gbind_got in Hy as (t & Ht & Hy). apply gbind_got in Hy as (a & Ha & Hy). rewrite gret_got in Hy. subst y. cbn [fst snd]. apply address_got in Ha. unfold arb_u32 in Ht. rewrite any_got in Ht. split; assumption.
    - rewrite vec_got in Hx. eexists. split; [|reflexivity]. split; [exact F|now apply inventories_got].
    - rewrite vec_got in Hx. eexists. split; [|reflexivity]. split; [exact F|now apply inventories_got].
    - rewrite vec_got in Hx. eexists. split; [|reflexivity]. split; [exact F|now apply inventories_got].
    - now apply get_blocks_got.
    - now apply get_blocks_got.
    - (* tx *) eexists. split; [|reflexivity]. destruct (C71_transaction x Hx) as [_ X]. now apply X.
    - (* block *) eexists. split; [|reflexivity]. destruct (C71_block x Hx) as (_ & _ & X). destruct F as [F1 F2]. now apply X.
    - (* headers *) rewrite vec_got in Hx. eexists. split; [|reflexivity]. split; [exact F|]. eapply Forall_impl; [|exact Hx]. intros y Hy. unfold arb_net_header in Hy. apply gbind_got in Hy as (h & Hh & Hy). apply gbind_got in Hy as (n & Hn & Hy). rewrite gret_got in Hy. subst y. cbn [fst snd]. apply header_got in Hh. unfold arb_u8 in Hn. rewrite any_got in Hn. split; assumption.
    - unfold arb_u64 in Hx. rewrite any_got in Hx. eexists. split; [exact Hx|reflexivity].
    - unfold arb_u64 in Hx. rewrite any_got in Hx. eexists. split; [exact Hx|reflexivity].
    - (* merkleblock *) unfold arb_merkle_block in Hx. apply gbind_got in Hx as (h & Hh & Hx). apply gbind_got in Hx as (t & Ht & Hx). rewrite gret_got in Hx. subst x. cbn [mb_header mb_txn] in *. destruct F as [F1 F2]. apply header_got in Hh. destruct (pmt_got t Ht F1 F2) as [P1 P2].
      eexists. split; [exact Hh|]. split; [exact P1|]. split; [exact P2|]. eexists. split; [|reflexivity]. eexists. split; [apply pack_spec|reflexivity].
    - (* filterload *) unfold arb_filter_load in Hx. apply gbind_got in Hx as (f & Hf & Hx). apply gbind_got in Hx as (h & Hh & Hx). apply gbind_got in Hx as (t & Ht & Hx). apply gbind_got in Hx as (l & _ & Hx). rewrite gret_got in Hx. subst x. cbn [fl_filter fl_hash_funcs fl_tweak fl_flags] in *.
      rewrite bytes_got in Hf. unfold arb_u32 in *. rewrite any_got in *. eexists. split; [split; [exact F|exact Hf]|]. split; [exact Hh|]. split; [exact Ht|reflexivity].
    - rewrite bytes_got in Hx. eexists. split; [split; [exact F|exact Hx]|reflexivity].
    - now apply get_cf_got.
    - (* cfilter *) unfold arb_cfilter in Hx. apply gbind_got in Hx as (t & Ht & Hx). apply gbind_got in Hx as (b & Hb & Hx). apply gbind_got in Hx as (f & Hf & Hx). rewrite gret_got in Hx. subst x. cbn [cf_type cf_block cf_filter] in *. rewrite bytes_got in Hf. apply hash_got in Hb. unfold arb_u8 in Ht. rewrite any_got in Ht.
      eexists. split; [exact Ht|]. split; [exact Hb|]. split; [split; [exact F|exact Hf]|reflexivity].
    - now apply get_cf_got.
    - (* cfheaders *) unfold arb_cfheaders in Hx. apply gbind_got in Hx as (t & Ht & Hx). apply gbind_got in Hx as (s & Hs & Hx). apply gbind_got in Hx as (q & Hq & Hx). apply gbind_got in Hx as (l & Hl & Hx). rewrite gret_got in Hx. subst x. cbn [ch_type ch_stop ch_previous ch_hashes] in *. rewrite vec_got in Hl. apply hashes_got in Hl. apply hash_got in Hs, Hq. unfold arb_u8 in Ht. rewrite any_got in Ht.
      eexists. split; [exact Ht|]. split; [exact Hs|]. split; [exact Hq|]. split; [split; [exact F|exact Hl]|reflexivity].
    - (* getcfcheckpt *) unfold arb_get_cfcheckpt in Hx. apply gbind_got in Hx as (t & Ht & Hx). apply gbind_got in Hx as (s & Hs & Hx). rewrite gret_got in Hx. subst x. apply hash_got in Hs. unfold arb_u8 in Ht. rewrite any_got in Ht. eexists. split; [exact Ht|]. split; [exact Hs|reflexivity].
    - (* cfcheckpt *) unfold arb_cfcheckpt in Hx. apply gbind_got in Hx as (t & Ht & Hx). apply gbind_got in Hx as (s & Hs & Hx). apply gbind_got in Hx as (l & Hl & Hx). rewrite gret_got in Hx. subst x. cbn [cc_type cc_stop cc_headers] in *. rewrite vec_got in Hl. apply hashes_got in Hl. apply hash_got in Hs. unfold arb_u8 in Ht. rewrite any_got in Ht.
      eexists. split; [exact Ht|]. split; [exact Hs|]. split; [split; [exact F|exact Hl]|reflexivity].
    - (* sendcmpct *) unfold arb_send_cmpct in Hx. apply gbind_got in Hx as (b & _ & Hx). apply gbind_got in Hx as (v & Hv & Hx). rewrite gret_got in Hx. subst x. unfold arb_u64 in Hv. rewrite any_got in Hv. eexists. split; [exact Hv|reflexivity].
    - (* cmpctblock *) unfold arb_cb in Hx. apply gbind_got in Hx as (h & Hh & Hx). apply gbind_got in Hx as (n & Hn & Hx). apply gbind_got in Hx as (s & Hs & Hx). apply gbind_got in Hx as (l & Hl & Hx). rewrite gret_got in Hx. subst x. cbn [cb_short_ids cb_prefilled] in F. destruct F as [F1 F2]. apply header_got in Hh. rewrite vec_got in Hs, Hl. unfold arb_u64 in Hn. rewrite any_got in Hn.
      eexists. split; [|reflexivity]. unfold cb_ok. cbn [cb_header cb_nonce cb_short_ids cb_prefilled]. split; [exact Hh|]. split; [exact Hn|]. split; [|split; [|exact F1]].
      + eapply Forall_impl; [|exact Hs]. intros y Hy. unfold arb_array in Hy. now rewrite any_got in Hy.
      + rewrite Forall_forall in *. intros y I. specialize (Hl y I). specialize (F2 y I). unfold arb_prefilled in Hl. apply gbind_got in Hl as (i & Hi & Hl). apply gbind_got in Hl as (t & Ht & Hl). rewrite gret_got in Hl. subst y. cbn [pf_tx] in F2. unfold arb_u16 in Hi. rewrite any_got in Hi. split; [exact Hi|]. cbn [pf_tx]. destruct (C71_transaction t Ht) as [_ X]. now apply X.
    - (* getblocktxn *) unfold arb_request in Hx. apply gbind_got in Hx as (h & Hh & Hx). apply gbind_got in Hx as (l & _ & Hx). rewrite gret_got in Hx. subst x. cbn [rq_offsets] in *. apply hash_got in Hh. eexists. split; [|reflexivity]. split; [exact Hh|]. cbn [rq_offsets]. split; [exact F|]. apply Forall_forall. intros o I. unfold MAX_LEN. destruct (N.le_gt_cases o 4000000) as [A|A]; [exact A|]. exfalso. apply M. exists o. auto.
    - (* blocktxn *) unfold arb_block_txs in Hx. apply gbind_got in Hx as (h & Hh & Hx). apply gbind_got in Hx as (l & Hl & Hx). rewrite gret_got in Hx. subst x. cbn [bt_txs] in *. apply hash_got in Hh. rewrite vec_got in Hl. destruct F as [F1 F2]. eexists. split; [|reflexivity]. split; [exact Hh|]. cbn [bt_txs]. split; [exact F1|now apply txs_got].
    - rewrite bytes_got in Hx. eexists. split; [split; [exact F|exact Hx]|reflexivity].
    - (* reject *) unfold arb_reject in Hx. apply gbind_got in Hx as (a & Ha & Hx). apply gbind_got in Hx as (c & _ & Hx). apply gbind_got in Hx as (r & Hr & Hx). apply gbind_got in Hx as (h & Hh & Hx). rewrite gret_got in Hx. subst x. cbn [r_message r_reason] in F. destruct F as [F1 F2]. apply hash_got in Hh. unfold arb_string in *. rewrite any_got in *.
      eexists. split; [exact Hh|]. exists (as_bytes a), (as_bytes r). cbn [r_message r_reason]. split; [now apply utf8_all|]. split; [now apply utf8_all|]. split; [exact F1|]. split; [exact F2|reflexivity].
    - (* feefilter *) now apply fee_got.
    - (* addrv2 *) rewrite vec_got in Hx. eexists. split; [|reflexivity]. split; [exact F|]. eapply Forall_impl; [|exact Hx]. intros y Hy. unfold arb_addr_v2_msg in Hy. apply gbind_got in Hy as (t & Ht & Hy). apply gbind_got in Hy as (s & Hs & Hy). apply gbind_got in Hy as (a & Ha & Hy). apply gbind_got in Hy as (q & Hq & Hy). rewrite gret_got in Hy. subst y. cbn [am_time am_services am_addr am_port].
      unfold arb_u32, arb_u64, arb_u16 in *. rewrite any_got in *. destruct C71_addr_v2 as (_ & X & _). apply X in Ha. destruct Ha as [Ha _]. auto.
    - (* unknown *) apply gbind_got in H as (q & _ & H). rewrite gret_got in H. subst m. eexists. reflexivity. }
  destruct R as [p R]. destruct (reads_len m p R) as [_ R'].
  assert (Nm : exists c, named m c).
  { destruct m; try (apply named_exists; intros; discriminate). exists command. exists payload. split; [reflexivity|].
    assert (K : exists s, field s command).
    { apply C71_command. unfold arb_message in H. apply gbind_got in H as (choice & Hc & H). rewrite range_got in Hc. apply upto36 in Hc. cbn [map seq N.of_nat Pos.of_succ_nat Pos.succ In] in Hc.
      repeat (destruct Hc as [<-|Hc]); [..|contradiction]; cbv beta iota in H; try (rewrite gret_got in H; discriminate H); apply gbind_got in H as (x & Hx & H); try (rewrite gret_got in H; discriminate H).
      apply gbind_got in H as (q & _ & H). rewrite gret_got in H. injection H as -> _. exact Hx. }
    destruct K as [s K]. exists s. split; [exact K|]. intro I. apply M. cbn [misfit]. eauto. }
  destruct Nm as [c Nm]. exists c. split; [now apply command_named|]. auto.
Qed.
Print Assumptions C71_message.
(** the three kinds of misfit are generated and do not survive: a message with a name of its own that is a known name, *)
Theorem C71_message_refuted : forall sha256d, (forall m, hash_ok (sha256d m)) -> forall magic, fixed 4 magic ->
  exists m x y, arb_message (Got m) /\ fits m /\ v1_new sha256d magic m = Ret x /\
    decode_from_slice_unbounded (v1_dec sha256d) (v1_encode x) = Ret (Ok y, []) /\ v1_payload y <> m.
Proof.
  intros sha256d HS magic M. destruct (C33_unknown_refuted sha256d HS magic M) as (x & E & y & D & P). eexists _, x, y. split; [|split; [|split; [exact E|split; [exact D|rewrite P; discriminate]]]]; [|exact I].
  unfold arb_message. gdraw 36; [apply range_got; lia|]. cbv beta iota. apply gbind_got. eexists. split; [apply C71_command|].
  - exists (lit "ping"). split; [repeat constructor|]. exists 8%nat. split; reflexivity.
  - apply gbind_got. eexists. split; [apply bytes_got; apply le_bytes_ok|]. now apply gret_got.
Qed.
Print Assumptions C71_message_refuted.
(** and a request with an offset that the decoder refuses. *)
Theorem C71_request_refuted : exists r e, arb_message (Got (MGetBlockTxn r)) /\ lenN (rq_offsets r) = 1 /\
  decode_from_slice request_dec (request_encode r) = Ret (Err e).
Proof.
  exists (mk_rq (repeat 7 32) [4000001]). eexists. split; [|split; [reflexivity|vm_compute; reflexivity]].
  unfold arb_message. gdraw 28; [apply range_got; lia|]. cbv beta iota. apply gbind_got. eexists. split; [|now apply gret_got].
  unfold arb_request. gdraw (repeat 7 32); [apply hash_got; split; [reflexivity|repeat constructor]|]. gdraw [4000001]; [|now apply gret_got].
  apply vec_got. constructor; [apply any_got; reflexivity|constructor].
Qed.
Print Assumptions C71_request_refuted.
(** The generator makes no message of the two newest kinds, and no version message that asks for relaying. *)
Theorem C71_message_kinds : forall m, arb_message (Got m) ->
  (forall s, m <> MSendTxRcnCl s) /\ (forall f, m <> MFeature f) /\ (forall v, m = MVersion v -> v_relay v = false).
Proof.
  intros m H. unfold arb_message in H. apply gbind_got in H as (choice & Hc & H). rewrite range_got in Hc. apply upto36 in Hc. cbn [map seq N.of_nat Pos.of_succ_nat Pos.succ In] in Hc.
  repeat (destruct Hc as [<-|Hc]); [..|contradiction]; cbv beta iota in H;
    try (rewrite gret_got in H; subst m; repeat split; intros; discriminate);
    apply gbind_got in H as (x & Hx & H); try (apply gbind_got in H as (q & _ & H)); rewrite gret_got in H; subst m; try (repeat split; intros; discriminate).
  split; [discriminate|]. split; [discriminate|]. intros v E. injection E as <-. unfold arb_version_msg in Hx. ginv. now subst x.
Qed.
Print Assumptions C71_message_kinds.
Theorem C71_message_kinds_refuted : exists m p, reads m p /\ ~ arb_message (Got m).
Proof.
  exists (MSendTxRcnCl (1, 7)). eexists. split; [split; [reflexivity|split; [reflexivity|reflexivity]]|]. intro H. destruct (C71_message_kinds _ H) as [A _]. exact (A _ eq_refl).
Qed.
Print Assumptions C71_message_kinds_refuted.
Lemma plain_sizes : sizes LTxEx.ex_plain.
Proof.
  split; [vm_compute; discriminate|]. split; [vm_compute; discriminate|]. split; [repeat constructor; vm_compute; discriminate|].
  constructor; [|constructor]. split; [vm_compute; discriminate|]. intros ls S. apply stack_of_layout in S as [E _].
  assert (L : lenN ls = 0) by (change (lenN ls) with (wt_elements (LWitness.layout ls)); rewrite <- E; reflexivity).
  destruct ls; [|rewrite lenN_cons in L; lia]. split; [vm_compute; discriminate|constructor].
Qed.
(** It makes messages of every other kind that has a name. *)
Definition h0 : header := {| h_version := 1; h_prev := repeat 0 32; h_merkle := repeat 0 32; h_time := 0; h_bits := 0; h_nonce := 0 |}.
Lemma zeros : arb_hash (Got (repeat 0 32)).
Proof. apply hash_got. split; [reflexivity|repeat constructor]. Qed.
Lemma h0_got : arb_header (Got h0).
Proof. apply C71_header. repeat split; repeat constructor. Qed.
Lemma no_items : forall A (g : gen A), arb_vec g (Got []).
Proof. intros. apply vec_got. constructor. Qed.
Lemma zero_address : arb_address (Got (mk_addr 0 (repeat 0 8) 0)).
Proof.
  unfold arb_address. gdraw false; [now apply any_got|]. gdraw (SockV6 (repeat 0 8) 0 0 0).
  - gdraw (repeat 0 8); [apply any_got; split; [reflexivity|repeat constructor]|]. gdraw 0; [now apply any_got|now apply gret_got].
  - gdraw 0; [now apply any_got|now apply gret_got].
Qed.
Ltac pick k := unfold arb_message; gdraw k; [apply range_got; lia|]; cbv beta iota.
Theorem C71_message_every : forall i, (i < 36)%nat -> exists m, arb_message (Got m) /\ fits m /\ number m = Some i.
Proof.
  intros i L.
  assert (EV : exists v, arb_version_msg (Got v) /\ lenN (as_bytes (v_user_agent v)) <= 4000000).
  { exists (mk_version 0 0 0 (mk_addr 0 (repeat 0 8) 0) (mk_addr 0 (repeat 0 8) 0) 0 (lit "/btcd:0.24.2/") 0 false). split; [|vm_compute; discriminate].
    unfold arb_version_msg. gdraw 0; [now apply any_got|]. gdraw 0; [now apply any_got|]. gdraw 0%Z; [apply any_got; lia|]. gdraw (mk_addr 0 (repeat 0 8) 0); [apply zero_address|]. gdraw (mk_addr 0 (repeat 0 8) 0); [apply zero_address|].
    gdraw 0; [now apply any_got|]. gdraw (lit "/btcd:0.24.2/"); [exact C71_ex_agent|]. gdraw 0%Z; [apply any_got; lia|]. now apply gret_got. }
  assert (EG : arb_get_blocks (Got (mk_gb 0 [] (repeat 0 32)))) by (unfold arb_get_blocks; gdraw 0; [now apply any_got|]; gdraw (@nil bytes); [apply no_items|]; gdraw (repeat 0 32); [apply zeros|now apply gret_got]).
  assert (EC : arb_get_cf (Got (mk_gcf 0 0 (repeat 0 32)))) by (unfold arb_get_cf; gdraw 0; [now apply any_got|]; gdraw 0; [apply C71_block_number; now left|]; gdraw (repeat 0 32); [apply zeros|now apply gret_got]).
  assert (K : lenN (@nil N) <= 4000000) by (vm_compute; discriminate).
  assert (EP : arb_pmt (Got {| pm_num := 0; pm_bits := []; pm_hashes := [] |})) by (apply C71_pmt_all; [reflexivity|constructor|reflexivity]).
  do 36 (try (destruct i as [|i])); [..|exfalso; lia].
  - destruct EV as (v & V1 & V2). exists (MVersion v). split; [pick 0; gdraw v; [exact V1|now apply gret_got]|]. split; [exact V2|reflexivity].
  - exists (MBare Verack). split; [pick 1; now apply gret_got|split; [exact I|reflexivity]].
  - exists (MAddr []). split; [pick 2; gdraw (@nil (N * address)); [apply no_items|now apply gret_got]|split; [exact K|reflexivity]].
  - exists (MInv []). split; [pick 3; gdraw (@nil inventory); [apply no_items|now apply gret_got]|split; [exact K|reflexivity]].
  - exists (MGetData []). split; [pick 4; gdraw (@nil inventory); [apply no_items|now apply gret_got]|split; [exact K|reflexivity]].
  - exists (MNotFound []). split; [pick 5; gdraw (@nil inventory); [apply no_items|now apply gret_got]|split; [exact K|reflexivity]].
  - eexists (MGetBlocks _). split; [pick 6; apply gbind_got; eexists; split; [exact EG|now apply gret_got]|split; [exact K|reflexivity]].
  - eexists (MGetHeaders _). split; [pick 7; apply gbind_got; eexists; split; [exact EG|now apply gret_got]|split; [exact K|reflexivity]].
  - exists (MBare MemPool). split; [pick 8; now apply gret_got|split; [exact I|reflexivity]].
  - exists (MTx LTxEx.ex_plain). split; [pick 9; gdraw LTxEx.ex_plain; [apply C71_transaction_all; exact LTxEx.ex_plain_ok|now apply gret_got]|split; [exact plain_sizes|reflexivity]].
  - exists (MBlock {| b_header := h0; b_txs := [] |}). split; [pick 10; apply gbind_got; eexists; split; [|now apply gret_got]; unfold arb_block; gdraw h0; [apply h0_got|]; gdraw (@nil transaction); [apply no_items|now apply gret_got]|split; [split; [exact K|constructor]|reflexivity]].
  - exists (MHeaders []). split; [pick 11; gdraw (@nil (header * N)); [apply no_items|now apply gret_got]|split; [exact K|reflexivity]].
  - exists (MBare SendHeaders). split; [pick 12; now apply gret_got|split; [exact I|reflexivity]].
  - exists (MBare GetAddr). split; [pick 13; now apply gret_got|split; [exact I|reflexivity]].
  - exists (MPing 0). split; [pick 14; gdraw 0; [now apply any_got|now apply gret_got]|split; [exact I|reflexivity]].
  - exists (MPong 0). split; [pick 15; gdraw 0; [now apply any_got|now apply gret_got]|split; [exact I|reflexivity]].
  - eexists (MMerkleBlock _). split; [pick 16; apply gbind_got; eexists; split; [|now apply gret_got]; unfold arb_merkle_block; gdraw h0; [apply h0_got|]; apply gbind_got; eexists; split; [exact EP|now apply gret_got]|split; [split; [exact K|vm_compute; discriminate]|reflexivity]].
  - exists (MFilterLoad (mk_fl [] 0 0 BNone)). split; [pick 17; apply gbind_got; eexists; split; [|now apply gret_got]; unfold arb_filter_load; gdraw (@nil N); [apply bytes_got; constructor|]; gdraw 0; [now apply any_got|]; gdraw 0; [now apply any_got|]; gdraw BNone; [|now apply gret_got]|split; [exact K|reflexivity]].
    unfold arb_bloom_flags. gdraw 0; [apply range_got; lia|now apply gret_got].
  - exists (MFilterAdd []). split; [pick 18; gdraw (@nil N); [apply bytes_got; constructor|now apply gret_got]|split; [exact K|reflexivity]].
  - exists (MBare FilterClear). split; [pick 19; now apply gret_got|split; [exact I|reflexivity]].
  - eexists (MGetCFilters _). split; [pick 20; apply gbind_got; eexists; split; [exact EC|now apply gret_got]|split; [exact I|reflexivity]].
  - exists (MCFilter (mk_cf 0 (repeat 0 32) [])). split; [pick 21; apply gbind_got; eexists; split; [|now apply gret_got]; unfold arb_cfilter; gdraw 0; [now apply any_got|]; gdraw (repeat 0 32); [apply zeros|]; gdraw (@nil N); [apply bytes_got; constructor|now apply gret_got]|split; [exact K|reflexivity]].
  - eexists (MGetCFHeaders _). split; [pick 22; apply gbind_got; eexists; split; [exact EC|now apply gret_got]|split; [exact I|reflexivity]].
  - exists (MCFHeaders (mk_cfh 0 (repeat 0 32) (repeat 0 32) [])). split; [pick 23; apply gbind_got; eexists; split; [|now apply gret_got]; unfold arb_cfheaders; gdraw 0; [now apply any_got|]; gdraw (repeat 0 32); [apply zeros|]; gdraw (repeat 0 32); [apply zeros|]; gdraw (@nil bytes); [apply no_items|now apply gret_got]|split; [exact K|reflexivity]].
  - exists (MGetCFCheckpt (0, repeat 0 32)). split; [pick 24; apply gbind_got; eexists; split; [|now apply gret_got]; unfold arb_get_cfcheckpt; gdraw 0; [now apply any_got|]; gdraw (repeat 0 32); [apply zeros|now apply gret_got]|split; [exact I|reflexivity]].
  - exists (MCFCheckpt (mk_cfc 0 (repeat 0 32) [])). split; [pick 25; apply gbind_got; eexists; split; [|now apply gret_got]; unfold arb_cfcheckpt; gdraw 0; [now apply any_got|]; gdraw (repeat 0 32); [apply zeros|]; gdraw (@nil bytes); [apply no_items|now apply gret_got]|split; [exact K|reflexivity]].
  - exists (MSendCmpct (true, 2)). split; [pick 26; apply gbind_got; eexists; split; [|now apply gret_got]; unfold arb_send_cmpct; gdraw true; [now apply any_got|]; gdraw 2; [now apply any_got|now apply gret_got]|split; [exact I|reflexivity]].
  - exists (MCmpctBlock (mk_cb h0 0 [] [])). split; [pick 27; apply gbind_got; eexists; split; [|now apply gret_got]; unfold arb_cb; gdraw h0; [apply h0_got|]; gdraw 0; [now apply any_got|]; gdraw (@nil bytes); [apply no_items|]; gdraw (@nil prefilled); [apply no_items|now apply gret_got]|split; [split; [reflexivity|constructor]|reflexivity]].
  - exists (MGetBlockTxn (mk_rq (repeat 0 32) [])). split; [pick 28; apply gbind_got; eexists; split; [|now apply gret_got]; unfold arb_request; gdraw (repeat 0 32); [apply zeros|]; gdraw (@nil N); [apply no_items|now apply gret_got]|split; [exact K|reflexivity]].
  - exists (MBlockTxn (mk_bt (repeat 0 32) [])). split; [pick 29; apply gbind_got; eexists; split; [|now apply gret_got]; unfold arb_block_txs; gdraw (repeat 0 32); [apply zeros|]; gdraw (@nil transaction); [apply no_items|now apply gret_got]|split; [split; [exact K|constructor]|reflexivity]].
  - exists (MAlert []). split; [pick 30; gdraw (@nil N); [apply bytes_got; constructor|now apply gret_got]|split; [exact K|reflexivity]].
  - exists (MReject (mk_reject [] Malformed [] (repeat 0 32))). split; [pick 31; apply gbind_got; eexists; split; [|now apply gret_got]; unfold arb_reject; gdraw (@nil N); [apply any_got; constructor|]; gdraw Malformed; [|gdraw (@nil N); [apply any_got; constructor|]; gdraw (repeat 0 32); [apply zeros|now apply gret_got]]|split; [split; exact K|reflexivity]].
    unfold arb_reason. gdraw 0; [apply range_got; lia|now apply gret_got].
  - exists (MFeeFilter 0). split; [pick 32; gdraw 0%Z; [|now apply gret_got]|split; [exact I|reflexivity]]. unfold arb_fee_filter. gdraw 0; [apply range_got; lia|now apply gret_got].
  - exists (MBare WtxidRelay). split; [pick 33; now apply gret_got|split; [exact I|reflexivity]].
  - exists (MAddrV2 []). split; [pick 34; gdraw (@nil addr_v2_msg); [apply no_items|now apply gret_got]|split; [exact K|reflexivity]].
  - exists (MBare SendAddrV2). split; [pick 35; now apply gret_got|split; [exact I|reflexivity]].
Qed.
Print Assumptions C71_message_every.
(** Every reason of a rejection and every way to update a bloom filter is generated, and so is every address with its port,
    whether of the fourth or of the sixth version. *)
Theorem C71_reasons : (forall r, arb_reason (Got r)) /\ (forall f, arb_bloom_flags (Got f)) /\
  (forall g p n, (length g = 8)%nat -> Forall (fun s => s < 2 ^ 16) g -> p < 2 ^ 16 -> n < 2 ^ 64 -> arb_address (Got (mk_addr n g p))).
Proof.
  split; [|split].
  - intros []; unfold arb_reason;
      first [gdraw 0; [apply range_got; lia|now apply gret_got]|gdraw 1; [apply range_got; lia|now apply gret_got]|gdraw 2; [apply range_got; lia|now apply gret_got]
            |gdraw 3; [apply range_got; lia|now apply gret_got]|gdraw 4; [apply range_got; lia|now apply gret_got]|gdraw 5; [apply range_got; lia|now apply gret_got]
            |gdraw 6; [apply range_got; lia|now apply gret_got]|gdraw 7; [apply range_got; lia|now apply gret_got]].
  - intros []; unfold arb_bloom_flags;
      first [gdraw 0; [apply range_got; lia|now apply gret_got]|gdraw 1; [apply range_got; lia|now apply gret_got]|gdraw 2; [apply range_got; lia|now apply gret_got]].
  - intros g p n L G P S. unfold arb_address. gdraw false; [now apply any_got|]. gdraw (SockV6 g p 0 0).
    + gdraw g; [apply any_got; split; [unfold lenN; lia|assumption]|]. gdraw p; [now apply any_got|now apply gret_got].
    + gdraw n; [now apply any_got|now apply gret_got].
Qed.
Print Assumptions C71_reasons.
Example C71_message_ex : arb_message (Got (MTx LTxEx.ex_tx)) /\ ~ misfit (MTx LTxEx.ex_tx) /\
  arb_message (Got (MInv [InvTx (repeat 7 32)])) /\ fits (MInv [InvTx (repeat 7 32)]) /\ ~ misfit (MInv [InvTx (repeat 7 32)]).
Proof.
  split; [|split; [intro H; exact H|split; [|split; [cbn [fits]; unfold lenN; cbn [length]; lia|]]]].
  - unfold arb_message. gdraw 9; [apply range_got; lia|]. cbv beta iota. gdraw LTxEx.ex_tx; [exact C71_transaction_ex|now apply gret_got].
  - unfold arb_message. gdraw 3; [apply range_got; lia|]. cbv beta iota. gdraw [InvTx (repeat 7 32)]; [|now apply gret_got]. apply vec_got. constructor; [|constructor]. apply C71_inventory_all. split; [reflexivity|repeat constructor].
  - intros (i & [<-|[]] & t & h & E & _). discriminate E.
Qed.
