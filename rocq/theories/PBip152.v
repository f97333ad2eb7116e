(** C32: compact blocks. *)
From Coq Require Import Sorting.Sorted Sorting.Permutation.
From Verif Require Import Base MDec LDec LDec2 LCompact MWitness MTx SWire LCodec LBuilt LWire LTx2 STx LTxId SSip SSha2 MBip152 SBip152 LBip152.
From Verif Require Import LTxEx.
From Verif Require LBip32b.
Local Open Scope N_scope.

(** * Wire formats *)
Theorem C32_prefilled_wire : forall l p r, bytes_ok l ->
  (decode_from_slice_unbounded prefilled_dec l = Ret (Ok p, r) <-> l = wire_prefilled p ++ r /\ prefilled_ok p).
Proof. intros l p r B. rewrite <- wire_prefilled_eq. exact (codec_prefix prefilled_codec l p r B). Qed.
Theorem C32_compact_wire : forall l c r, bytes_ok l ->
  (decode_from_slice_unbounded cb_dec l = Ret (Ok c, r) <-> l = wire_cb c ++ r /\ cb_ok c).
Proof. intros l c r B. rewrite <- wire_cb_eq. exact (codec_prefix cb_codec l c r B). Qed.
Theorem C32_request_wire : forall l q r, bytes_ok l ->
  (decode_from_slice_unbounded request_dec l = Ret (Ok q, r) <-> l = wire_request q ++ r /\ request_ok q).
Proof. intros l q r B. rewrite <- wire_request_eq. exact (codec_prefix request_codec l q r B). Qed.
Theorem C32_transactions_wire : forall l t r, bytes_ok l ->
  (decode_from_slice_unbounded block_txs_dec l = Ret (Ok t, r) <-> l = wire_block_txs t ++ r /\ block_txs_ok t).
Proof. intros l t r B. rewrite <- wire_block_txs_eq. exact (codec_prefix block_txs_codec l t r B). Qed.
(** Encoding gives these bytes. *)
Theorem C32_encode : (forall p, prefilled_encode p = wire_prefilled p) /\ (forall c, cb_encode c = wire_cb c) /\
  (forall q, request_encode q = wire_request q) /\ (forall t, block_txs_encode t = wire_block_txs t).
Proof. split; [exact wire_prefilled_eq|]. split; [exact wire_cb_eq|]. split; [exact wire_request_eq|exact wire_block_txs_eq]. Qed.
Theorem C32_no_panic : forall l, bytes_ok l -> lenN l < 2 ^ 32 ->
  decode_from_slice_unbounded prefilled_dec l <> Panic /\ decode_from_slice_unbounded cb_dec l <> Panic /\
  decode_from_slice_unbounded request_dec l <> Panic /\ decode_from_slice_unbounded block_txs_dec l <> Panic.
Proof.
  intros l B L. split; [now apply (codec_no_panic prefilled_codec)|]. split; [now apply (codec_no_panic cb_codec)|]. split; [now apply (codec_no_panic request_codec)|now apply (codec_no_panic block_txs_codec)].
Qed.

(** * Requests *)
(** The indexes of a request are the absolute positions its differences denote, if these are below 2^64 - 1; else the
    error names the first index that is not: 2^64 - 1 itself, or else the position it counts from. *)
Theorem C32_indices : forall r,
  (Forall (fun p => p < 2 ^ 64 - 1) (positions 0 (rq_offsets r)) -> indices r = Ok (positions 0 (rq_offsets r))) /\
  (forall pre d post, rq_offsets r = pre ++ d :: post -> Forall (fun p => p < 2 ^ 64 - 1) (positions 0 pre) -> 2 ^ 64 - 1 <= after 0 pre + d ->
     indices r = Err (if after 0 pre + d =? 2 ^ 64 - 1 then 2 ^ 64 - 1 else after 0 pre)).
Proof. intro r. unfold indices. split; [apply indices_ok|]. intros pre d post ->. apply indices_err. Qed.
(** They are strictly increasing, one for each difference. *)
Theorem C32_increasing : forall r l, indices r = Ok l -> increasing l /\ length l = length (rq_offsets r) /\ Forall (fun p => p < 2 ^ 64 - 1) l.
Proof.
  intros r l E. unfold indices in E. destruct (positions_split (rq_offsets r) 0) as [F|(pre & d & post & O & F & L)].
  - rewrite (indices_ok _ _ F) in E. assert (l = positions 0 (rq_offsets r)) as -> by congruence. split; [apply positions_inc|]. split; [apply positions_len|exact F].
  - rewrite O, (indices_err _ _ _ _ F L) in E. discriminate.
Qed.
(** A request that was decoded always has indexes (they are far below the limit). *)
Theorem C32_decoded_indices : forall l q r, bytes_ok l -> decode_from_slice_unbounded request_dec l = Ret (Ok q, r) ->
  exists idxs, indices q = Ok idxs /\ increasing idxs.
Proof.
  intros l q r B E. apply C32_request_wire in E as [_ [_ [LO FO]]]; auto. exists (positions 0 (rq_offsets q)). split; [|apply positions_inc].
  apply indices_ok. eapply Forall_impl; [|apply (positions_bound _ _ _ FO)]. cbn beta. intros a H. unfold MAX_LEN in *. nia.
Qed.
(** Building from indexes: a strictly increasing list below 2^64 - 1 comes back; any other list panics. *)
Theorem C32_from_indices : forall h l,
  (increasing l /\ Forall (fun p => p < 2 ^ 64 - 1) l -> exists r, from_indices_unchecked h l = Ret r /\ rq_hash r = h /\ indices r = Ok l) /\
  (~ (increasing l /\ Forall (fun p => p < 2 ^ 64 - 1) l) -> from_indices_unchecked h l = Panic).
Proof.
  intros h l. assert (EQ : Forall (fun p => 0 <= p < 2 ^ 64 - 1) l <-> Forall (fun p => p < 2 ^ 64 - 1) l) by (rewrite !Forall_forall; split; intros F x X; specialize (F x X); lia).
  unfold from_indices_unchecked. split.
  - intros [S F]. destruct (offsets_ok l 0 S) as (os & -> & P); [now apply EQ|]. cbn [rbind]. eexists. split; [reflexivity|]. split; [reflexivity|]. unfold indices. cbn [rq_offsets]. rewrite indices_ok; rewrite P; auto.
  - intro NG. rewrite offsets_bad; [reflexivity|]. now rewrite EQ.
Qed.
(** Building from unsorted indexes: distinct indexes below 2^64 - 1 come back sorted; any other list panics. *)
Theorem C32_from_unsorted : forall h l,
  (NoDup l /\ Forall (fun p => p < 2 ^ 64 - 1) l ->
     exists r s, from_unsorted_indices h l = Ret r /\ rq_hash r = h /\ indices r = Ok s /\ Permutation l s /\ increasing s) /\
  (~ (NoDup l /\ Forall (fun p => p < 2 ^ 64 - 1) l) -> from_unsorted_indices h l = Panic).
Proof.
  intros h l. pose proof (sort_perm l) as P. change (from_unsorted_indices h l) with (from_indices_unchecked h (sort_n l)). destruct (C32_from_indices h (sort_n l)) as [A B]. split.
  - intros [D F]. assert (S : increasing (sort_n l)) by (apply sorted_strict; [apply sort_sorted|now apply (Permutation_NoDup P)]).
    destruct A as (r & E & H & I); [split; [exact S|now apply (Permutation_Forall P)]|]. exists r, (sort_n l). auto.
  - intro NG. apply B. intros [S F]. apply NG. split; [apply (Permutation_NoDup (Permutation_sym P)), strict_nodup, S|now apply (Permutation_Forall (Permutation_sym P))].
Qed.
(** So a repeated index panics instead of being merged. *)
Theorem C32_unsorted_total_refuted : forall h i, from_unsorted_indices h [i; i] = Panic.
Proof. intros h i. apply C32_from_unsorted. intros [D _]. inv D. apply H1. now left. Qed.
(** The encoding of a request decodes to it if the gaps are at most 4000000 (and there are no more of them); else it is refused. *)
Theorem C32_request_round_trip : forall h l r, hash_ok h -> from_unsorted_indices h l = Ret r ->
  (decode_from_slice_unbounded request_dec (request_encode r) = Ret (Ok r, []) <-> list_ok (fun o => o <= 4000000) (rq_offsets r)) /\
  (Forall (fun i => i < 4000000) l -> list_ok (fun o => o <= 4000000) (rq_offsets r)).
Proof.
  intros h l r OH E. pose proof (sort_perm l) as P. unfold from_unsorted_indices in E. destruct (offsets_of 0 (sort_n l)) as [os|] eqn:EO; cbn [rbind] in E; [|discriminate].
  pose proof (offsets_inv _ _ _ EO) as IP. assert (H : rq_hash r = h /\ rq_offsets r = os) by (inv E; auto). destruct H as [H HO]. rewrite <- HO in IP. clear E EO HO os.
  split.
  - assert (BO : bytes_ok (request_encode r)).
    { unfold request_encode. apply bytes_ok_app. rewrite H. split; [apply OH|]. unfold slice_encode. apply bytes_ok_app. split; [apply cs_encode_ok|]. clear. induction (rq_offsets r) as [|o os IH]; [constructor|]. cbn [flat_map]. apply bytes_ok_app. split; [apply cs_encode_ok|exact IH]. }
    rewrite (C32_request_wire _ r [] BO), app_nil_r, wire_request_eq. unfold request_ok. rewrite H. split; [intros (_ & _ & X); exact X|]. intro LO. split; [reflexivity|]. split; [exact OH|exact LO].
  - intro FL. apply (Permutation_Forall P) in FL. rewrite <- IP in FL. split.
    + assert (lenN (positions 0 (rq_offsets r)) <= 4000000 - 0). { apply inc_len; [apply positions_inc|]. eapply Forall_impl; [|exact FL]. cbn beta. intros. lia. }
      unfold lenN in *. rewrite positions_len in H0. unfold MAX_LEN. lia.
    + clear - FL. revert FL. generalize 0. induction (rq_offsets r) as [|o os IH]; intros n F; constructor; cbn [positions] in F; inv F; [lia|]. now apply (IH (n + o + 1)).
Qed.

(** * Answers *)
(** The answer to a request holds the block's transactions at the requested indexes, in order; if an index is not in the
    block the first such index is the error. *)
Theorem C32_from_request : forall r b,
  (forall e, indices r = Err e -> from_request r b = Err e) /\
  (forall idxs, indices r = Ok idxs -> Forall (fun i => i < lenN (b_txs b)) idxs ->
     exists t, from_request r b = Ok t /\ bt_hash t = rq_hash r /\ Forall2 (fun i tx => nth_error (b_txs b) (N.to_nat i) = Some tx) idxs (bt_txs t)) /\
  (forall pre i post, indices r = Ok (pre ++ i :: post) -> Forall (fun i => i < lenN (b_txs b)) pre -> lenN (b_txs b) <= i -> from_request r b = Err i).
Proof.
  intros r b. unfold from_request. split; [intros e ->; reflexivity|]. split.
  - intros idxs -> F. destruct (pick_ok _ _ F) as (l & -> & F2). exists (mk_bt (rq_hash r) l). auto.
  - intros pre i post -> F L. now rewrite (pick_err _ _ _ _ F L).
Qed.
(** Asking for any distinct indexes of a block in any order gives exactly those transactions, in block order. *)
Theorem C32_answer : forall h l b, NoDup l -> Forall (fun i => i < lenN (b_txs b)) l -> lenN (b_txs b) < 2 ^ 64 ->
  exists r t s, from_unsorted_indices h l = Ret r /\ from_request r b = Ok t /\ bt_hash t = h /\ Permutation l s /\ increasing s /\
    Forall2 (fun i tx => nth_error (b_txs b) (N.to_nat i) = Some tx) s (bt_txs t).
Proof.
  intros h l b D F L. destruct (proj1 (C32_from_unsorted h l)) as (r & s & E & H & I & P & S). { split; [exact D|]. eapply Forall_impl; [|exact F]. cbn beta. intros. lia. }
  destruct (proj1 (proj2 (C32_from_request r b)) s I (Permutation_Forall P F)) as (t & E2 & HT & F2). exists r, t, s. rewrite HT. auto 10.
Qed.

(** * Building compact blocks *)
(** [placed f 0 l] are the items of [l] whose position satisfies [f], in order; with the complement they partition [l]. *)
Theorem C32_placed : forall A (f : N -> bool) (l : list A), increasing (map fst (placed f 0 l)) /\
  (forall i x, In (i, x) (placed f 0 l) <-> nth_error l (N.to_nat i) = Some x /\ f i = true) /\
  lenN (placed f 0 l) + lenN (placed (fun i => negb (f i)) 0 l) = lenN l.
Proof.
  intros A f l. split; [apply placed_inc|]. split; [|apply placed_part]. intros i x. rewrite placed_in, N.sub_0_r. split; [tauto|]. intros [H1 H2]. split; [lia|auto].
Qed.
Section Build.
Context (sha256 sha256d : bytes -> bytes) (SHA : forall m, hash_ok (sha256 m)) (SHAD : forall m, hash_ok (sha256d m)).
(** An unknown version is refused. *)
Theorem C32_version : forall b nonce version prefill, version <> 1 -> version <> 2 -> from_block sha256 sha256d b nonce version prefill = Ret (Err UnknownVersion).
Proof using Type. intros b nonce version prefill N1 N2. unfold from_block. rewrite (proj2 (N.eqb_neq _ _) N1), (proj2 (N.eqb_neq _ _) N2). reflexivity. Qed.
(** A list of positions is accepted iff it is strictly increasing and within the block. The compact block then has
    the coinbase and the listed transactions prefilled, and the short ids of all the others, in order: every transaction
    once. Version 1 uses txids and strips witnesses; version 2 uses wtxids and keeps them. *)
Theorem C32_from_block : forall b nonce version prefill, version = 1 \/ version = 2 -> Forall witnesses_ok (b_txs b) -> lenN (b_txs b) <= 65536 ->
  increasing prefill -> Forall (fun p => p < lenN (b_txs b)) prefill ->
  let chosen i := (i =? 0) || existsb (N.eqb i) prefill in
  exists c, from_block sha256 sha256d b nonce version prefill = Ret (Ok c) /\ cb_header c = b_header b /\ cb_nonce c = nonce /\
    positions 0 (map pf_idx (cb_prefilled c)) = map fst (placed chosen 0 (b_txs b)) /\
    Forall2 (fun a t => if version =? 1 then stripped a t else t = a) (map snd (placed chosen 0 (b_txs b))) (map pf_tx (cb_prefilled c)) /\
    cb_short_ids c = map (fun p => short_id sha256 (b_header b) nonce (sha256d (if version =? 1 then wire_legacy (snd p) else tx_encode (snd p))))
                         (placed (fun i => negb (chosen i)) 0 (b_txs b)).
Proof using SHA SHAD.
  intros b nonce version prefill V W L S F chosen. destruct (cb_loop_spec sha256 sha256d SHA SHAD version (b_header b) nonce (b_txs b) 0 prefill 0 (N.le_refl _) W) as (ps & ids & rem & E & G & R).
  assert (F0 : Forall (fun p => 0 <= p < 0 + lenN (b_txs b)) prefill) by (eapply Forall_impl; [|exact F]; cbn beta; intros; lia).
  pose proof (proj2 G (conj S F0)) as R0. destruct (R R0) as (ds & A1 & A2 & A3 & A4). subst rem. clear R G. change (sel prefill) with chosen in *. change (fun j => negb (sel prefill j)) with (fun i => negb (chosen i)) in *.
  exists (mk_cb (b_header b) nonce ids ps). cbn [cb_header cb_nonce cb_short_ids cb_prefilled]. split; [|split; [reflexivity|split; [reflexivity|split; [|split]]]].
  - unfold from_block. assert (negb (version =? 1) && negb (version =? 2) = false) as -> by (destruct V as [-> | ->]; reflexivity).
    pose proof (inc_len _ _ _ S F0). rewrite (proj2 (N.ltb_ge _ _)) by lia. rewrite E. reflexivity.
  - rewrite A1, <- A2. assert (D : Forall (fun d => d < 65536) ds).
    { assert (FP : Forall (fun p => p < 65536) (positions 0 ds)).
      { rewrite A2. apply Forall_forall. intros i I. apply in_map_iff in I as ([i' x] & <- & I). apply placed_in in I as (_ & I & _). assert (N.to_nat (i' - 0) < length (b_txs b))%nat by (apply nth_error_Some; congruence). unfold lenN in L. cbn [fst]. lia. }
      clear - FP. revert FP. generalize 0. induction ds as [|d ds IH]; intros n F; constructor; cbn [positions] in F; inv F; [lia|]. now apply (IH (n + d + 1)). }
    f_equal. clear - D. induction D as [|d ds H D IH]; [reflexivity|]. cbn [map]. rewrite N.mod_small by exact H. now rewrite IH.
  - rewrite A3. clear. induction (placed chosen 0 (b_txs b)) as [|p l IH]; [constructor|]. cbn [map]. constructor; [|exact IH]. destruct (version =? 1); [apply clear_stripped|reflexivity].
  - rewrite A4. apply map_ext. intro p. unfold tx_id_of. destruct (version =? 1); reflexivity.
Qed.
(** Any other list that is not longer than the block is refused; *)
Theorem C32_invalid_prefill : forall b nonce version prefill, version = 1 \/ version = 2 -> Forall witnesses_ok (b_txs b) -> lenN prefill <= lenN (b_txs b) ->
  ~ (increasing prefill /\ Forall (fun p => p < lenN (b_txs b)) prefill) -> from_block sha256 sha256d b nonce version prefill = Ret (Err InvalidPrefill).
Proof using SHA SHAD.
  intros b nonce version prefill V W L NG. destruct (cb_loop_spec sha256 sha256d SHA SHAD version (b_header b) nonce (b_txs b) 0 prefill 0 (N.le_refl _) W) as (ps & ids & rem & E & G & _).
  unfold from_block. assert (negb (version =? 1) && negb (version =? 2) = false) as -> by (destruct V as [-> | ->]; reflexivity). rewrite (proj2 (N.ltb_ge _ _)) by lia. rewrite E. cbn [rbind].
  destruct rem as [|x rem]; [|reflexivity]. destruct NG. destruct (proj1 G eq_refl) as [S F]. split; [exact S|]. eapply Forall_impl; [|exact F]. cbn beta. intros. lia.
Qed.
(** a longer one panics, where the documented error is the one above. *)
Theorem C32_prefill_refused_refuted : forall b nonce version prefill, version = 1 \/ version = 2 -> lenN (b_txs b) < lenN prefill ->
  from_block sha256 sha256d b nonce version prefill = Panic.
Proof using Type.
  intros b nonce version prefill V L. unfold from_block. assert (negb (version =? 1) && negb (version =? 2) = false) as -> by (destruct V as [-> | ->]; reflexivity). now rewrite (proj2 (N.ltb_lt _ _) L).
Qed.
(** The compact block of a block of fewer than 65536 transactions is encoded to bytes that decode to it. *)
Theorem C32_round_trip : forall b nonce version prefill c, block_ok b -> is_u64 nonce -> lenN (b_txs b) < 65536 ->
  from_block sha256 sha256d b nonce version prefill = Ret (Ok c) -> cb_ok c /\ forall r, decode_from_slice_unbounded cb_dec (cb_encode c ++ r) = Ret (Ok c, r).
Proof using SHA SHAD.
  intros b nonce version prefill c [OH [_ OT]] NU L E.
  assert (W : Forall witnesses_ok (b_txs b)) by (eapply Forall_impl; [|exact OT]; intros t [T _]; now apply shape_witnesses).
  assert (OKC : cb_ok c).
  { unfold from_block in E. destruct (negb (version =? 1) && negb (version =? 2)); [discriminate|]. destruct (lenN (b_txs b) <? lenN prefill); [discriminate|].
    destruct (cb_loop_spec sha256 sha256d SHA SHAD version (b_header b) nonce (b_txs b) 0 prefill 0 (N.le_refl _) W) as (ps & ids & rem & EL & G & R). rewrite EL in E. cbn [rbind] in E.
    destruct rem; [|discriminate]. assert (c = mk_cb (b_header b) nonce ids ps) as -> by congruence. destruct (R eq_refl) as (ds & A1 & A2 & A3 & A4). unfold cb_ok. cbn [cb_header cb_nonce cb_short_ids cb_prefilled].
    split; [exact OH|]. split; [exact NU|]. split; [|split].
    - rewrite A4. apply Forall_forall. intros s I. apply in_map_iff in I as (p & <- & _). apply short_id_ok.
    - apply Forall_forall. intros p I. split.
      + assert (In (pf_idx p) (map (fun d => d mod 65536) ds)) as X by (rewrite <- A1; now apply in_map). apply in_map_iff in X as (d & <- & _). now apply N.mod_lt.
      + assert (In (pf_tx p) (map pf_tx ps)) as X by now apply in_map. rewrite A3 in X. apply in_map_iff in X as ([i t] & <- & X). apply placed_in in X as (_ & X & _). apply nth_error_In in X.
        rewrite Forall_forall in OT. specialize (OT t X). cbn [snd]. destruct (version =? 1); [now apply clear_ok|exact OT].
    - pose proof (placed_part _ (sel prefill) (b_txs b) 0) as PP. assert (lenN ids = lenN (placed (fun j => negb (sel prefill j)) 0 (b_txs b))) as -> by (rewrite A4; unfold lenN; now rewrite map_length).
      assert (lenN ps = lenN (placed (sel prefill) 0 (b_txs b))) as -> by (unfold lenN; rewrite <- (map_length pf_tx ps), A3, map_length; reflexivity). change (2 ^ 16) with 65536. lia. }
  split; [exact OKC|]. intro r. exact (codec_back _ _ _ _ _ cb_codec c r OKC).
Qed.
(** With more transactions an index may not fit 16 bits: it is cut, and the compact block says another position. *)
Theorem C32_index_refuted : forall b nonce, Forall witnesses_ok (b_txs b) -> lenN (b_txs b) = 65538 ->
  exists c, from_block sha256 sha256d b nonce 2 [65537] = Ret (Ok c) /\ positions 0 (map pf_idx (cb_prefilled c)) = [0; 1].
Proof using SHA SHAD.
  intros b nonce W L. destruct (cb_loop_spec sha256 sha256d SHA SHAD 2 (b_header b) nonce (b_txs b) 0 [65537] 0 (N.le_refl _) W) as (ps & ids & rem & E & G & R).
  assert (R0 : rem = []). { apply G. split; [repeat constructor|]. constructor; [rewrite L; lia|constructor]. }
  destruct (R R0) as (ds & A1 & A2 & _ & _). subst rem. exists (mk_cb (b_header b) nonce ids ps). split.
  - unfold from_block. cbn [N.eqb Pos.eqb negb andb]. rewrite L. cbn [lenN length N.of_nat N.ltb N.compare Pos.of_succ_nat Pos.compare Pos.compare_cont]. rewrite E. reflexivity.
  - cbn [cb_prefilled]. rewrite A1. assert (PF : map fst (placed (sel [65537]) 0 (b_txs b)) = [0; 65537]).
    { assert (SI : forall l l', increasing l -> increasing l' -> (forall x, In x l <-> In x l') -> l = l').
      { clear. induction l as [|x l IH]; intros [|y l'] S S' H; [reflexivity|destruct (proj2 (H y)); now left|destruct (proj1 (H x)); now left|].
        inversion S as [|? ? S1 S2]; inversion S' as [|? ? S1' S2']; subst. rewrite Forall_forall in S2, S2'.
        assert (x = y). { destruct (proj1 (H x) (or_introl eq_refl)) as [->|I]; [reflexivity|]. destruct (proj2 (H y) (or_introl eq_refl)) as [->|I']; [reflexivity|]. specialize (S2 y I'). specialize (S2' x I). lia. }
        subst y. f_equal. apply IH; auto. intro z. split; intro I.
        - destruct (proj1 (H z) (or_intror I)) as [->|]; [specialize (S2 z I); lia|assumption].
        - destruct (proj2 (H z) (or_intror I)) as [->|]; [specialize (S2' z I); lia|assumption]. }
      apply SI; [apply placed_inc|repeat constructor|]. intro x. rewrite in_map_iff. split.
      - intros ([i t] & <- & I). apply placed_in in I as (_ & _ & C). cbn [fst]. unfold sel, mem in C. cbn [existsb] in C. rewrite orb_false_r in C. apply orb_true_iff in C as [C|C]; apply N.eqb_eq in C; subst i; cbn; auto.
      - intro I. assert (LX : x < 65538 /\ sel [65537] x = true) by (destruct I as [<-|[<-|[]]]; split; reflexivity). destruct LX as [LX SX].
        destruct (nth_error (b_txs b) (N.to_nat x)) as [t|] eqn:T; [|apply nth_error_None in T; unfold lenN in L; lia]. exists (x, t). split; [reflexivity|]. apply placed_in. rewrite N.sub_0_r. split; [lia|auto]. }
    rewrite PF in A2. destruct ds as [|d0 [|d1 [|d2 ds]]]; cbn [positions] in A2; try discriminate. assert (d0 = 0 /\ d1 = 65536) as [-> ->] by (inv A2; lia). reflexivity.
Qed.
End Build.
(** Decoding bounds the number of transactions but does not check that the prefilled positions are within it. *)
Theorem C32_decoded_positions_refuted : exists l c, bytes_ok l /\ decode_from_slice cb_dec l = Ret (Ok c) /\
  lenN (cb_short_ids c) + lenN (cb_prefilled c) = 1 /\ positions 0 (map pf_idx (cb_prefilled c)) = [9].
Proof.
  set (h := {| h_version := 1; h_prev := repeat 1 32; h_merkle := repeat 2 32; h_time := 3; h_bits := 4; h_nonce := 5 |}). exists (cb_encode (mk_cb h 7 [] [mk_pf 9 ex_plain])), (mk_cb h 7 [] [mk_pf 9 ex_plain]).
  assert (O : cb_ok (mk_cb h 7 [] [mk_pf 9 ex_plain])).
  { split; [|split; [reflexivity|split; [constructor|split; [|reflexivity]]]]; [|constructor; [split; [reflexivity|exact ex_plain_ok]|constructor]].
    repeat split; try reflexivity; repeat constructor. }
  assert (B : bytes_ok (cb_encode (mk_cb h 7 [] [mk_pf 9 ex_plain]))) by (apply bytes_okb; vm_compute; reflexivity). split; [exact B|]. split; [|split; reflexivity]. apply (codec_slice cb_codec); [exact B|]. auto.
Qed.

(** Concrete cases. *)
Example C32_ex_request : exists r, from_unsorted_indices (repeat 0 32) [7; 2; 3] = Ret r /\ rq_offsets r = [2; 0; 3] /\ indices r = Ok [2; 3; 7].
Proof. eexists. split; [vm_compute; reflexivity|]. split; reflexivity. Qed.
Definition ex_blk : block := {| b_header := {| h_version := 1; h_prev := repeat 1 32; h_merkle := repeat 2 32; h_time := 3; h_bits := 4; h_nonce := 5 |};
  b_txs := [ex_plain; ex_tx; ex_none; ex_plain; ex_tx] |}.
Example C32_ex_block : block_ok ex_blk /\ (forall m, hash_ok (SHA256d m)) /\ exists c, from_block SHA256 SHA256d ex_blk 7 2 [3] = Ret (Ok c) /\
  map pf_idx (cb_prefilled c) = [0; 2] /\ map pf_tx (cb_prefilled c) = [ex_plain; ex_plain] /\ lenN (cb_short_ids c) = 3.
Proof.
  split; [|split; [exact LBip32b.SHA256d_ok|]].
  - split; [repeat split; try reflexivity; repeat constructor|]. split; [discriminate|]. repeat (constructor; [first [exact ex_plain_ok|exact ex_tx_ok|exact ex_none_ok]|]). constructor.
  - eexists. split; [vm_compute; reflexivity|]. repeat split.
Qed.

Print Assumptions C32_prefilled_wire. Print Assumptions C32_compact_wire. Print Assumptions C32_request_wire. Print Assumptions C32_transactions_wire.
Print Assumptions C32_encode. Print Assumptions C32_no_panic. Print Assumptions C32_indices. Print Assumptions C32_increasing.
Print Assumptions C32_decoded_indices. Print Assumptions C32_from_indices. Print Assumptions C32_from_unsorted. Print Assumptions C32_unsorted_total_refuted.
Print Assumptions C32_request_round_trip. Print Assumptions C32_from_request. Print Assumptions C32_answer. Print Assumptions C32_placed.
Print Assumptions C32_version. Print Assumptions C32_from_block. Print Assumptions C32_invalid_prefill. Print Assumptions C32_prefill_refused_refuted.
Print Assumptions C32_round_trip. Print Assumptions C32_index_refuted. Print Assumptions C32_decoded_positions_refuted.
