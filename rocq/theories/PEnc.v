(** Property C04: all ways of draining an encoder give the same bytes.
    Model: MEnc.v.  Specification: SEnc.v ([content e]: the concatenation of the parts; [sound e]: the
    index of every composite encoder is in range, which holds of every constructed encoder). *)
From Verif Require Import Base MDec MWitness SWitness LWitness MTx SWire STx LWire LTxId LTxEx MEnc SEnc LEnc.
Local Open Scope N_scope.

Theorem C04_vec : forall e fuel, sound e -> (steps e <= fuel)%nat -> drain_to_vec fuel e = Some (Ret (content e)).
Proof. intros. now apply drain_law. Qed.

(** Into any writer: all the bytes, or an error after a prefix of them. *)
Theorem C04_writer : forall W IoE (got : W -> bytes) (write_all : W -> bytes -> W * result unit IoE) e w fuel,
  writer_law got write_all -> sound e -> (steps e <= fuel)%nat ->
  exists w' r, drain_to_writer write_all fuel e w = Some (Ret (w', r)) /\
    match r with
    | Ok _ => got w' = got w ++ content e
    | Err _ => exists p q, content e = p ++ q /\ got w' = got w ++ p
    end.
Proof. intros W IoE got wa e w fuel L S Hf. now apply (writer_drain W IoE got wa L). Qed.

(** Through the byte iterator. *)
Theorem C04_iter : forall e fuel, sound e -> (steps e + length (content e) <= fuel)%nat ->
  bi_collect fuel (biter_new e) = Some (Ret (content e)).
Proof.
  intros e fuel S Hf. apply (collect_law fuel (biter_new e)); [|exact Hf]. split; [exact S|].
  destruct (adv_law e S) as (ch & Hc & _). exists ch. cbn. split; auto. lia.
Qed.

(** One step at a time: [rest s] is what the iterator still gives.  [next], [nth] and [peek_chunk] read
    it as a list; once [next] returned [None] it does so for ever. *)
Theorem C04_iter_steps : exists (rest : biter -> bytes) (live over : biter -> Prop),
  (forall e, sound e -> live (biter_new e) /\ rest (biter_new e) = content e) /\
  (forall s, live s -> exists fuel s' o, bi_next fuel s = Some (Ret (s', o)) /\
     match o with Some b => rest s = b :: rest s' /\ live s' | None => rest s = [] /\ over s' end) /\
  (forall s fuel, over s -> bi_next (S fuel) s = Some (Ret (s, None))) /\
  (forall s n, live s -> lenN (content (bi_enc s)) < 2 ^ 64 -> exists fuel s' o, bi_nth fuel s n = Some (Ret (s', o)) /\
     o = nth_error (rest s) (N.to_nat n) /\ (o <> None -> rest s' = skipn (N.to_nat (n + 1)) (rest s) /\ live s')) /\
  (forall s, live s -> exists fuel s' c, bi_peek fuel s = Some (Ret (s', c)) /\ (exists t, rest s = c ++ t) /\
     ((c = [] /\ rest s = [] /\ over s') \/ (c <> [] /\ rest s' = rest s /\ live s'))).
Proof.
  exists bi_rest, bi_ok, bi_over. split; [|split; [|split; [|split]]].
  - intros e S. split; [|reflexivity]. split; [exact S|]. destruct (adv_law e S) as (ch & Hc & _). exists ch. cbn. split; auto. lia.
  - intros s H. exists (steps (bi_enc s)). destruct (next_law _ s H (le_n _)) as (s' & o & H1 & _ & H2). exists s', o. auto.
  - intros s fuel H. now apply next_over.
  - intros s n H Hu. exists (steps (bi_enc s)). destruct (nth_law _ s n H (le_n _) Hu) as (s' & o & H1 & H2 & H3). exists s', o. split; [exact H1|]. split; [exact H2|].
    intro K. destruct o; [exact H3|now destruct K].
  - intros [e pos] [S (ch & Hc & Hp)]. exists (steps e). unfold bi_peek. cbn [bi_enc bi_pos] in *. rewrite Hc. destruct (content_chunk e ch S Hc) as [t Ht].
    destruct (N.ltb_spec pos (lenN ch)) as [Hl|Hl].
    + eexists _, _. split; [reflexivity|]. unfold bi_rest. cbn [bi_enc bi_pos]. rewrite Ht. split.
      * exists t. unfold dropN. rewrite skipn_app. f_equal. replace (N.to_nat pos - length ch)%nat with 0%nat by (unfold lenN in Hl; lia). reflexivity.
      * right. split; [|split; [reflexivity|]].
        -- intro K. apply (f_equal (@length N)) in K. unfold dropN in K. rewrite skipn_length in K. cbn in K. unfold lenN in Hl. lia.
        -- split; [exact S|]. exists ch. auto.
    + assert (pos = lenN ch) by lia. subst pos. destruct (peek_loop_law _ e (lenN ch) ch S Hc Hl (le_n _)) as (s' & c & H1 & H2 & H3). exists s', c.
      split; [exact H1|]. unfold bi_rest at 1 2 4. cbn [bi_enc bi_pos]. split; [exact H2|]. destruct H3 as [(A & B & C)|(A & B & C)]; [left; auto|right; auto].
Qed.

(** The advertised length of a fresh encoder. *)
Theorem C04_exact_len : forall e, fresh_exact e -> exact_len e = lenN (content e) /\ bi_len (biter_new e) = Ret (lenN (content e)).
Proof.
  intros e H. pose proof (exact_law e H) as K. split; auto. unfold bi_len, biter_new. cbn [bi_enc bi_pos]. replace (exact_len e <? 0) with false by lia. now rewrite K, N.sub_0_r.
Qed.
(** The test helper accepts exactly the bytes of the encoder. *)
Theorem C04_check : forall e x fuel, sound e -> (steps e <= fuel)%nat ->
  exists r, check_encoder fuel e x = Some r /\ (r = Ret tt <-> x = content e).
Proof. intros. now apply check_law. Qed.

(** Lists: nothing is lost if no item starts with an empty chunk and has bytes later. *)
Theorem C04_slice : forall es, Forall (fun e => sound e /\ (chunk e = Ret [] -> content e = [])) es ->
  exists it, prefixed_slice es = Ret it /\ sound it /\ content it = cs_encode (lenN es) ++ concat (map content es).
Proof. exact prefixed_slice_law. Qed.

(** The encoders of the primitives give the bytes of C06 and C09. *)
Theorem C04_transaction : forall tx, tx_shape tx -> exists e, tx_encoder tx = Ret e /\ sound e /\ content e = tx_encode tx /\
  drain_to_vec (steps e) e = Some (Ret (tx_encode tx)).
Proof.
  intros tx H. destruct (tx_encoder_law tx) as (e & E & S & C & _).
  - destruct H as (_ & _ & [_ H] & _). eapply Forall_impl; [|exact H]. intros i ([H1 _] & _ & _ & (ls & St & _)). split.
    + intro K. rewrite K in H1. destruct H1. discriminate.
    + apply stack_of_layout in St as [-> _]. cbn [layout wt_start wt_content]. rewrite lenN_app. lia.
  - exists e. split; auto. split; auto. split; auto. rewrite <- C. now apply drain_law.
Qed.
Theorem C04_block : forall b, Forall tx_shape (b_txs b) -> exists e, block_encoder b = Ret e /\ sound e /\ content e = block_encode b /\
  drain_to_vec (steps e) e = Some (Ret (block_encode b)).
Proof.
  intros b H. destruct (block_encoder_law b) as (e & E & S & C).
  - eapply Forall_impl; [|exact H]. intros tx K. destruct K as (_ & _ & [_ K] & _). eapply Forall_impl; [|exact K]. intros i ([H1 _] & _ & _ & (ls & St & _)). split.
    + intro Q. rewrite Q in H1. destruct H1. discriminate.
    + apply stack_of_layout in St as [-> _]. cbn [layout wt_start wt_content]. rewrite lenN_app. lia.
  - exists e. split; auto. split; auto. split; auto. rewrite <- C. now apply drain_law.
Qed.
Theorem C04_parts : forall i o h w, sound (txin_encoder i) /\ content (txin_encoder i) = txin_encode i /\ fresh_exact (txin_encoder i) /\
  sound (txout_encoder o) /\ content (txout_encoder o) = txout_encode o /\ fresh_exact (txout_encoder o) /\
  sound (header_encoder h) /\ content (header_encoder h) = header_encode h /\ fresh_exact (header_encoder h) /\
  (witness_ok w -> exists e, witness_encoder w = Ret e /\ sound e /\ content e = wit_encode w /\ fresh_exact e).
Proof.
  intros i o h w. destruct (txin_encoder_law i), (txout_encoder_law o), (header_encoder_law h). do 2 (split; auto). split; [cbn; tauto|]. do 2 (split; auto). split; [cbn; tauto|].
  do 2 (split; auto). split; [cbn; tauto|]. intros (ls & St & _). apply stack_of_layout in St as [-> _].
  destruct (witness_encoder_law (layout ls)) as (e & E & S & C); [cbn [layout wt_start wt_content]; rewrite lenN_app; lia|]. exists e. split; auto. split; auto. split; auto.
  unfold witness_encoder in E. destruct (_ <? _); inv E. cbn. tauto.
Qed.

(** What does not hold.  (1) The iterator's length after the first part: two of the three bytes of the
    encoding of a two-byte script are read, one remains, and it says two.  (2) [nth] again after it
    returned [None] panics.  (3) A list whose first item starts with an empty chunk loses that item. *)
Theorem C04_iter_len_refuted : exists e s b1 b2 s', sound e /\ fresh_exact e /\
  bi_next 9 (biter_new e) = Some (Ret (s, Some b1)) /\ bi_next 9 s = Some (Ret (s', Some b2)) /\
  lenN (content e) = 3 /\ bi_len s' = Ret 2.
Proof. exists (prefixed_bytes [7; 8]). do 4 eexists. split; [cbn; repeat split; repeat constructor|]. split; [cbn; tauto|].
  split; [vm_compute; reflexivity|]. split; [vm_compute; reflexivity|]. split; vm_compute; reflexivity. Qed.
Theorem C04_nth_twice_refuted : exists b e s1 b1 s2, b_txs b = [] /\ block_encoder b = Ret e /\
  bi_next 9 (biter_new e) = Some (Ret (s1, Some b1)) /\ bi_nth 99 s1 1000 = Some (Ret (s2, None)) /\ bi_nth 99 s2 0 = Some Panic.
Proof.
  exists {| b_header := {| h_version := 1; h_prev := repeat 0 32; h_merkle := repeat 0 32; h_time := 0; h_bits := 0; h_nonce := 0 |}; b_txs := [] |}.
  do 4 eexists. split; [reflexivity|]. split; [vm_compute; reflexivity|]. split; [vm_compute; reflexivity|]. split; [vm_compute; reflexivity|]. vm_compute; reflexivity.
Qed.
Theorem C04_empty_first_chunk_refuted : exists es it, Forall sound es /\ iter_new es = Ret it /\ content it <> concat (map content es).
Proof.
  exists [EN 0 [EBytes []; EBytes [5]]]. eexists. split; [repeat constructor|]. split; [vm_compute; reflexivity|]. vm_compute. discriminate.
Qed.

Example C04_witness : tx_shape ex_tx /\ exists e, tx_encoder ex_tx = Ret e /\ bi_collect 999 (biter_new e) = Some (Ret (tx_encode ex_tx)) /\
  (exists w, writer_law (fun w : bytes => w) (fun w b => (w ++ b, @Ok unit unit tt)) /\ drain_to_writer (fun w b => (w ++ b, @Ok unit unit tt)) 999 e [] = Some (Ret (w, Ok tt)) /\ w = tx_encode ex_tx).
Proof.
  split; [exact (proj1 ex_tx_ok)|]. eexists. split; [vm_compute; reflexivity|]. split; [vm_compute; reflexivity|].
  eexists. split; [intros w b; reflexivity|]. split; [vm_compute; reflexivity|]. vm_compute; reflexivity.
Qed.
(** a writer with room for ten bytes *)
Example C04_witness_full : writer_law (fun w : bytes => w)
  (fun w b => if lenN (w ++ b) <=? 10 then (w ++ b, Ok tt) else (w ++ firstn (10 - length w) b, Err tt)).
Proof.
  intros w b. destruct (lenN (w ++ b) <=? 10); [reflexivity|]. exists (firstn (10 - length w) b), (skipn (10 - length w) b).
  now rewrite firstn_skipn.
Qed.

Print Assumptions C04_vec.
Print Assumptions C04_writer.
Print Assumptions C04_iter_steps.
Print Assumptions C04_transaction.
Print Assumptions C04_block.
Print Assumptions C04_iter.
Print Assumptions C04_exact_len.
Print Assumptions C04_check.
Print Assumptions C04_slice.
Print Assumptions C04_parts.
Print Assumptions C04_iter_len_refuted.
Print Assumptions C04_nth_twice_refuted.
Print Assumptions C04_empty_first_chunk_refuted.
