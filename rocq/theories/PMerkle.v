(** C10, C11: Merkle roots.  C46: block validation. *)
From Verif Require Import Base MDec MWitness MTx SWire STx LTxEx MMerkle SMerkle LMerkle LWitness SBlock LBlock.
Local Open Scope N_scope.

(** *** C10: the two algorithms compute the root of the tree *)
Section Root.
Context {T : Type} (eqb : T -> T -> bool) (eqb_spec : forall a b, eqb a b = true <-> a = b) (combine : T -> T -> T).

(** The batched algorithm ends, and refuses exactly the empty list and the trees with equal siblings. *)
Theorem C10_batched : forall l,
  (forall r, calculate_root_batched eqb combine l = Some (Some r) <-> merkle_root combine l r /\ ~ equal_siblings combine l) /\
  (calculate_root_batched eqb combine l = Some None <-> l = [] \/ equal_siblings combine l).
Proof using eqb_spec.
  intro l. unfold calculate_root_batched. destruct (batched_law eqb eqb_spec combine (length l) l (le_n _)) as [(r & -> & R1 & R2)|(-> & R)].
  - split; [|split; [discriminate|]].
    + intro r'. split; [intro E; injection E as <-; auto|]. intros [R3 _]. do 2 f_equal. eapply root_det; eauto.
    + intros [->|K]; [inv R1; cbn in *; lia|tauto].
  - split; [|tauto]. intro r'. split; [discriminate|]. intros [R1 R2]. destruct R as [->|R]; [inv R1; cbn in *; lia|tauto].
Qed.
(** The streaming algorithm does not panic; what it returns is the root; it refuses only the empty list
    and trees with equal siblings; it lets equal siblings through only if two different pairs of nodes
    of this very tree have the same hash. *)
Theorem C10_streaming : forall l, exists o, calculate_root eqb combine l = Ret o /\
  (forall r, o = Some r -> merkle_root combine l r /\ (equal_siblings combine l -> hash_collision combine l l)) /\
  (o = None -> l = [] \/ equal_siblings combine l).
Proof using eqb_spec.
  intros [|d l]; [exists None; split; [reflexivity|]; split; [discriminate|auto]|].
  destruct (streaming_law eqb eqb_spec combine d (d :: l)) as [[-> K]|(r & -> & K1 & K2)].
  - exists None. split; auto. split; [discriminate|auto].
  - exists (Some r). split; auto. split; [intros r' E; injection E as <-; auto|discriminate].
Qed.
(** The two agree, up to such a collision. *)
Theorem C10_agree : forall l, (forall a b c d, hashed combine l a b -> hashed combine l c d -> combine a b = combine c d -> (a, b) = (c, d)) ->
  exists o, calculate_root eqb combine l = Ret o /\ calculate_root_batched eqb combine l = Some o.
Proof using eqb_spec.
  intros l N. destruct (C10_streaming l) as (o & E & S1 & S2). exists o. split; auto. destruct (C10_batched l) as [B1 B2]. destruct o as [r|].
  - destruct (S1 r eq_refl) as [R K]. apply B1. split; auto. intro Q. destruct (K Q) as (a & b & c & d & K1 & K2 & K3 & K4). apply K3. now apply N.
  - apply B2. auto.
Qed.
(** Without collisions the root exists, and is the recursive definition's. *)
Theorem C10_recursive : forall l h d, (1 <= length l <= 2 ^ h)%nat -> (h = 0 \/ 2 ^ (h - 1) < length l)%nat -> merkle_root combine l (root_rec combine h l d).
Proof using eqb_spec. intros. now apply (root_rec_spec eqb eqb_spec). Qed.
(** The build without allocation agrees up to 32767 leaves and refuses more. *)
Theorem C10_no_alloc : forall l, calculate_root_noalloc eqb combine l =
  if lenN l <=? 32767 then calculate_root eqb combine l else Ret None.
Proof using eqb_spec.
  intros [|d l]; [reflexivity|]. unfold calculate_root_noalloc, calculate_root. destruct (N.leb_spec (lenN (d :: l)) 32767) as [K|K].
  - rewrite (noalloc_law eqb eqb_spec combine d (d :: l) 0 [] []); try reflexivity; lia.
  - rewrite (noalloc_full eqb eqb_spec combine d (d :: l) 0 [] []); try reflexivity; lia.
Qed.
End Root.
(** Trees over symbolic terms have no collisions: five leaves, and an ambiguous list of four. *)
Inductive term := leaf (n : N) | pair (a b : term).
Fixpoint teqb (a b : term) : bool :=
  match a, b with leaf n, leaf m => n =? m | pair a b, pair c d => teqb a c && teqb b d | _, _ => false end.
Example C10_witness : (forall a b, teqb a b = true <-> a = b) /\
  calculate_root teqb pair [leaf 1; leaf 2; leaf 3; leaf 4; leaf 5] =
    Ret (Some (pair (pair (pair (leaf 1) (leaf 2)) (pair (leaf 3) (leaf 4))) (pair (pair (leaf 5) (leaf 5)) (pair (leaf 5) (leaf 5))))) /\
  (forall l a b c d, hashed pair l a b -> hashed pair l c d -> pair a b = pair c d -> (a, b) = (c, d)) /\
  equal_siblings pair [leaf 1; leaf 2; leaf 1; leaf 2].
Proof.
  split; [|split; [reflexivity|split]].
  - induction a as [n|a IHa a' IHb]; intros [m|b b']; cbn [teqb]; split; intro E; try discriminate.
    + f_equal. now apply N.eqb_eq. + injection E as ->. apply N.eqb_refl.
    + apply andb_true_iff in E as [E1 E2]. apply IHa in E1. apply IHb in E2. now subst.
    + injection E as -> ->. apply andb_true_iff. split; [now apply IHa|now apply IHb].
  - intros l a b c d _ _ E. now injection E as -> ->.
  - apply eq_above; [cbn; lia|]. apply (eq_here pair []). now exists 0%nat.
Qed.
(** The streaming algorithm can let equal siblings through: when the hash has a collision. *)
Theorem C10_streaming_exact_refuted : exists (eqb : N -> N -> bool) (combine : N -> N -> N) l r,
  (forall a b, eqb a b = true <-> a = b) /\ equal_siblings combine l /\ calculate_root eqb combine l = Ret (Some r).
Proof.
  exists N.eqb, (fun _ _ => 7), [1; 2; 3], 7. split; [exact N.eqb_eq|]. split; [|reflexivity].
  apply eq_above; [cbn; lia|]. apply (eq_here (fun _ _ => 7) []). now exists 0%nat.
Qed.

(** *** C11: the root binds the list of leaves *)
Section Binding.
(** The double SHA-256, on byte strings. *)
Context (H : bytes -> bytes).
(** Lists of the same length, ambiguous or not. *)
Theorem C11_same_length : forall l1 l2 r, merkle_root (node H) l1 r -> merkle_root (node H) l2 r -> length l1 = length l2 ->
  l1 = l2 \/ hash_collision (node H) l1 l2.
Proof. exact (bind_same H). Qed.
(** Accepted lists: else one list is a proper higher level of the tree over the other. *)
Theorem C11_binding : forall l1 l2 r, calculate_root_batched beqb (node H) l1 = Some (Some r) ->
  calculate_root_batched beqb (node H) l2 = Some (Some r) ->
  l1 = l2 \/ hash_collision (node H) l1 l2 \/
  (exists k, (length l1 < length l2)%nat /\ level_up (node H) (S k) l2 = l1) \/
  (exists k, (length l2 < length l1)%nat /\ level_up (node H) (S k) l1 = l2).
Proof. intros l1 l2 r E1 E2. apply (C10_batched beqb beqb_spec) in E1, E2. now apply (bind_law H l1 l2 r). Qed.
(** With leaves and hashes of 32 bytes a collision of pairs is a collision of 64-byte messages. *)
Theorem C11_collision : forall l1 l2, (forall m, lenN (H m) = 32) -> Forall (fun x => lenN x = 32) l1 -> Forall (fun x => lenN x = 32) l2 ->
  hash_collision (node H) l1 l2 ->
  exists a b c d, hashed (node H) l1 a b /\ hashed (node H) l2 c d /\ lenN (a ++ b) = 64 /\ lenN (c ++ d) = 64 /\ a ++ b <> c ++ d /\ H (a ++ b) = H (c ++ d).
Proof.
  intros l1 l2 Hl F1 F2 (a & b & c & d & K1 & K2 & K3 & K4). destruct (hashed_len H Hl l1 a b F1 K1) as [La Lb]. destruct (hashed_len H Hl l2 c d F2 K2) as [Lc Ld].
  exists a, b, c, d. split; auto. split; auto. unfold lenN in *. rewrite !app_length. split; [lia|]. split; [lia|]. split; [|exact K4].
  apply pair_app; auto.
Qed.
End Binding.
(** Without the check for equal siblings a root does not bind the list, whatever the hash: CVE-2012-2459. *)
Theorem C11_ambiguous_refuted : forall (T : Type) (combine : T -> T -> T) a b c, exists r,
  merkle_root combine [a; b; c] r /\ merkle_root combine [a; b; c; c] r.
Proof. intros T combine a b c. eexists. split; repeat (apply root_up; [cbn; lia|]; cbn [next_level]); apply root_leaf. Qed.

(** A hash for examples: 32 bytes of a polynomial. *)
Definition toy_hash (m : bytes) : bytes := le_bytes 32 (fold_left (fun acc b => (acc * 1000003 + b + 1) mod 2 ^ 256) m 17).
Definition ex_ids : list bytes := [repeat 1 32; repeat 2 32; repeat 3 32].
Example C11_witness : (forall m, lenN (toy_hash m) = 32) /\ Forall (fun x => lenN x = 32) ex_ids /\
  exists r, calculate_root_batched beqb (node toy_hash) ex_ids = Some (Some r).
Proof.
  split; [intro m; unfold lenN, toy_hash; now rewrite le_bytes_length|]. split; [repeat constructor|].
  eexists. vm_compute. reflexivity.
Qed.

(** *** C46: block validation *)
Section Block.
Context (H : bytes -> bytes).
Definition good_witnesses (b : block) : Prop := Forall witnesses_ok (b_txs b).

Theorem C46_validate : forall b b' wr, good_witnesses b ->
  (validate H b = Ret (Ok (b', wr)) <-> b' = b /\ coinbase_rule (b_txs b) /\ root_rule H b /\ witness_rule H (b_txs b) wr).
Proof.
  intros b b' wr W. unfold validate, good_witnesses in *. destruct (b_txs b) as [|cb rest] eqn:E.
  { split; [discriminate|]. intros (_ & (cb & rest & K & _) & _). discriminate. }
  destruct (is_coinbase cb) eqn:C; cbn [negb].
  2: { split; [discriminate|]. intros (_ & (cb' & rest' & K & Q) & _). injection K as <- <-. apply is_coinbase_iff in Q. congruence. }
  assert (C' : coinbase_rule (cb :: rest)) by (exists cb, rest; split; auto; now apply is_coinbase_iff).
  destruct (check_root_law H b) as [[-> R]|[-> R]]; cbn [rbind negb]; [|split; [discriminate|tauto]].
  destruct (check_commitment_law H cb rest W C) as [(w & -> & K)|(-> & K)]; cbn [rbind].
  - split; [intro Q; injection Q as <- <-; auto|]. intros (-> & _ & _ & Q). do 3 f_equal.
    clear - K Q W. destruct K as (? & ? & E1 & K), Q as (? & ? & E2 & Q). rewrite E1 in E2. injection E2 as <- <-. injection E1 as <- <-.
    assert (Wr : Forall witnesses_ok rest) by now inv W.
    destruct K as [(c1 & s1 & l1 & r1 & X1 & X2 & X3 & X4 & X5 & X6 & ->)|(X1 & X2 & ->)]; destruct Q as [(c2 & s2 & l2 & r2 & Y1 & Y2 & Y3 & Y4 & Y5 & Y6 & ->)|(Y1 & Y2 & ->)]; auto.
    + apply wleaves_iff in X4, Y4; auto. subst. f_equal. eapply tree_det; eauto.
    + exfalso. eauto using commitment_no.
    + exfalso. eauto using commitment_no.
  - split; [discriminate|]. intros (_ & _ & _ & Q). now apply K in Q.
Qed.
(** Otherwise the error names the first rule that fails; validation does not panic. *)
Theorem C46_errors : forall b, good_witnesses b -> (forall wr, validate H b <> Ret (Ok (b, wr))) ->
  exists e, validate H b = Ret (Err e) /\
  match e with
  | NoTransactions => b_txs b = []
  | InvalidCoinbase => exists cb rest, b_txs b = cb :: rest /\ ~ coinbase_tx cb
  | InvalidMerkleRoot => coinbase_rule (b_txs b) /\ ~ root_rule H b
  | InvalidWitnessCommitment => coinbase_rule (b_txs b) /\ root_rule H b /\ forall wr, ~ witness_rule H (b_txs b) wr
  end.
Proof.
  intros b W N. unfold validate, good_witnesses in *. destruct (b_txs b) as [|cb rest] eqn:E; [exists NoTransactions; auto|].
  destruct (is_coinbase cb) eqn:C; cbn [negb] in *.
  2: { exists InvalidCoinbase. split; auto. exists cb, rest. split; auto. intro Q. apply is_coinbase_iff in Q. congruence. }
  assert (C' : coinbase_rule (cb :: rest)) by (exists cb, rest; split; auto; now apply is_coinbase_iff).
  destruct (check_root_law H b) as [[Q R]|[Q R]]; rewrite Q in *; cbn [rbind negb] in *; [|exists InvalidMerkleRoot; auto].
  destruct (check_commitment_law H cb rest W C) as [(w & Z & K)|(Z & K)]; rewrite Z in *; cbn [rbind] in *; [now destruct (N w)|].
  exists InvalidWitnessCommitment. auto.
Qed.
(** Two valid blocks with the same Merkle root in their headers have the same transactions, witnesses
    included, or two different messages hashed for them collide, or the txids of one are a proper
    higher level of the tree over the txids of the other. *)
Theorem C46_binds : forall b1 b2 w1 w2, (forall m, lenN (H m) = 32) -> Forall tx_shape (b_txs b1) -> Forall tx_shape (b_txs b2) ->
  validate H b1 = Ret (Ok (b1, w1)) -> validate H b2 = Ret (Ok (b2, w2)) -> h_merkle (b_header b1) = h_merkle (b_header b2) ->
  b_txs b1 = b_txs b2 \/
  (exists m1 m2, message H b1 m1 /\ message H b2 m2 /\ m1 <> m2 /\ H m1 = H m2) \/
  (exists k, (length (b_txs b1) < length (b_txs b2))%nat /\ level_up (node H) (S k) (map (txid_of H) (b_txs b2)) = map (txid_of H) (b_txs b1)) \/
  (exists k, (length (b_txs b2) < length (b_txs b1))%nat /\ level_up (node H) (S k) (map (txid_of H) (b_txs b1)) = map (txid_of H) (b_txs b2)).
Proof.
  intros b1 b2 w1 w2 Hl S1 S2 V1 V2 E.
  apply C46_validate in V1 as (_ & C1 & R1 & W1); [|eapply Forall_impl; [|exact S1]; apply LTxId.shape_witnesses].
  apply C46_validate in V2 as (_ & C2 & R2 & W2); [|eapply Forall_impl; [|exact S2]; apply LTxId.shape_witnesses].
  eapply valid_bind; eauto.
Qed.
End Block.
(** A block with a coinbase committing to the witness of a second transaction, valid for the toy hash. *)
Definition ex_reserved : bytes := repeat 5 32.
Definition ex_cb (commitment : bytes) : transaction := {| tx_version := 2; tx_lock_time := 0;
  tx_inputs := [{| ti_prevout := null_outpoint; ti_script := [1; 2; 3]; ti_sequence := 0;
                   ti_witness := match from_slice [ex_reserved] with Ret w => w | Panic => wit_new end |}];
  tx_outputs := [ex_out; {| to_amount := 0; to_script := [0x6a; 0x24; 0xaa; 0x21; 0xa9; 0xed] ++ commitment |}] |}.
Definition ex_wroot : bytes := node toy_hash (repeat 0 32) (toy_hash (tx_encode ex_tx)).
Definition ex_coinbase : transaction := Eval vm_compute in ex_cb (toy_hash (ex_wroot ++ ex_reserved)).
Definition ex_block (txs : list transaction) (root : bytes) : block :=
  {| b_header := {| h_version := 1; h_prev := repeat 0 32; h_merkle := root; h_time := 0; h_bits := 0; h_nonce := 0 |}; b_txs := txs |}.
Definition ex_valid : block := ex_block [ex_coinbase; ex_tx] (node toy_hash (txid_of toy_hash ex_coinbase) (txid_of toy_hash ex_tx)).
Lemma ex_coinbase_shape : tx_shape ex_coinbase.
Proof.
  split; [reflexivity|]. split; [reflexivity|]. split; (split; [discriminate|]); unfold ex_coinbase; cbn [tx_inputs tx_outputs].
  - constructor; [|constructor]. split; [split; [split; [reflexivity|conc]|reflexivity]|]. split; [split; [discriminate|conc]|]. split; [reflexivity|].
    exists [ex_reserved]. split; [vm_compute; reflexivity|]. split; [discriminate|]. constructor; [|constructor]. split; [discriminate|]. repeat (constructor; [reflexivity|]). constructor.
  - constructor; [apply ex_out_ok|]. constructor; [|constructor]. split; [discriminate|]. split; [discriminate|conc].
Qed.
Example C46_witness : (forall m, lenN (toy_hash m) = 32) /\ Forall tx_shape (b_txs ex_valid) /\ good_witnesses ex_valid /\
  validate toy_hash ex_valid = Ret (Ok (ex_valid, Some ex_wroot)) /\
  validate toy_hash (ex_block [] []) = Ret (Err NoTransactions) /\
  validate toy_hash (ex_block [ex_tx] []) = Ret (Err InvalidCoinbase) /\
  validate toy_hash (ex_block [ex_coinbase] []) = Ret (Err InvalidMerkleRoot) /\
  validate toy_hash (ex_block [ex_coinbase] (txid_of toy_hash ex_coinbase)) = Ret (Err InvalidWitnessCommitment).
Proof.
  assert (Sh : Forall tx_shape (b_txs ex_valid)) by (constructor; [apply ex_coinbase_shape|]; constructor; [apply ex_tx_ok|constructor]).
  split; [intro m; unfold lenN, toy_hash; now rewrite le_bytes_length|]. split; [exact Sh|].
  split; [eapply Forall_impl; [|exact Sh]; apply LTxId.shape_witnesses|].
  split; [vm_compute; reflexivity|]. split; [vm_compute; reflexivity|]. split; [vm_compute; reflexivity|]. split; vm_compute; reflexivity.
Qed.

Print Assumptions C10_batched.
Print Assumptions C10_streaming.
Print Assumptions C10_agree.
Print Assumptions C10_recursive.
Print Assumptions C10_no_alloc.
Print Assumptions C10_streaming_exact_refuted.
Print Assumptions C11_same_length.
Print Assumptions C11_binding.
Print Assumptions C11_collision.
Print Assumptions C11_ambiguous_refuted.
Print Assumptions C46_validate.
Print Assumptions C46_errors.
Print Assumptions C46_binds.
