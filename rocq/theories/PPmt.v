(** C31: partial Merkle trees and merkle blocks. *)
From Coq Require Import Sorted.
From Verif Require Import Base MDec LDec MWitness MTx MMerkle MPmt SWire SMerkle SPmt STx LWitness LTxId LMerkle LBuilt LBlock LPmt LPmt2 LPmt3 PMerkle SBlock.
Local Open Scope N_scope.

Section Pmt.
Context {T : Type} (eqb : T -> T -> bool) (eqb_spec : forall a b, eqb a b = true <-> a = b) (combine : T -> T -> T).

(** Building does not panic for 1 to 2^31 - 1 transactions, and writes the smallest tree showing the
    marked ones: exactly these are reported, with their positions, and the root is that of the list. *)
Theorem C31_build : forall txids marks, 1 <= lenN txids < 2 ^ 31 -> length txids = length marks ->
  exists p h t, from_txids combine txids marks = Ret p /\ pm_num p = lenN txids /\
    tree_height (lenN txids) h /\ fits (lenN txids) h 0 t /\ pm_bits p = flags t /\ pm_hashes p = shown t /\
    found 0 t = marked 0 txids marks /\ lean t /\ merkle_root combine txids (proot combine t).
Proof using eqb_spec.
  intros txids marks Hn Hl. destruct (build_law combine eqb eqb_spec txids marks Hn Hl) as (p & h & t & E & N & TH & F & B & S1 & L & M & A).
  exists p, h, t. repeat (split; [assumption|]). apply agrees_root in A. apply (node_root combine eqb eqb_spec txids (N.to_nat h)); [now rewrite N2Nat.id|exact A].
Qed.
(** It panics on an empty list, on lists of different lengths, and from 2^31 transactions on. *)
Theorem C31_build_panics : forall txids marks, lenN txids < 2 ^ 32 ->
  (from_txids combine txids marks = Panic <-> txids = [] \/ length txids <> length marks \/ 2 ^ 31 <= lenN txids).
Proof using eqb_spec.
  intros txids marks H32. unfold from_txids. split.
  - intro P. destruct txids as [|x txids]; [auto|]. destruct (Nat.eq_dec (length (x :: txids)) (length marks)) as [E|E]; [|auto].
    right. right. destruct (N.lt_ge_cases (lenN (x :: txids)) (2 ^ 31)) as [K|K]; [exfalso|exact K].
    destruct (C31_build (x :: txids) marks) as (p & h & t & Q & _); [rewrite lenN_cons in *; lia|exact E|]. unfold from_txids in Q. rewrite P in Q. discriminate.
  - intros [->|[K|K]]; [reflexivity| |].
    + destruct (lenN txids =? 0); [reflexivity|]. destruct (N.eqb_spec (lenN txids) (lenN marks)) as [E|E]; [exfalso; apply K; unfold lenN in E; lia|reflexivity].
    + destruct (lenN txids =? 0); [reflexivity|]. destruct (lenN txids =? lenN marks); [cbn [negb]|reflexivity].
      rewrite N.mod_small by (unfold U32; change (2 ^ 32) with 4294967296 in *; lia). unfold calc_tree_height. rewrite height_loop_panic by (change (2 ^ 32) with 4294967296 in *; lia). reflexivity.
Qed.
(** Extraction never panics, whatever the tree claims. *)
Theorem C31_total : forall p ms ixs, pm_num p < 2 ^ 32 -> exists a b r, extract_matches eqb combine p ms ixs = Ret (a, b, r).
Proof using eqb_spec. exact (extract_ret combine eqb eqb_spec). Qed.
(** It accepts exactly the trees of 1 to 16666 transactions that are written correctly and have no
    equal siblings; what the two vectors held before does not matter. *)
Theorem C31_accepts : forall p ms ixs a b x, lenN (pm_bits p) < 2 ^ 32 -> lenN (pm_hashes p) < 2 ^ 32 ->
  (extract_matches eqb combine p ms ixs = Ret (a, b, Ok x) <->
   1 <= pm_num p <= 16666 /\
   exists h t pad, tree_height (pm_num p) h /\ fits (pm_num p) h 0 t /\ distinct combine t /\ written p t pad /\
     proot combine t = x /\ a = map snd (found 0 t) /\ b = map fst (found 0 t)).
Proof using eqb_spec. exact (extract_law combine eqb eqb_spec). Qed.
(** What was built is read back: the root, the marked transactions and their positions. *)
Theorem C31_round_trip : forall txids marks ms ixs, 1 <= lenN txids <= 16666 -> length txids = length marks ->
  exists p root a b r, from_txids combine txids marks = Ret p /\ merkle_root combine txids root /\
    extract_matches eqb combine p ms ixs = Ret (a, b, r) /\
    ((r = Ok root /\ a = map snd (marked 0 txids marks) /\ b = map fst (marked 0 txids marks)) \/
     (r = Err MbIdentical /\ equal_siblings combine txids)).
Proof using eqb_spec.
  intros txids marks ms ixs Hn Hl.
  destruct (build_law combine eqb eqb_spec txids marks) as (p & h & t & E & N & TH & F & B & S1 & L & M & A); [change (2 ^ 31) with 2147483648; lia|exact Hl|].
  assert (R : merkle_root combine txids (proot combine t)). { apply (node_root combine eqb eqb_spec txids (N.to_nat h)); [now rewrite N2Nat.id|]. exact (agrees_root _ _ _ _ _ A). }
  destruct (small_height (lenN txids) h ltac:(lia) TH) as [H15 HU]. assert (P15 : 2 ^ h <= 2 ^ 15) by (apply N.pow_le_mono_r; lia). change (2 ^ 15) with 32768 in P15.
  destruct (fits_len _ _ _ _ F) as (L1 & L2 & L3 & L4).
  assert (Lb : lenN (pm_bits p) < 2 ^ 32) by (rewrite B; change (2 ^ 32) with 4294967296; lia). assert (Lh : lenN (pm_hashes p) < 2 ^ 32) by (rewrite S1; change (2 ^ 32) with 4294967296; lia).
  assert (W : written p t []) by (split; [rewrite app_nil_r; exact B|split; [exact S1|now rewrite B]]).
  destruct (distinct_dec combine eqb eqb_spec t) as [D|D].
  - exists p, (proot combine t), (map snd (found 0 t)), (map fst (found 0 t)), (Ok (proot combine t)). split; [exact E|]. split; [exact R|]. split; [|left; rewrite M; auto].
    apply C31_accepts; auto. rewrite N. split; [exact Hn|]. exists h, t, []. auto 10.
  - rewrite <- N in TH, F. destruct (extract_identical combine eqb eqb_spec p ms ixs h t []) as (a & b & X); auto; [rewrite N; lia|].
    exists p, (proot combine t), a, b, (Err MbIdentical). split; [exact E|]. split; [exact R|]. split; [exact X|]. right. split; [reflexivity|].
    destruct (root_height combine eqb eqb_spec txids _ R) as (h' & TH' & _ & LL). rewrite N in TH. pose proof (height_unique _ _ _ TH TH') as ->. rewrite Nat2N.id in A.
    eapply agrees_distinct; eauto.
Qed.
(** An accepted tree with the root and the number of transactions of a list reports transactions of
    that list at their true positions, each once and in order; else the proof contains a collision with
    the tree over the list. *)
Theorem C31_sound : forall p ms ixs a b x txids, lenN (pm_bits p) < 2 ^ 32 -> lenN (pm_hashes p) < 2 ^ 32 ->
  extract_matches eqb combine p ms ixs = Ret (a, b, Ok x) -> merkle_root combine txids x -> lenN txids = pm_num p ->
  (Forall2 (fun i y => nth_error txids (N.to_nat i) = Some y) b a /\ StronglySorted N.lt b) \/
  exists t pad, written p t pad /\ pmt_collision combine t txids.
Proof using eqb_spec.
  intros p ms ixs a b x txids Lb Lh E R N. apply C31_accepts in E as (Hn & h & t & pad & TH & F & D & (W1 & W2 & W3) & Rx & -> & ->); auto.
  rewrite <- N in TH, F. destruct (root_height combine eqb eqb_spec txids x R) as (h' & TH' & R' & LL). pose proof (height_unique _ _ _ TH TH') as ->. subst x.
  destruct (sound_law combine eqb eqb_spec txids _ t 0 F) as [K|K]; rewrite ?Nat2N.id; auto; [left|right; exists t, pad; split; [split; [exact W1|split; [exact W2|exact W3]]|exact K]]. split.
  - clear - K. induction (found 0 t) as [|[i y] l IH]; cbn [map fst snd]; constructor; [apply K; now left|]. apply IH. intros j z Hj. apply K. now right.
  - pose proof (found_inc _ _ _ _ F (height0 _ _ TH)) as I. clear - I. revert I. generalize (0 * 2 ^ N.of_nat h') as lo. generalize (N.min (lenN txids) ((0 + 1) * 2 ^ N.of_nat h')) as hi.
    intros hi lo. generalize (map fst (found 0 t)) as l. intro l. revert lo. assert (G : forall l lo, increasing_from lo l hi -> Forall (fun y => lo <= y) l).
    { clear. induction l as [|y l IH]; intros lo H; constructor; destruct H as (A & B & C); auto. eapply Forall_impl; [|apply (IH _ C)]. cbn. intros. lia. }
    induction l as [|y l IH]; intros lo H; constructor; destruct H as (A & B & C); [eauto|]. eapply Forall_impl; [|apply (G _ _ C)]. cbn. intros. lia.
Qed.
(** The number of transactions is not authenticated: with the count 1, every root is accepted as the
    identifier of the only transaction. *)
Theorem C31_count_refuted : forall root, extract_matches eqb combine {| pm_num := 1; pm_bits := [true]; pm_hashes := [root] |} [] [] = Ret ([root], [0], Ok root).
Proof using Type. intro root. reflexivity. Qed.
End Pmt.

Example C31_witness :
  let l := [leaf 1; leaf 2; leaf 3; leaf 4; leaf 5] in
  exists p, from_txids pair l [false; true; false; false; true] = Ret p /\ pm_bits p = [true; true; true; false; true; false; true; true; true] /\
  pm_hashes p = [leaf 1; leaf 2; pair (leaf 3) (leaf 4); leaf 5] /\
  extract_matches teqb pair p [leaf 9] [9] =
    Ret ([leaf 2; leaf 5], [1; 4], Ok (pair (pair (pair (leaf 1) (leaf 2)) (pair (leaf 3) (leaf 4))) (pair (pair (leaf 5) (leaf 5)) (pair (leaf 5) (leaf 5))))) /\
  extract_matches teqb pair {| pm_num := 4; pm_bits := [true; true; false; true; false]; pm_hashes := [leaf 1; leaf 1; leaf 3] |} [] [] = Ret ([leaf 1], [1], Err MbIdentical).
Proof. eexists. repeat split; reflexivity. Qed.

(** *** Merkle blocks *)
Section Block.
Context (H : bytes -> bytes).
(** A merkle block is accepted iff its tree is, and the root is the header's. *)
Theorem C31_merkle_block : forall m ms ixs a b,
  (mb_extract H m ms ixs = Ret (a, b, Ok tt) <->
   extract_matches beqb (node H) (mb_txn m) ms ixs = Ret (a, b, Ok (h_merkle (mb_header m)))).
Proof.
  intros m ms ixs a b. unfold mb_extract. change (node_combine H) with (node H). destruct (extract_matches _ _ _ _ _) as [[[a' b'] [x|e]]|]; cbn [rbind]; try (split; discriminate).
  destruct (beqb x (h_merkle (mb_header m))) eqn:E.
  - apply beqb_spec in E as ->. split; intro K; injection K as -> ->; reflexivity.
  - split; intro K; [discriminate|]. injection K as -> -> ->. rewrite (proj2 (beqb_spec _ _) eq_refl) in E. discriminate.
Qed.
(** A merkle block made from a valid block reports the transactions that satisfy the predicate. *)
Theorem C31_from_block : forall b wr pred ms ixs, Forall witnesses_ok (b_txs b) -> validate H b = Ret (Ok (b, wr)) -> lenN (b_txs b) <= 16666 ->
  exists m, from_block H b pred = Ret m /\ mb_header m = b_header b /\
    mb_extract H m ms ixs =
      Ret (filter pred (map (txid_of H) (b_txs b)),
           map fst (filter (fun q => pred (snd q)) (List.combine (map N.of_nat (seq 0 (length (b_txs b)))) (map (txid_of H) (b_txs b)))), Ok tt).
Proof.
  intros b wr pred ms ixs Wit V Hn. apply C46_validate in V as (_ & (cb & rest & E & _) & (R & NS) & _); [|exact Wit].
  set (ids := map (txid_of H) (b_txs b)) in *. assert (L : lenN ids = lenN (b_txs b)) by (unfold ids, lenN; now rewrite map_length).
  assert (G : 1 <= lenN ids) by (rewrite L, E, lenN_cons; lia).
  unfold from_block. rewrite rmap_txids. cbn [rbind]. fold ids. unfold from_header_txids. change (node_combine H) with (node H).
  destruct (C31_round_trip beqb beqb_spec (node H) ids (map pred ids) ms ixs) as (p & root & a & c & r & EB & RR & EX & K); [lia|now rewrite map_length|].
  rewrite EB. cbn [rbind]. eexists. split; [reflexivity|]. split; [reflexivity|]. apply C31_merkle_block. cbn [mb_txn mb_header]. rewrite EX.
  destruct K as [(-> & -> & ->)|(_ & K)]; [|tauto]. pose proof (root_det (node H) _ _ _ R RR) as <-.
  assert (M : forall l i, map snd (marked (N.of_nat i) l (map pred l)) = filter pred l /\ map fst (marked (N.of_nat i) l (map pred l)) = map fst (filter (fun q => pred (snd q)) (List.combine (map N.of_nat (seq i (length l))) l))).
  { induction l as [|x l IH]; intro i; [auto|]. cbn [map marked filter length seq List.combine fst snd]. destruct (IH (S i)) as [I1 I2]. replace (N.of_nat (S i)) with (N.of_nat i + 1) in * by lia.
    destruct (pred x); cbn [app map fst snd]; rewrite I1, I2; auto. }
  destruct (M ids 0%nat) as [M1 M2]. change (N.of_nat 0) with 0 in *. rewrite M1, M2. replace (length ids) with (length (b_txs b)) by (unfold ids; now rewrite map_length). reflexivity.
Qed.
End Block.

(** *** Encoding *)
(** The encoding is the BIP 37 one. *)
Theorem C31_encode : forall p w, wire_pmt p w <-> w = pmt_encode p.
Proof. exact encode_wire. Qed.
(** Decoding accepts exactly the encodings of trees whose flags fill whole bytes. *)
Theorem C31_decode : forall l p r, bytes_ok l ->
  (decode_from_slice_unbounded pmt_dec l = Ret (Ok p, r) <->
   exists w, wire_pmt p w /\ l = w ++ r /\ pmt_ok p /\ lenN (pm_bits p) mod 8 = 0).
Proof.
  intros l p r Hl. rewrite (codec_prefix pmt_codec l p r Hl). split.
  - intros [-> [A B]]. exists (pmt_encode p). rewrite encode_wire. auto.
  - intros (w & W & -> & A & B). apply encode_wire in W as ->. split; [reflexivity|split; auto].
Qed.
(** Encoding and decoding adds zero flags up to a full byte and changes nothing else. *)
Theorem C31_decode_encode : forall p r, pmt_ok p -> bytes_ok r ->
  exists k, (k < 8)%nat /\ decode_from_slice_unbounded pmt_dec (pmt_encode p ++ r) =
    Ret (Ok {| pm_num := pm_num p; pm_bits := pm_bits p ++ repeat false k; pm_hashes := pm_hashes p |}, r).
Proof.
  intros p r Hp Hr. exists (pad_len (pm_bits p)). split.
  - unfold pad_len. assert (8 * div_ceil8 (lenN (pm_bits p)) - lenN (pm_bits p) < 8); [|lia]. unfold div_ceil8. pose proof (N.div_mod (lenN (pm_bits p) + 7) 8 ltac:(lia)). pose proof (N.mod_lt (lenN (pm_bits p) + 7) 8 ltac:(lia)). lia.
  - rewrite <- padded_encode. apply (codec_prefix pmt_codec); [|split; [reflexivity|now apply padded_full]].
    apply bytes_ok_app. split; [|exact Hr]. destruct Hp as (W1 & W2 & W3 & W4). unfold pmt_encode. cbn [padded pm_num pm_hashes].
    apply bytes_ok_app. split; [apply le_bytes_ok|]. apply bytes_ok_app. split.
    + unfold slice_encode. apply bytes_ok_app. split; [apply LCompact.cs_encode_ok|]. clear - W2. induction W2 as [|h l [_ Hh] _ IH]; [constructor|]. cbn [flat_map]. apply bytes_ok_app. auto.
    + apply bytes_ok_app. split; [apply LCompact.cs_encode_ok|apply pack_ok].
Qed.
(** The padding does not change what is extracted. *)
Theorem C31_transport : forall H p k a b x, (k < 8)%nat -> (lenN (pm_bits p) + 7) / 8 = (lenN (pm_bits p) + N.of_nat k + 7) / 8 ->
  lenN (pm_bits p) + 8 < 2 ^ 32 -> lenN (pm_hashes p) < 2 ^ 32 -> extract_matches beqb (node H) p [] [] = Ret (a, b, Ok x) ->
  extract_matches beqb (node H) {| pm_num := pm_num p; pm_bits := pm_bits p ++ repeat false k; pm_hashes := pm_hashes p |} [] [] = Ret (a, b, Ok x).
Proof.
  intros H p k a b x Hk E Lb Lh X. assert (LR : lenN (pm_bits p ++ repeat false k) = lenN (pm_bits p) + N.of_nat k) by (rewrite lenN_app; unfold lenN at 2; now rewrite repeat_length).
  apply (C31_accepts beqb beqb_spec) in X as (Hn & h & t & pad & TH & F & D & (W1 & W2 & W3) & K); [|lia|exact Lh].
  apply (C31_accepts beqb beqb_spec); cbn [pm_num pm_bits pm_hashes]; [lia|exact Lh|]. split; [exact Hn|]. exists h, t, (pad ++ repeat false k). split; [exact TH|]. split; [exact F|]. split; [exact D|]. split; [|exact K].
  split; [cbn [pm_bits]; rewrite W1; now rewrite app_assoc|]. split; [exact W2|]. cbn [pm_bits]. rewrite LR. congruence.
Qed.
(** Merkle blocks: the header followed by the tree. *)
Theorem C31_block_codec : forall l m r, bytes_ok l ->
  (decode_from_slice_unbounded mb_dec l = Ret (Ok m, r) <->
   exists w, wire_pmt (mb_txn m) w /\ l = wire_header (mb_header m) ++ w ++ r /\ header_ok (mb_header m) /\ pmt_ok (mb_txn m) /\ lenN (pm_bits (mb_txn m)) mod 8 = 0).
Proof.
  intros l m r Hl. rewrite (codec_prefix mb_codec l m r Hl). unfold mb_encode. rewrite <- app_assoc. split.
  - intros [-> (A & B & C)]. exists (pmt_encode (mb_txn m)). rewrite encode_wire. auto.
  - intros (w & W & -> & A & B & C). apply encode_wire in W as ->. split; [reflexivity|split; [auto|split; auto]].
Qed.
(** Decoding does not panic. *)
Theorem C31_decode_total : forall l, bytes_ok l -> lenN l < 2 ^ 32 ->
  decode_from_slice_unbounded pmt_dec l <> Panic /\ decode_from_slice_unbounded mb_dec l <> Panic.
Proof. intros l Hl Hn. split; [apply (codec_no_panic pmt_codec l Hl Hn)|apply (codec_no_panic mb_codec l Hl Hn)]. Qed.

Example C31_block_witness : Forall witnesses_ok (b_txs ex_valid) /\ validate toy_hash ex_valid = Ret (Ok (ex_valid, Some ex_wroot)) /\
  exists m, from_block toy_hash ex_valid (fun x => beqb x (txid_of toy_hash LTxEx.ex_tx)) = Ret m /\ pmt_ok (mb_txn m) /\
  mb_extract toy_hash m [] [] = Ret ([txid_of toy_hash LTxEx.ex_tx], [1], Ok tt).
Proof.
  split; [apply C46_witness|]. split; [apply C46_witness|]. eexists. split; [vm_compute; reflexivity|]. split; [|vm_compute; reflexivity].
  split; [reflexivity|]. split; [|split; discriminate]. repeat constructor.
Qed.

Print Assumptions C31_build.
Print Assumptions C31_build_panics.
Print Assumptions C31_total.
Print Assumptions C31_accepts.
Print Assumptions C31_round_trip.
Print Assumptions C31_sound.
Print Assumptions C31_count_refuted.
Print Assumptions C31_merkle_block.
Print Assumptions C31_from_block.
Print Assumptions C31_encode.
Print Assumptions C31_decode.
Print Assumptions C31_decode_encode.
Print Assumptions C31_transport.
Print Assumptions C31_block_codec.
Print Assumptions C31_decode_total.
