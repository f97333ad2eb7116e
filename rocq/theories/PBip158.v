(** C30: compact block filters (BIP 158). *)
From Coq Require Import Permutation Sorting.Sorted.
From Verif Require Import Base MDec MWitness MTx MSip MScript MBip152 SWire SSip LDec LDrive LCompact LCodec LBuilt LWire PSip LBip152 MBip158 SBip158 LBip158 LBip158b LBip158c LBip158d.
Local Open Scope N_scope.

(** ** Bit streams *)
(** Writing numbers of up to 64 bits each and flushing appends exactly their low bits in order, padded with fewer than eight
    zeros, and the counts returned add up to the bytes written. *)
Theorem C30_bits_written : forall out l, bytes_ok out -> Forall (fun x => snd x <= 64) l ->
  exists w k body pad, write_all (writer_new out) l = Ok (w, k) /\ bw_out (fst (bw_flush w)) = out ++ body /\ bytes_ok body /\
    bits_of_bytes body = flat_map (fun '(v, n) => bits_of (N.to_nat n) v) l ++ repeat false pad /\ (pad < 8)%nat /\ k + snd (bw_flush w) = lenN body.
Proof.
  intros out l O F. destruct (writer_new_ok out O) as [W0 X0]. destruct (write_all_spec l _ W0 F) as (w & k & E & W & X & L). rewrite X0 in X.
  destruct (finish_bits w out W O _ X) as (body & pad & A & B & C & D & G). exists w, k, body, pad. split; [exact E|]. split; [rewrite A; reflexivity|]. split; [exact B|]. split; [|split; [exact D|rewrite lenN_app in G; cbn [writer_new bw_out] in L; lia]].
  rewrite C. f_equal. clear. induction l as [|[v n] l IH]; [reflexivity|]. cbn [flat_map fst snd]. now rewrite IH.
Qed.
(** Reading pieces of given sizes returns the numbers made of the successive bits of the source ... *)
Theorem C30_bits_read : forall src sizes xs y, bytes_ok src -> Forall (fun n => n <= 64) sizes ->
  Forall2 (fun n x => length x = N.to_nat n) sizes xs -> bits_of_bytes src = concat xs ++ y ->
  exists vs r, read_all (reader_new src) sizes = Ok (vs, r) /\ Forall2 (fun v x => v < 2 ^ N.of_nat (length x) /\ bits_of (length x) v = x) vs xs.
Proof.
  intros src sizes xs y O F F2 E. destruct (reader_new_ok src O) as [R0 X0]. rewrite <- X0 in E. destruct (read_all_spec sizes _ y R0 F xs F2 E) as (vs & r & A & _ & _ & B). exists vs, r. auto.
Qed.
(** ... and fails when they exceed the source. *)
Theorem C30_bits_eof : forall src sizes, bytes_ok src -> Forall (fun n => n <= 64) sizes ->
  (8 * length src < fold_right (fun n k => N.to_nat n + k) 0 sizes)%nat -> read_all (reader_new src) sizes = Err UnexpectedEof.
Proof. intros src sizes O F L. destruct (reader_new_ok src O) as [R0 X0]. apply read_all_eof; auto. rewrite X0, bits_bytes_len. exact L. Qed.
(** So everything written reads back, reduced to its width. *)
Theorem C30_bits_round_trip : forall l rest, Forall (fun x => snd x <= 64) l -> bytes_ok rest ->
  exists w k, write_all (writer_new []) l = Ok (w, k) /\
    exists r, read_all (reader_new (bw_out (fst (bw_flush w)) ++ rest)) (map snd l) = Ok (map (fun '(v, n) => v mod 2 ^ n) l, r).
Proof.
  intros l rest F R. destruct (C30_bits_written [] l (Forall_nil _) F) as (w & k & body & pad & E & B & O & X & _). exists w, k. split; [exact E|]. rewrite B. cbn [app].
  destruct (C30_bits_read (body ++ rest) (map snd l) (map (fun '(v, n) => bits_of (N.to_nat n) v) l) (repeat false pad ++ bits_of_bytes rest)) as (vs & r & A & G).
  - apply Forall_app. auto.
  - apply Forall_map. exact F.
  - clear. induction l as [|[v n] l IH]; [constructor|]. cbn [map]. constructor; [apply bits_len|exact IH].
  - rewrite bits_of_bytes_app, X, <- app_assoc. f_equal. clear. induction l as [|[v n] l IH]; [reflexivity|]. cbn [flat_map map concat]. now rewrite IH.
  - exists r. rewrite A. do 2 f_equal. clear - G. revert vs G. induction l as [|[v n] l IH]; intros vs G; inversion G as [|x ? vs' ? [V B] G']; subst; [reflexivity|]. cbn [map]. f_equal; [|now apply IH].
    rewrite bits_len in V, B. rewrite N2Nat.id in V. exact (low_part v n x V B).
Qed.
(** More than 64 bits at once are refused, by both. *)
Theorem C30_bits_limit : forall w r v n, 64 < n -> bw_write w v n = Err TooManyBits /\ br_read r n = Err TooManyBits.
Proof. intros. unfold bw_write, br_read. replace (64 <? n) with true by lia. auto. Qed.
Example C30_ex_bits : exists w, write_all (writer_new []) [(5, 3); (0, 0); (1023, 10); (511, 2); (2 ^ 63 + 1, 64)] = Ok (w, 9) /\
  fst (bw_flush w) = mk_bw 0 0 [191; 255; 0; 0; 0; 0; 0; 0; 0; 2] /\
  match read_all (reader_new [191; 255; 0; 0; 0; 0; 0; 0; 0; 2]) [3; 0; 10; 2; 64] with Ok (vs, _) => vs = [5; 0; 1023; 3; 2 ^ 63 + 1] | Err _ => False end.
Proof. eexists. split; [vm_compute; reflexivity|]. split; vm_compute; reflexivity. Qed.

(** ** Golomb-Rice codes *)
(** Coding appends the code of each number, and decoding that many codes gives the numbers back, whatever follows. *)
Theorem C30_golomb_round_trip : forall p l rest, p < 64 -> Forall (fun n => n < 2 ^ 64) l -> bytes_ok rest ->
  exists w k body pad, encode_all p (writer_new []) l = Ret (Ok (w, k)) /\ bw_out (fst (bw_flush w)) = body /\
    bits_of_bytes body = flat_map (golomb p) l ++ repeat false pad /\ (pad < 8)%nat /\ k + snd (bw_flush w) = lenN body /\
    exists r, decode_all p (reader_new (body ++ rest)) (length l) = Ret (Ok (l, r)).
Proof.
  intros p l rest P F R. destruct (writer_new_ok [] (Forall_nil _)) as [W0 X0]. destruct (encode_all_spec p l _ P W0) as (w & k & E & W & X & L). rewrite X0 in X.
  destruct (finish_bits w [] W (Forall_nil _) _ X) as (body & pad & A & B & C & D & G). exists w, k, body, pad. split; [exact E|]. split; [rewrite A; reflexivity|]. split; [exact C|]. split; [exact D|].
  split; [cbn [app] in G; cbn [writer_new bw_out] in L; rewrite lenN_nil in L; lia|]. destruct (reader_new_ok (body ++ rest)) as [R0 Y0]; [apply Forall_app; auto|]. rewrite bits_of_bytes_app, C, <- app_assoc in Y0.
  destruct (decode_all_spec p l _ _ P R0 F Y0) as (r & -> & _). exists r. reflexivity.
Qed.
(** A parameter of 64 or more overflows a shift. *)
Theorem C30_golomb_parameter_refuted : ~ (forall p w n, p <= 255 -> golomb_rice_encode p w n <> Panic).
Proof. intro H. apply (H 64 (writer_new []) 0); [lia|reflexivity]. Qed.
Example C30_ex_golomb : golomb 2 9 = [true; true; false; false; true] /\ golomb 0 3 = [true; true; true; false].
Proof. split; reflexivity. Qed.

(** ** Filters *)
(** Adding elements leaves each distinct non-empty one once. *)
Theorem C30_elements : forall added, set_of added (fold_left add_element added []).
Proof. intro added. destruct (add_all_spec added [] (NoDup_nil _)) as (A & B & _). split; [exact A|]. intro e. rewrite B. cbn [In]. tauto. Qed.
(** Writing a filter appends the filter of the elements and returns its length. *)
Theorem C30_filter_written : forall k0 k1 m p els out, k0 < 2 ^ 64 -> k1 < 2 ^ 64 -> p < 64 -> bytes_ok out -> Forall element_ok els ->
  lenN els < 2 ^ 64 -> lenN els * m < 2 ^ 64 ->
  exists content, gcs_finish (mk_gcs k0 k1 m p) els out = Ret (Ok (out ++ content, lenN content)) /\ is_filter k0 k1 m p els content.
Proof. intros k0 k1 m p els out K0 K1 P O F L Nm. apply (finish_spec (mk_gcs k0 k1 m p)); auto. repeat split; auto. Qed.
(** Nothing else is that filter: it does not depend on the order the elements were added in. *)
Theorem C30_filter_canonical : forall k0 k1 m p els els' c c', Permutation els els' -> is_filter k0 k1 m p els c -> is_filter k0 k1 m p els' c' -> c = c'.
Proof. exact filter_unique. Qed.
(** Too many elements for the range make it panic. *)
Theorem C30_filter_overflow : forall g els out, 2 ^ 64 <= lenN els * g_m g -> gcs_finish g els out = Panic.
Proof. intros g els out H. unfold gcs_finish. now replace (U64 <=? lenN els * g_m g) with true by (change U64 with (2 ^ 64); lia). Qed.

(** A query matches exactly by its slots: match_any when one of them is held, match_all when each is. *)
Theorem C30_match : forall k0 k1 m p vs tail content query, k0 < 2 ^ 64 -> k1 < 2 ^ 64 -> p < 64 -> holds p vs tail content ->
  lenN vs < 2 ^ 64 -> lenN vs * m < 2 ^ 64 -> Forall element_ok query ->
  (exists b, gcs_match_any (mk_gcs k0 k1 m p) content query = Ret (Ok b) /\ (b = true <-> exists q, In q query /\ In (slot k0 k1 (lenN vs * m) q) vs)) /\
  (exists b, gcs_match_all (mk_gcs k0 k1 m p) content query = Ret (Ok b) /\ (b = true <-> forall q, In q query -> In (slot k0 k1 (lenN vs * m) q) vs)).
Proof. intros k0 k1 m p vs tail content query K0 K1 P H L Nm Q. apply (match_spec (mk_gcs k0 k1 m p) vs tail); auto. repeat split; auto. Qed.
(** On the filter of a set: an element matches exactly when it shares its slot with one of the set. *)
Theorem C30_match_filter : forall k0 k1 m p els content query, k0 < 2 ^ 64 -> k1 < 2 ^ 64 -> p < 64 -> is_filter k0 k1 m p els content ->
  lenN els < 2 ^ 64 -> lenN els * m < 2 ^ 64 -> Forall element_ok query ->
  let same q := exists e, In e els /\ slot k0 k1 (lenN els * m) q = slot k0 k1 (lenN els * m) e in
  (exists b, gcs_match_any (mk_gcs k0 k1 m p) content query = Ret (Ok b) /\ (b = true <-> exists q, In q query /\ same q)) /\
  (exists b, gcs_match_all (mk_gcs k0 k1 m p) content query = Ret (Ok b) /\ (b = true <-> forall q, In q query -> same q)).
Proof.
  intros k0 k1 m p els content query K0 K1 P (vs & pad & Pm & _ & H) L Nm Q same. assert (LV : lenN vs = lenN els) by (unfold lenN; now rewrite (Permutation_length Pm), map_length).
  assert (IV : forall q, In (slot k0 k1 (lenN els * m) q) vs <-> same q).
  { intro q. unfold same. split; [intro I; apply (Permutation_in _ Pm), in_map_iff in I; destruct I as (e & A & B); exists e; auto|]. intros (e & I & ->). apply (Permutation_in _ (Permutation_sym Pm)), in_map. exact I. }
  destruct (C30_match k0 k1 m p vs _ content query K0 K1 P H ltac:(lia) ltac:(rewrite LV; lia) Q) as [(a & A1 & A2) (b & B1 & B2)]. rewrite LV in A2, B2. split.
  - exists a. split; [exact A1|]. rewrite A2. split; intros (q & I & J); exists q; (split; [exact I|]); apply IV; exact J.
  - exists b. split; [exact B1|]. rewrite B2. split; intros J q I; apply IV; auto.
Qed.
(** No false negatives. *)
Theorem C30_no_false_negative : forall k0 k1 m p els content query, k0 < 2 ^ 64 -> k1 < 2 ^ 64 -> p < 64 -> is_filter k0 k1 m p els content ->
  lenN els < 2 ^ 64 -> lenN els * m < 2 ^ 64 -> Forall element_ok query ->
  ((exists e, In e els /\ In e query) -> gcs_match_any (mk_gcs k0 k1 m p) content query = Ret (Ok true)) /\
  ((forall q, In q query -> In q els) -> gcs_match_all (mk_gcs k0 k1 m p) content query = Ret (Ok true)).
Proof.
  intros k0 k1 m p els content query K0 K1 P H L Nm Q. destruct (C30_match_filter k0 k1 m p els content query K0 K1 P H L Nm Q) as [(a & A1 & A2) (b & B1 & B2)]. split.
  - intros (e & I & J). rewrite A1. do 2 f_equal. apply A2. exists e. split; [exact J|]. exists e. auto.
  - intro S1. rewrite B1. do 2 f_equal. apply B2. intros q I. exists q. auto.
Qed.
(** The empty query matches nothing with match_any and everything with match_all, whatever the filter holds. *)
Theorem C30_empty_query : forall g n body, n < 2 ^ 64 -> n * g_m g < 2 ^ 64 ->
  gcs_match_any g (wire_compact n ++ body) [] = Ret (Ok false) /\ gcs_match_all g (wire_compact n ++ body) [] = Ret (Ok true).
Proof.
  intros g n body L Nm. unfold gcs_match_any, gcs_match_all, with_filter. rewrite cs_back by exact L. cbn [rbind]. replace (U64 <=? n * g_m g) with false by (change U64 with (2 ^ 64); lia). split; reflexivity.
Qed.

(** ** Filters from others *)
(** On any bytes matching ends without a panic, unless the count they announce overflows the range; ... *)
Theorem C30_match_total : forall k0 k1 m p content query, k0 < 2 ^ 64 -> k1 < 2 ^ 64 -> p < 64 -> bytes_ok content -> Forall element_ok query ->
  lenN content < 2 ^ 32 -> 2 ^ p * (8 * lenN content) < 2 ^ 64 ->
  (forall n body, is_u64 n -> content = wire_compact n ++ body -> n * m < 2 ^ 64) ->
  gcs_match_any (mk_gcs k0 k1 m p) content query <> Panic /\ gcs_match_all (mk_gcs k0 k1 m p) content query <> Panic.
Proof.
  intros k0 k1 m p content query K0 K1 P O Q L2 Lp Hn. unfold gcs_match_any, gcs_match_all, with_filter. pose proof (proj1 (codec_no_panic cs_u64_codec content O L2)) as NP.
  destruct (decode_from_slice_unbounded cs_u64_dec content) as [[[n|e] src]|] eqn:D; [| |congruence]; cbn [rbind]; [|split; discriminate].
  pose proof (proj1 (codec_prefix cs_u64_codec content n src O) D) as [Ec Wn]. rewrite wire_compact_eq in Ec. pose proof (Hn n src Wn Ec) as Nm. cbn [g_m g_k0 g_k1 g_p].
  replace (U64 <=? n * m) with false by (change U64 with (2 ^ 64); lia). rewrite map_elements_spec by auto. cbn [rbind].
  assert (OS : bytes_ok src) by (rewrite Ec in O; exact (proj2 (proj1 (Forall_app _ _ _) O))). destruct (reader_new_ok src OS) as [R0 X0].
  assert (BL : N.of_nat (bits_left (reader_new src)) <= 8 * lenN content). { rewrite <- rbits_len, X0, bits_bytes_len, Ec, lenN_app. unfold lenN. lia. }
  assert (Z : 2 ^ p <> 0) by (apply N.pow_nonzero; lia).
  assert (T : forall (lp : N -> list N -> nat -> bit_reader -> N -> rust (result bool io_err)) mapped, (forall m' n' r d, r_ok r -> d + 2 ^ p * N.of_nat (bits_left r) < 2 ^ 64 -> exists x, lp p m' n' r d = Ret x) ->
    start_loop (mk_gcs k0 k1 m p) lp n mapped src <> Panic).
  { intros lp mapped Hl. unfold start_loop. cbn [g_p]. destruct (golomb_decode_total p (reader_new src) R0 P) as [->|(d & r1 & -> & R1 & Dd & LB & LE)]; [nia|discriminate|]. cbn [rbind].
    destruct (Hl mapped (N.to_nat (n - 1)) r1 d R1) as (x & ->); [nia|]. discriminate. }
  split.
  - destruct (sort_n _); [discriminate|]. destruct (n =? 0); [discriminate|]. apply T. intros. now apply any_total.
  - destruct (dedup _); [discriminate|]. destruct (n =? 0); [discriminate|]. apply T. intros. now apply all_total.
Qed.
(** ... that it does panic then, so nine bytes from a peer can stop the program, is a finding. *)
Theorem C30_match_overflow : forall g n body query, is_u64 n -> 2 ^ 64 <= n * g_m g ->
  gcs_match_any g (wire_compact n ++ body) query = Panic /\ gcs_match_all g (wire_compact n ++ body) query = Panic.
Proof.
  intros g n body query L H. unfold gcs_match_any, gcs_match_all, with_filter. rewrite cs_back by exact L. cbn [rbind]. now replace (U64 <=? n * g_m g) with true by (change U64 with (2 ^ 64); lia).
Qed.
Theorem C30_match_total_refuted : ~ (forall content hash query, bytes_ok content -> match_any content hash query <> Panic).
Proof.
  intro H. apply (H (wire_compact (2 ^ 64 - 1) ++ []) (repeat 0 32) []); [apply bytes_okb; vm_compute; reflexivity|].
  apply (C30_match_overflow (block_gcs (repeat 0 32)) (2 ^ 64 - 1) [] []); [reflexivity|vm_compute; discriminate].
Qed.
(** Bytes that do not start with a count are an error. *)
Theorem C30_bad_count : forall g content query, bytes_ok content -> lenN content < 2 ^ 32 -> (forall n body, is_u64 n -> content <> wire_compact n ++ body) ->
  exists e, gcs_match_any g content query = Ret (Err (InvalidCompactSize e)) /\ gcs_match_all g content query = Ret (Err (InvalidCompactSize e)).
Proof.
  intros g content query O L H. unfold gcs_match_any, gcs_match_all, with_filter. pose proof (proj1 (codec_no_panic cs_u64_codec content O L)) as NP.
  destruct (decode_from_slice_unbounded cs_u64_dec content) as [[[n|e] src]|] eqn:D; [|exists e; split; reflexivity|congruence].
  pose proof (proj1 (codec_prefix cs_u64_codec content n src O) D) as [Ec Wn]. rewrite wire_compact_eq in Ec. destruct (H n src Wn Ec).
Qed.
(** A filter whose values are cut short fails when they are needed. *)
Theorem C30_cut : forall g n query, n < 2 ^ 64 -> n * g_m g < 2 ^ 64 -> 0 < n -> g_k0 g < 2 ^ 64 -> g_k1 g < 2 ^ 64 -> query <> [] -> Forall element_ok query ->
  gcs_match_any g (wire_compact n) query = Ret (Err (FilterIo UnexpectedEof)) /\ gcs_match_all g (wire_compact n) query = Ret (Err (FilterIo UnexpectedEof)).
Proof.
  intros g n query L Nm P K0 K1 Ne Q. unfold gcs_match_any, gcs_match_all, with_filter. rewrite <- (app_nil_r (wire_compact n)), cs_back by exact L. cbn [rbind].
  replace (U64 <=? n * g_m g) with false by (change U64 with (2 ^ 64); lia). rewrite map_elements_spec by auto. cbn [rbind]. replace (n =? 0) with false by lia.
  set (mapped := map _ query). assert (NE : sort_n mapped <> []). { intro E. pose proof (Permutation_length (sort_perm mapped)) as PL. rewrite E in PL. unfold mapped in PL. rewrite map_length in PL. destruct query; [auto|discriminate]. }
  assert (ND : dedup (sort_n mapped) <> []). { intro E. destruct (sort_n mapped) as [|a l]; [auto|]. assert (I : In a (dedup (a :: l))) by (apply dedup_in; left; reflexivity). rewrite E in I. destruct I. }
  split; [destruct (sort_n mapped) as [|a l]; [congruence|]|destruct (dedup (sort_n mapped)) as [|a l]; [congruence|]]; reflexivity.
Qed.

(** ** Block filters *)
(** With every spent coin known, a block's filter is that of its non-empty output scripts without OP_RETURN and of its non-empty
    spent scripts, keyed by the first 16 bytes of the block hash, with P = 19 and M = 784931. *)
Theorem C30_block_filter : forall E (coin : outpoint -> result bytes E) sha256d b, (forall m, hash_ok (sha256d m)) ->
  (forall tx o, In tx (b_txs b) -> In o (tx_outputs tx) -> element_ok (to_script o)) -> (forall o s, coin o = Ok s -> element_ok s) ->
  lenN (flat_map tx_outputs (b_txs b)) + lenN (spent_coins b) < 2 ^ 44 -> (forall o, In o (spent_coins b) -> exists s, coin o = Ok s) ->
  let h := sha256d (wire_header (b_header b)) in
  exists els content, new_script_filter coin sha256d b = Ret (Ok content) /\
    NoDup els /\ (forall s, In s els <-> (output_script b s \/ spent_script coin b s) /\ s <> []) /\ lenN els < 2 ^ 44 /\
    is_filter (le_val (takeN 8 h)) (le_val (takeN 8 (dropN 8 h))) 784931 19 els content.
Proof.
  intros E coin sha256d b Hh Ho Hc Ln Known h. unfold new_script_filter, add_input_scripts. rewrite outputs_fold, spent_coins_eq.
  destruct (add_scripts_ok E coin (spent_coins b) (fold_left add_element (kept b) []) Known) as (ss & F2 & ->). destruct (add_all_spec (kept b) [] (NoDup_nil _)) as (N1 & I1 & L1). cbn zeta in *.
  destruct (add_all_spec ss _ N1) as (N2 & I2 & L2). cbn zeta in *. set (els := fold_left add_element ss _) in *.
  assert (INE : forall s, In s els <-> (output_script b s \/ spent_script coin b s) /\ s <> []).
  { intro s. rewrite I2, I1, (fst_in E coin _ _ F2), kept_in. unfold spent_script. cbn [In]. tauto. }
  assert (LK : lenN (kept b) <= lenN (flat_map tx_outputs (b_txs b))). { unfold kept. etransitivity; [apply filter_len|]. unfold lenN. rewrite map_length. lia. }
  assert (LE : lenN els < 2 ^ 44). { rewrite <- (f2_len _ _ _ _ _ F2) in L2. rewrite lenN_nil in L1. lia. }
  assert (OK : Forall element_ok els). { apply Forall_forall. intros s I. apply INE in I. destruct I as [[(tx & o & T & I & <- & _)|(o & I & C)] _]; [eapply Ho; eauto|eapply Hc; eauto]. }
  assert (HH : sha256d (header_encode (b_header b)) = h) by reflexivity. rewrite HH. destruct (Hh (wire_header (b_header b))) as [Lh Bh]. fold h in Lh, Bh.
  assert (K : forall l, bytes_ok l -> le_val (takeN 8 l) < 2 ^ 64). { intros l Ol. assert (T := le_val_lt (takeN 8 l) ltac:(now apply take_ok)). eapply N.lt_le_trans; [exact T|]. change (2 ^ 64) with (256 ^ 8). apply N.pow_le_mono_r; [lia|]. rewrite lenN_takeN. lia. }
  destruct (finish_spec (block_gcs h) els []) as (content & -> & IF); [split; [exact (K h Bh)|split; [exact (K (dropN 8 h) (drop_ok 8 h Bh))|reflexivity]]|constructor|exact OK|lia|cbn [block_gcs g_m]; unfold FILTER_M; lia|].
  exists els, content. cbn [rbind app]. split; [reflexivity|]. split; [exact N2|]. split; [exact INE|]. split; [exact LE|exact IF].
Qed.
(** So every such script is found in it: any query with one of them matches, and any set of them does. *)
Theorem C30_block_no_false_negative : forall E (coin : outpoint -> result bytes E) sha256d b content query, (forall m, hash_ok (sha256d m)) ->
  (forall tx o, In tx (b_txs b) -> In o (tx_outputs tx) -> element_ok (to_script o)) -> (forall o s, coin o = Ok s -> element_ok s) ->
  lenN (flat_map tx_outputs (b_txs b)) + lenN (spent_coins b) < 2 ^ 44 -> (forall o, In o (spent_coins b) -> exists s, coin o = Ok s) ->
  new_script_filter coin sha256d b = Ret (Ok content) -> Forall element_ok query ->
  let h := sha256d (wire_header (b_header b)) in
  ((exists s, In s query /\ (output_script b s \/ spent_script coin b s) /\ s <> []) -> match_any content h query = Ret (Ok true)) /\
  ((forall s, In s query -> (output_script b s \/ spent_script coin b s) /\ s <> []) -> match_all content h query = Ret (Ok true)).
Proof.
  intros E coin sha256d b content query Hh Ho Hc Ln Known Ef Q h. destruct (C30_block_filter E coin sha256d b Hh Ho Hc Ln Known) as (els & content' & Ef' & _ & IN & LE & IF). fold h in IF. assert (content' = content) as -> by congruence.
  destruct (Hh (wire_header (b_header b))) as [_ Bh]. fold h in Bh.
  assert (K : forall l, bytes_ok l -> le_val (takeN 8 l) < 2 ^ 64). { intros l Ol. assert (T := le_val_lt (takeN 8 l) ltac:(now apply take_ok)). eapply N.lt_le_trans; [exact T|]. change (2 ^ 64) with (256 ^ 8). apply N.pow_le_mono_r; [lia|]. rewrite lenN_takeN. lia. }
  destruct (C30_no_false_negative _ _ 784931 19 els content query (K h Bh) (K (dropN 8 h) ltac:(now apply drop_ok)) ltac:(lia) IF ltac:(lia) ltac:(lia) Q) as [A B]. split.
  - intros (s & I & J). apply A. exists s. split; [apply IN; exact J|exact I].
  - intro S1. apply B. intros q I. apply IN. auto.
Qed.
(** The first coin that is not known decides the error. *)
Theorem C30_missing_coin : forall E (coin : outpoint -> result bytes E) sha256d b pre o post e, spent_coins b = pre ++ o :: post ->
  (forall o', In o' pre -> exists s, coin o' = Ok s) -> coin o = Err e -> new_script_filter coin sha256d b = Ret (Err (NewCoin e)).
Proof. intros E coin sha256d b pre o post e Sc Hp He. unfold new_script_filter, add_input_scripts. rewrite spent_coins_eq, Sc, (add_scripts_err E coin pre o post e _ Hp He). reflexivity. Qed.

(** BIP 158's first test vector: the testnet genesis block's only output, and its hash. *)
Definition genesis_script : bytes := [65; 4; 103; 138; 253; 176; 254; 85; 72; 39; 25; 103; 241; 166; 113; 48; 183; 16; 92; 214; 168; 40; 224; 57; 9; 166; 121; 98; 224; 234; 31; 97; 222; 182; 73; 246; 188; 63; 76; 239; 56; 196; 243; 85; 4; 229; 30; 193; 18; 222; 92; 56; 77; 247; 186; 11; 141; 87; 138; 76; 112; 43; 107; 241; 29; 95; 172].
Definition genesis_hash : bytes := [67; 73; 127; 215; 248; 38; 149; 113; 8; 244; 163; 15; 217; 206; 195; 174; 186; 121; 151; 32; 132; 233; 14; 173; 1; 234; 51; 9; 0; 0; 0; 0].
Example C30_ex_genesis : gcs_finish (block_gcs genesis_hash) [genesis_script] [] = Ret (Ok ([1; 157; 252; 168], 4)) /\
  match_any [1; 157; 252; 168] genesis_hash [[1; 2; 3]; genesis_script] = Ret (Ok true) /\ match_all [1; 157; 252; 168] genesis_hash [[1; 2; 3]; genesis_script] = Ret (Ok false).
Proof. repeat split; vm_compute; reflexivity. Qed.
Example C30_ex_filter : exists c, is_filter 1 2 784931 19 [[1]; [2; 3]; genesis_script] c /\ match gcs_finish (mk_gcs 1 2 784931 19) [[1]; [2; 3]; genesis_script] [] with Ret (Ok (c', _)) => c' = c | _ => False end.
Proof.
  destruct (C30_filter_written 1 2 784931 19 [[1]; [2; 3]; genesis_script] []) as (c & E & F); try reflexivity; [constructor|repeat constructor|]. exists c. rewrite E. auto.
Qed.
Print Assumptions C30_bits_written.
Print Assumptions C30_bits_read.
Print Assumptions C30_bits_eof.
Print Assumptions C30_bits_round_trip.
Print Assumptions C30_bits_limit.
Print Assumptions C30_golomb_round_trip.
Print Assumptions C30_golomb_parameter_refuted.
Print Assumptions C30_elements.
Print Assumptions C30_filter_written.
Print Assumptions C30_filter_canonical.
Print Assumptions C30_filter_overflow.
Print Assumptions C30_match.
Print Assumptions C30_match_filter.
Print Assumptions C30_no_false_negative.
Print Assumptions C30_empty_query.
Print Assumptions C30_match_total.
Print Assumptions C30_match_overflow.
Print Assumptions C30_match_total_refuted.
Print Assumptions C30_bad_count.
Print Assumptions C30_cut.
Print Assumptions C30_block_filter.
Print Assumptions C30_block_no_false_negative.
Print Assumptions C30_missing_coin.
