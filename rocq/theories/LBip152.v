(** Lemmas for compact blocks. *)
From Coq Require Import Sorting.Sorted Sorting.Permutation.
From Verif Require Import Base MDec LDec LDec2 LDrive LCompact MWitness MTx SWire LCodec LWire LTx2 STx LTxId MSip SSip PSip MBip152 SBip152.
Local Open Scope N_scope.

(** * Codecs *)
Lemma codec_back : forall A E (D : decoder A E) enc wf, codec D enc wf -> forall v r, wf v -> decode_from_slice_unbounded D (enc v ++ r) = Ret (Ok v, r).
Proof.
  intros A E D enc wf (g & den & L & _ & RT & _) v r W. pose proof (slice_unbounded_den D g den L (enc v ++ r)) as K. now rewrite RT in K by exact W.
Qed.
Lemma bytes_okb : forall l, forallb (fun b => b <? 256) l = true -> bytes_ok l.
Proof. intros l H. apply Forall_forall. intros x X. rewrite forallb_forall in H. apply N.ltb_lt. now apply H. Qed.
Lemma dec4_codec : forall A EA B EB C EC D ED (DA : decoder A EA) (DB : decoder B EB) (DC : decoder C EC) (DD : decoder D ED) ea eb ec ed wa wb wc wd,
  codec DA ea wa -> codec DB eb wb -> codec DC ec wc -> codec DD ed wd ->
  codec (dec4 DA DB DC DD) (fun p => ea (fst (fst (fst p))) ++ eb (snd (fst (fst p))) ++ ec (snd (fst p)) ++ ed (snd p))
    (fun p => wa (fst (fst (fst p))) /\ wb (snd (fst (fst p))) /\ wc (snd (fst p)) /\ wd (snd p)).
Proof.
  intros A EA B EB C EC D ED DA DB DC DD ea eb ec ed wa wb wc wd HA HB HC HD. unfold dec4.
  eapply newtype_codec; [apply dec2_codec; [apply dec2_codec; eassumption|apply dec2_codec; eassumption]| |].
  - intros [[[a b] c] d] W. exists ((a, b), (c, d)). cbn [fst snd] in *. rewrite <- app_assoc. tauto.
  - intros [[a b] [c d]] q W H. inv H. cbn [fst snd] in *. rewrite <- app_assoc. tauto.
Qed.
Lemma prefilled_codec : codec prefilled_dec prefilled_encode prefilled_ok.
Proof.
  unfold prefilled_dec. eapply newtype_codec; [apply dec2_codec; [apply cs_codec; reflexivity|apply tx_codec_ok]| |].
  - intros [i t] [W1 W2]. cbn [pf_idx pf_tx] in *. change (2 ^ 16) with 65536 in W1. exists (i, t). cbn [fst snd]. unfold MAX_VEC_SIZE. split; [split; [lia|exact W2]|]. rewrite (proj2 (N.ltb_lt _ _) W1). auto.
  - intros [i t] p [W1 W2] H. cbn [fst snd] in *. destruct (N.ltb_spec i 65536); [|discriminate]. inv H. split; [split; [assumption|exact W2]|reflexivity].
Qed.
Lemma short_codec : codec short_id_dec (fun b => b) short_ok.
Proof.
  unfold short_id_dec. eapply newtype_codec; [apply array_codec; lia| |].
  - intros b H. exists b. auto.
  - intros a b H Hb. inv Hb. auto.
Qed.
Lemma cb_codec : codec cb_dec cb_encode cb_ok.
Proof.
  unfold cb_dec. eapply newtype_codec; [apply dec4_codec; [apply header_codec|apply (array_codec 8); lia|apply vec_codec; [reflexivity|apply short_codec]|apply vec_codec; [reflexivity|apply prefilled_codec]]| |].
  - intros [h n ids ps] (W1 & W2 & W3 & W4 & W5). cbn [cb_header cb_nonce cb_short_ids cb_prefilled] in *. change (2 ^ 16) with 65536 in W5. exists (h, le_bytes 8 n, ids, ps). cbn [fst snd].
    unfold is_vec, MAX_VEC_SIZE. split; [|split].
    + split; [exact W1|]. split; [split; [unfold lenN; now rewrite le_bytes_length|apply le_bytes_ok]|]. split; (split; [lia|assumption]).
    + rewrite (proj2 (N.ltb_ge _ _)) by lia. rewrite le_val_bytes by exact W2. reflexivity.
    + reflexivity.
  - intros [[[h n] ids] ps] c (W1 & [W2 W2'] & [W3 W3'] & [W4 W4']) H. cbn [fst snd] in *. destruct (N.ltb_spec 65535 (lenN ids + lenN ps)); [discriminate|]. inv H. split.
    + split; [exact W1|]. split; [|split; [exact W3'|split; [exact W4'|]]].
      * apply le_val_lt in W2'. rewrite W2 in W2'. exact W2'.
      * cbn [cb_short_ids cb_prefilled]. change (2 ^ 16) with 65536. lia.
    + unfold cb_encode. cbn [cb_header cb_nonce cb_short_ids cb_prefilled]. now rewrite (le_bytes_of_val 8).
Qed.
Lemma offset_codec : codec offset_dec cs_encode (fun v => v <= MAX_LEN).
Proof.
  unfold offset_dec. eapply newtype_codec; [apply cs_codec; reflexivity| |].
  - intros b H. exists b. auto.
  - intros a b H Hb. inv Hb. auto.
Qed.
Lemma request_codec : codec request_dec request_encode request_ok.
Proof.
  unfold request_dec. eapply newtype_codec; [apply dec2_codec; [apply hash_codec|apply vec_codec; [reflexivity|apply offset_codec]]| |].
  - intros [h os] [W1 W2]. exists (h, os). auto.
  - intros [h os] b [W1 W2] H. inv H. split; [split; auto|reflexivity].
Qed.
Lemma block_txs_codec : codec block_txs_dec block_txs_encode block_txs_ok.
Proof.
  unfold block_txs_dec. eapply newtype_codec; [apply dec2_codec; [apply hash_codec|apply vec_codec; [reflexivity|apply tx_codec_ok]]| |].
  - intros [h os] [W1 W2]. exists (h, os). auto.
  - intros [h os] b [W1 W2] H. inv H. split; [split; auto|reflexivity].
Qed.
Lemma wire_prefilled_eq : forall p, prefilled_encode p = wire_prefilled p.
Proof. intro p. unfold prefilled_encode, wire_prefilled. now rewrite wire_compact_eq. Qed.
Lemma wire_cb_eq : forall c, cb_encode c = wire_cb c.
Proof. intro c. unfold cb_encode, wire_cb. rewrite (wire_list_eq _ (fun s => s) (fun s => s)) by reflexivity. rewrite (wire_list_eq _ _ _ _ wire_prefilled_eq). reflexivity. Qed.
Lemma wire_request_eq : forall r, request_encode r = wire_request r.
Proof. intro r. unfold request_encode, wire_request. now rewrite (wire_list_eq _ _ _ _ wire_compact_eq). Qed.
Lemma wire_block_txs_eq : forall t, block_txs_encode t = wire_block_txs t.
Proof. intro t. unfold block_txs_encode, wire_block_txs. now rewrite (wire_list_eq _ tx_encode tx_encode). Qed.

(** * Positions *)
Lemma positions_ge : forall ds n, Forall (fun p => n <= p) (positions n ds).
Proof.
  induction ds as [|d ds IH]; intro n; [constructor|]. cbn [positions]. constructor; [lia|]. eapply Forall_impl; [|apply IH]. cbn beta. intros a H. lia.
Qed.
Lemma positions_inc : forall ds n, increasing (positions n ds).
Proof.
  induction ds as [|d ds IH]; intro n; [constructor|]. cbn [positions]. constructor; [apply IH|]. eapply Forall_impl; [|apply positions_ge]. cbn beta. intros a H. lia.
Qed.
Lemma positions_len : forall ds n, length (positions n ds) = length ds.
Proof. induction ds as [|d ds IH]; intro n; [reflexivity|]. cbn [positions length]. now rewrite IH. Qed.
Lemma indices_ok : forall ds n, Forall (fun p => p < 2 ^ 64 - 1) (positions n ds) -> indices_from n ds = Ok (positions n ds).
Proof.
  induction ds as [|d ds IH]; intros n F; [reflexivity|]. cbn [positions indices_from] in *. inv F. unfold USIZE. rewrite (proj2 (N.ltb_lt _ _)) by lia. rewrite (proj2 (N.ltb_lt _ _)) by lia.
  now rewrite IH.
Qed.
Lemma indices_err : forall pre n d post, Forall (fun p => p < 2 ^ 64 - 1) (positions n pre) -> 2 ^ 64 - 1 <= after n pre + d ->
  indices_from n (pre ++ d :: post) = Err (if after n pre + d =? 2 ^ 64 - 1 then 2 ^ 64 - 1 else after n pre).
Proof.
  induction pre as [|e pre IH]; intros n d post F L; cbn [app after indices_from positions] in *.
  - unfold USIZE. destruct (N.eqb_spec (n + d) (2 ^ 64 - 1)) as [E|NE].
    + rewrite (proj2 (N.ltb_lt _ _)) by lia. rewrite (proj2 (N.ltb_ge _ _)) by lia. now rewrite E.
    + rewrite (proj2 (N.ltb_ge _ _)) by lia. reflexivity.
  - inv F. unfold USIZE. rewrite (proj2 (N.ltb_lt _ _)) by lia. rewrite (proj2 (N.ltb_lt _ _)) by lia. now rewrite (IH _ _ _ H2 L).
Qed.
Lemma positions_split : forall ds n, Forall (fun p => p < 2 ^ 64 - 1) (positions n ds) \/
  exists pre d post, ds = pre ++ d :: post /\ Forall (fun p => p < 2 ^ 64 - 1) (positions n pre) /\ 2 ^ 64 - 1 <= after n pre + d.
Proof.
  induction ds as [|d ds IH]; intro n; [left; constructor|]. cbn [positions]. destruct (N.ltb_spec (n + d) (2 ^ 64 - 1)) as [L|L].
  - destruct (IH (n + d + 1)) as [F|(pre & e & post & -> & F & G)]; [left; constructor; auto|]. right. exists (d :: pre), e, post. split; [reflexivity|]. cbn [positions after]. split; [constructor; auto|exact G].
  - right. exists [], d, ds. split; [reflexivity|]. split; [constructor|exact L].
Qed.
Lemma positions_bound : forall ds n m, Forall (fun o => o <= m) ds -> Forall (fun p => p < n + lenN ds * (m + 1)) (positions n ds).
Proof.
  induction ds as [|d ds IH]; intros n m F; [constructor|]. inv F. cbn [positions]. rewrite lenN_cons. constructor; [nia|]. eapply Forall_impl; [|apply (IH _ m H2)]. cbn beta. intros a H. nia.
Qed.
Lemma offsets_ok : forall l n, increasing l -> Forall (fun p => n <= p < 2 ^ 64 - 1) l -> exists os, offsets_of n l = Ret os /\ positions n os = l.
Proof.
  induction l as [|x l IH]; intros n S F; [exists []; auto|]. inv S. inv F. cbn [offsets_of]. unfold USIZE. rewrite (proj2 (N.ltb_ge _ _)) by lia. rewrite (proj2 (N.leb_gt _ _)) by lia.
  destruct (IH (x + 1)) as (os & E & P); auto.
  { apply Forall_forall. intros y Y. rewrite Forall_forall in H2, H4. specialize (H2 y Y). specialize (H4 y Y). lia. }
  rewrite E. cbn [rbind]. eexists. split; [reflexivity|]. cbn [positions]. replace (n + (x - n)) with x by lia. now rewrite P.
Qed.
Lemma offsets_bad : forall l n, ~ (increasing l /\ Forall (fun p => n <= p < 2 ^ 64 - 1) l) -> offsets_of n l = Panic.
Proof.
  induction l as [|x l IH]; intros n B; [destruct B; repeat constructor|]. cbn [offsets_of]. unfold USIZE. destruct (N.ltb_spec x n) as [L|L]; [reflexivity|].
  destruct (N.leb_spec 18446744073709551616 (x + 1)) as [G|G]; [reflexivity|]. rewrite IH; [reflexivity|]. intros [S F]. apply B. split.
  - constructor; [exact S|]. eapply Forall_impl; [|exact F]. cbn beta. intros a H. lia.
  - constructor; [lia|]. eapply Forall_impl; [|exact F]. cbn beta. intros a H. lia.
Qed.
Lemma offsets_inv : forall l n os, offsets_of n l = Ret os -> positions n os = l.
Proof.
  induction l as [|x l IH]; intros n os E; cbn [offsets_of] in E; [now inv E|]. destruct (N.ltb_spec x n); [discriminate|]. destruct (USIZE <=? x + 1); [discriminate|].
  destruct (offsets_of (x + 1) l) as [os'|] eqn:E'; cbn [rbind] in E; [|discriminate]. inv E. cbn [positions]. replace (n + (x - n)) with x by lia. now rewrite (IH _ _ E').
Qed.
Lemma insert_perm : forall x l, Permutation (x :: l) (insert_n x l).
Proof.
  induction l as [|y l IH]; [auto|]. cbn [insert_n]. destruct (x <=? y); [auto|]. rewrite perm_swap. now constructor.
Qed.
Lemma sort_perm : forall l, Permutation l (sort_n l).
Proof. induction l as [|x l IH]; [auto|]. cbn [sort_n fold_right]. rewrite <- insert_perm. now constructor. Qed.
Lemma insert_sorted : forall x l, StronglySorted N.le l -> StronglySorted N.le (insert_n x l).
Proof.
  induction l as [|y l IH]; intro S; [repeat constructor|]. cbn [insert_n]. destruct (N.leb_spec x y) as [L|L].
  - constructor; [exact S|]. inv S. constructor; [exact L|]. eapply Forall_impl; [|exact H2]. cbn beta. intros a H. lia.
  - inv S. constructor; [auto|]. apply (Permutation_Forall (insert_perm x l)). constructor; [lia|exact H2].
Qed.
Lemma sort_sorted : forall l, StronglySorted N.le (sort_n l).
Proof. induction l as [|x l IH]; [constructor|]. cbn [sort_n fold_right]. now apply insert_sorted. Qed.
Lemma sorted_strict : forall l, StronglySorted N.le l -> NoDup l -> increasing l.
Proof.
  induction 1 as [|x l S IH F]; intro D; [constructor|]. inv D. constructor; [exact (IH H2)|]. apply Forall_forall. intros y Y. rewrite Forall_forall in F. specialize (F y Y).
  assert (x <> y) by (intros ->; contradiction). lia.
Qed.
Lemma strict_nodup : forall l, increasing l -> NoDup l.
Proof.
  induction 1 as [|x l S IH F]; constructor; auto. intro I. rewrite Forall_forall in F. specialize (F x I). lia.
Qed.
Lemma pick_ok : forall txs idxs, Forall (fun i => i < lenN txs) idxs -> exists l, pick_txs txs idxs = Ok l /\ Forall2 (fun i t => nth_error txs (N.to_nat i) = Some t) idxs l.
Proof.
  induction idxs as [|i idxs IH]; intro F; [exists []; auto|]. inv F. destruct (IH H2) as (l & E & F2). cbn [pick_txs]. destruct (nth_error txs (N.to_nat i)) as [t|] eqn:T.
  - rewrite E. exists (t :: l). auto.
  - apply nth_error_None in T. unfold lenN in H1. lia.
Qed.
Lemma pick_err : forall txs pre i post, Forall (fun i => i < lenN txs) pre -> lenN txs <= i -> pick_txs txs (pre ++ i :: post) = Err i.
Proof.
  induction pre as [|j pre IH]; intros i post F L; cbn [app pick_txs].
  - rewrite (proj2 (nth_error_None _ _)); [reflexivity|]. unfold lenN in L. lia.
  - inv F. destruct (nth_error txs (N.to_nat j)) as [t|] eqn:T; [now rewrite IH|]. apply nth_error_None in T. unfold lenN in H1. lia.
Qed.

(** * Placed items *)
Lemma placed_ge : forall A f (l : list A) i j x, In (j, x) (placed f i l) -> i <= j.
Proof.
  induction l as [|y l IH]; intros i j x H; [contradiction|]. cbn [placed] in H. apply in_app_or in H as [H|H].
  - destruct (f i); [|contradiction]. destruct H as [H|[]]. inv H. lia.
  - apply IH in H. lia.
Qed.
Lemma placed_in : forall A f (l : list A) i j x, In (j, x) (placed f i l) <-> i <= j /\ nth_error l (N.to_nat (j - i)) = Some x /\ f j = true.
Proof.
  induction l as [|y l IH]; intros i j x; cbn [placed].
  - split; [intros []|]. intros (_ & H & _). destruct (N.to_nat (j - i)); discriminate.
  - rewrite in_app_iff, IH. destruct (N.eq_dec i j) as [->|NE].
    + replace (N.to_nat (j - j)) with O by lia. cbn [nth_error]. split.
      * intros [H|(L & _)]; [|lia]. destruct (f j) eqn:F; [|contradiction]. destruct H as [H|[]]. inv H. repeat split; auto; lia.
      * intros (_ & H & F). rewrite F. left. left. congruence.
    + split.
      * intros [H|(L & H & F)]; [destruct (f i); [destruct H as [H|[]]; congruence|contradiction]|]. split; [lia|]. split; [|exact F]. replace (N.to_nat (j - i)) with (S (N.to_nat (j - (i + 1)))) by lia. exact H.
      * intros (L & H & F). right. split; [lia|]. split; [|exact F]. replace (N.to_nat (j - i)) with (S (N.to_nat (j - (i + 1)))) in H by lia. exact H.
Qed.
Lemma placed_inc : forall A f (l : list A) i, increasing (map fst (placed f i l)).
Proof.
  induction l as [|y l IH]; intro i; [constructor|]. cbn [placed]. destruct (f i); cbn [app]; [|apply IH]. cbn [map fst]. constructor; [apply IH|].
  apply Forall_forall. intros j H. apply in_map_iff in H as ([j' x] & <- & H). apply placed_ge in H. cbn [fst]. lia.
Qed.
Lemma placed_ext : forall A f g (l : list A) i, (forall j, i <= j -> f j = g j) -> placed f i l = placed g i l.
Proof. induction l as [|y l IH]; intros i H; [reflexivity|]. cbn [placed]. rewrite H by lia. now rewrite (IH (i + 1)) by (intros j L; apply H; lia). Qed.
Lemma placed_part : forall A f (l : list A) i, lenN (placed f i l) + lenN (placed (fun j => negb (f j)) i l) = lenN l.
Proof.
  induction l as [|y l IH]; intro i; [reflexivity|]. cbn [placed]. rewrite !lenN_app, lenN_cons. specialize (IH (i + 1)). destruct (f i); cbn [negb]; rewrite ?lenN_cons, ?lenN_nil; change (lenN (@nil (N * A))) with 0; lia.
Qed.
Lemma inc_len : forall l lo hi, increasing l -> Forall (fun p => lo <= p < hi) l -> lenN l <= hi - lo.
Proof.
  induction l as [|x l IH]; intros lo hi S F; [change (lenN (@nil N)) with 0; lia|]. inv S. inv F. rewrite lenN_cons. assert (lenN l <= hi - (x + 1)); [|lia]. apply IH; auto.
  apply Forall_forall. intros y Y. rewrite Forall_forall in H2, H4. specialize (H2 y Y). specialize (H4 y Y). lia.
Qed.

(** * Building *)
Section Build.
Context (sha256 sha256d : bytes -> bytes) (SHA : forall m, hash_ok (sha256 m)) (SHAD : forall m, hash_ok (sha256d m)).
Definition mem (j : N) (l : list N) : bool := existsb (N.eqb j) l.
Definition sel (prefill : list N) (j : N) : bool := (j =? 0) || mem j prefill.
Definition tx_id_of (version : N) (tx : transaction) : bytes := if version =? 1 then sha256d (wire_legacy tx) else sha256d (tx_encode tx).
Lemma keys_lt : forall h nonce, fst (calculate_siphash_keys sha256 h nonce) < 2 ^ 64 /\ snd (calculate_siphash_keys sha256 h nonce) < 2 ^ 64.
Proof.
  intros h nonce. unfold calculate_siphash_keys. cbv zeta. cbn [fst snd]. destruct (SHA (header_encode h ++ le_bytes 8 nonce)) as [L O]. set (d := sha256 _) in *. clearbody d.
  assert (G : forall b, bytes_ok b -> lenN b = 8 -> le_val b < 2 ^ 64) by (intros b B LB; apply le_val_lt in B; rewrite LB in B; exact B).
  split; apply G.
  - unfold takeN. apply Forall_forall. intros x X. unfold bytes_ok in O. rewrite Forall_forall in O. apply O. rewrite <- (firstn_skipn (N.to_nat 8) d). apply in_or_app. auto.
  - rewrite lenN_takeN, L. reflexivity.
  - unfold takeN, dropN. apply Forall_forall. intros x X. unfold bytes_ok in O. rewrite Forall_forall in O. apply O. rewrite <- (firstn_skipn (N.to_nat 8) d). apply in_or_app. right.
    rewrite <- (firstn_skipn (N.to_nat 8) (skipn (N.to_nat 8) d)). apply in_or_app. auto.
  - rewrite lenN_takeN, lenN_dropN, L. reflexivity.
Qed.
Lemma short_eq : forall h nonce id, hash_ok id -> with_siphash_keys id (calculate_siphash_keys sha256 h nonce) = Ret (short_id sha256 h nonce id).
Proof.
  intros h nonce id [L O]. destruct (keys_lt h nonce) as [K0 K1]. unfold with_siphash_keys. destruct (C38_at_once _ _ id K0 K1 O) as [_ E]; [rewrite L; reflexivity|]. rewrite E. reflexivity.
Qed.
Lemma short_id_ok : forall h nonce id, short_ok (short_id sha256 h nonce id).
Proof.
  intros h nonce id. unfold short_id. cbv zeta. set (v := SipHash _ _ _ _ _). clearbody v. split; [reflexivity|]. pose proof (le_bytes_ok 8 v) as O.
  apply Forall_forall. intros x X. unfold bytes_ok in O. rewrite Forall_forall in O. apply O. rewrite <- (firstn_skipn 6 (le_bytes 8 v)). apply in_or_app. auto.
Qed.
Lemma id_eq : forall version tx, witnesses_ok tx -> (if version =? 1 then compute_txid sha256d tx else compute_wtxid sha256d tx) = Ret (tx_id_of version tx).
Proof.
  intros version tx W. unfold tx_id_of. destruct (version =? 1).
  - unfold compute_txid. now rewrite hash_preimage_legacy.
  - unfold compute_wtxid. now rewrite (hash_preimage_full tx W).
Qed.
Lemma id_ok : forall version tx, hash_ok (tx_id_of version tx).
Proof. intros version tx. unfold tx_id_of. destruct (version =? 1); apply SHAD. Qed.

Lemma cb_loop_spec : forall version h nonce txs idx prefill lp, lp <= idx -> Forall witnesses_ok txs ->
  exists ps ids rem, cb_loop sha256d version (calculate_siphash_keys sha256 h nonce) txs idx prefill lp = Ret (ps, ids, rem) /\
  (rem = [] <-> increasing prefill /\ Forall (fun p => idx <= p < idx + lenN txs) prefill) /\
  (rem = [] -> exists ds, map pf_idx ps = map (fun d => d mod 65536) ds /\ positions lp ds = map fst (placed (sel prefill) idx txs) /\
     map pf_tx ps = map (fun p => if version =? 1 then clear_witnesses (snd p) else snd p) (placed (sel prefill) idx txs) /\
     ids = map (fun p => short_id sha256 h nonce (tx_id_of version (snd p))) (placed (fun j => negb (sel prefill j)) idx txs)).
Proof.
  intros version h nonce txs. induction txs as [|tx txs IH]; intros idx prefill lp LP W.
  - exists [], [], prefill. split; [reflexivity|]. split.
    + split; [intros ->; split; constructor|]. intros [_ F]. destruct prefill as [|p l]; [reflexivity|]. inv F. change (lenN (@nil transaction)) with 0 in H1. lia.
    + intros ->. exists []. auto.
  - inv W. cbn [cb_loop].
    set (hr := match prefill with p :: rest => if p =? idx then (true, rest) else (idx =? 0, prefill) | [] => (idx =? 0, prefill) end).
    assert (C : exists hit rest, hr = (hit, rest) /\
      (increasing rest /\ Forall (fun p => idx + 1 <= p < idx + 1 + lenN txs) rest <-> increasing prefill /\ Forall (fun p => idx <= p < idx + lenN (tx :: txs)) prefill) /\
      (increasing rest /\ Forall (fun p => idx + 1 <= p < idx + 1 + lenN txs) rest -> hit = sel prefill idx /\ forall j, idx + 1 <= j -> sel rest j = sel prefill j)).
    { unfold hr. rewrite lenN_cons. destruct prefill as [|p l].
      - exists (idx =? 0), []. split; [reflexivity|]. split; [split; intros _; split; constructor|]. intros _. unfold sel, mem. cbn [existsb]. rewrite orb_false_r. auto.
      - destruct (N.eqb_spec p idx) as [->|NE].
        + exists true, l. split; [reflexivity|]. split.
          * split; intros [S F].
            -- split; [constructor; [exact S|]; eapply Forall_impl; [|exact F]; cbn beta; intros; lia|]. constructor; [lia|]. eapply Forall_impl; [|exact F]. cbn beta. intros. lia.
            -- inversion S as [|? ? S1 S2]; inversion F as [|? ? F1 F2]; subst. split; [assumption|]. apply Forall_forall. intros y Y. rewrite Forall_forall in S2, F2. specialize (S2 y Y). specialize (F2 y Y). lia.
          * intros _. unfold sel, mem. cbn [existsb]. rewrite N.eqb_refl. cbn [orb]. rewrite orb_true_r. split; [reflexivity|]. intros j J. rewrite (proj2 (N.eqb_neq j idx)) by lia. reflexivity.
        + exists (idx =? 0), (p :: l). split; [reflexivity|]. split.
          * split; intros [S F]; (split; [exact S|]).
            -- eapply Forall_impl; [|exact F]. cbn beta. intros. lia.
            -- inversion S as [|? ? S1 S2]; inversion F as [|? ? F1 F2]; subst. constructor; [lia|]. apply Forall_forall. intros y Y. rewrite Forall_forall in S2, F2. specialize (S2 y Y). specialize (F2 y Y). lia.
          * intros [_ F]. split; [|auto]. unfold sel. assert (mem idx (p :: l) = false) as ->; [|now rewrite orb_false_r]. unfold mem.
            destruct (existsb (N.eqb idx) (p :: l)) eqn:E; [|reflexivity]. apply existsb_exists in E as (y & Y & E). apply N.eqb_eq in E. subst y. rewrite Forall_forall in F. specialize (F _ Y). lia. }
    destruct C as (hit & rest & E & GI & SE). rewrite E. clear E hr. destruct hit.
    + rewrite (proj2 (N.ltb_ge _ _)) by lia. destruct (IH (idx + 1) rest (idx + 1) (N.le_refl _) H2) as (ps & ids & rem & EL & GR & RR). rewrite EL. cbn [rbind].
      exists (mk_pf ((idx - lp) mod 65536) (if version =? 1 then clear_witnesses tx else tx) :: ps), ids, rem. split; [reflexivity|]. split; [rewrite GR; exact GI|].
      intro R0. destruct (RR R0) as (ds & A1 & A2 & A3 & A4). destruct (SE (proj1 GR R0)) as [SH SJ]. exists (idx - lp :: ds). cbn [map pf_idx pf_tx]. cbn [placed].
      rewrite <- SH. cbn [negb app map fst snd positions]. replace (lp + (idx - lp)) with idx by lia. rewrite A1, A2, A3, A4.
      rewrite (placed_ext _ (sel rest) (sel prefill)) by exact SJ. rewrite (placed_ext _ (fun j => negb (sel rest j)) (fun j => negb (sel prefill j))) by (intros j J; now rewrite SJ). auto.
    + rewrite id_eq by assumption. cbn [rbind]. rewrite short_eq by apply id_ok. cbn [rbind]. destruct (IH (idx + 1) rest lp ltac:(lia) H2) as (ps & ids & rem & EL & GR & RR). rewrite EL. cbn [rbind].
      exists ps, (short_id sha256 h nonce (tx_id_of version tx) :: ids), rem. split; [reflexivity|]. split; [rewrite GR; exact GI|].
      intro R0. destruct (RR R0) as (ds & A1 & A2 & A3 & A4). destruct (SE (proj1 GR R0)) as [SH SJ]. exists ds. cbn [placed].
      rewrite <- SH. cbn [negb app map fst snd]. rewrite A1, A2, A3, A4.
      rewrite (placed_ext _ (sel rest) (sel prefill)) by exact SJ. rewrite (placed_ext _ (fun j => negb (sel rest j)) (fun j => negb (sel prefill j))) by (intros j J; now rewrite SJ). auto.
Qed.
End Build.
Lemma clear_stripped : forall tx, stripped tx (clear_witnesses tx).
Proof.
  intro tx. unfold stripped, clear_witnesses. cbn [tx_version tx_lock_time tx_outputs tx_inputs]. repeat split.
  induction (tx_inputs tx) as [|i l IH]; [constructor|]. cbn [map]. constructor; [|exact IH]. cbn [ti_prevout ti_script ti_sequence ti_witness]. repeat split.
Qed.
Lemma clear_ok : forall tx, tx_ok tx -> tx_ok (clear_witnesses tx).
Proof.
  intros tx [(V & L & [LI FI] & FO) [R1 R2 R3 R4 R5]]. assert (EP : map ti_prevout (tx_inputs (clear_witnesses tx)) = map ti_prevout (tx_inputs tx)) by (cbn [clear_witnesses tx_inputs]; rewrite map_map; reflexivity). split.
  - split; [exact V|]. split; [exact L|]. split; [|exact FO]. cbn [clear_witnesses tx_inputs]. split; [unfold lenN; rewrite map_length; exact LI|]. apply Forall_forall. intros j J. apply in_map_iff in J as (i & <- & I).
    rewrite Forall_forall in FI. destruct (FI i I) as (A & B & C & D). split; [exact A|]. split; [exact B|]. split; [exact C|]. exists []. split; [reflexivity|]. split; [discriminate|constructor].
  - constructor.
    + exact R1.
    + rewrite EP. cbn [clear_witnesses tx_inputs]. rewrite map_length. exact R2.
    + intros j J N. cbn [clear_witnesses tx_inputs] in J. destruct (tx_inputs tx) as [|i [|k l]]; try discriminate J. cbn [map] in J. inv J. cbn [ti_script ti_prevout] in *. now apply (R3 i).
    + rewrite EP. exact R4.
    + exact R5.
Qed.
