(** Locators, service flags, address encoder, V2 drivers. *)
From Coq Require Import String.
From Verif Require LScript.
From Verif Require Import Base MDec LDec LDec2 LDrive LBuilt LPrefix LCompact LCodec MWitness SWitness LWitness LWitDec MTx MAmount MText LAmountText MPmt MBip152 LTx2 LWire LPmt3 LBip152 LTaproot LBip32b LSha2b MP2p MP2pMsg SWire SPmt SBip152 SP2p LP2p LP2p2 LP2p3 LP2p4 LP2p5 LP2p6 LP2p7 LP2p8 LP2p9.
Local Open Scope N_scope.

(** *** Locators *)
Lemma offset_next : forall i, offset (i + 1) = offset i + (if i <=? 10 then 1 else 2 ^ (i - 10)).
Proof.
  intro i. unfold offset. destruct (N.leb_spec i 10), (N.leb_spec (i + 1) 10); try lia.
  - assert (i = 10) as -> by lia. reflexivity.
  - replace (i + 1 - 10) with (N.succ (i - 10)) by lia. rewrite N.pow_succ_r'. lia.
Qed.
Lemma offset_le : forall i j, i <= j -> offset i <= offset j.
Proof.
  intros i j H. replace j with (i + (j - i)) by lia. generalize (j - i). intros d. induction d as [|d IH] using N.peano_ind; [rewrite N.add_0_r; lia|].
  rewrite N.add_succ_r, <- N.add_1_r, offset_next. destruct (i + d <=? 10); lia.
Qed.
Lemma locator_run : forall E (get : N -> result bytes E) tip k, tip < 2 ^ 32 ->
  tip <= offset (N.of_nat k) -> (forall i, (i < k)%nat -> offset (N.of_nat i) < tip) -> (k <= 42)%nat ->
  forall d i fuel step acc, (i + d = k)%nat -> (d < fuel)%nat -> lenN acc = N.of_nat i -> (d = 0%nat \/ step = if (i <=? 10)%nat then 1 else 2 ^ (N.of_nat i - 10)) ->
  locator_loop get fuel acc (tip - offset (N.of_nat i)) step =
  match collect get (map (fun i => tip - offset (N.of_nat i)) (seq i (S d))) with Ok l => Ok (acc ++ l) | Err e => Err e end.
Proof.
  intros E get tip k T K1 K2 K3. induction d as [|d IH]; intros i fuel step acc Hi Hf Ha Hs; (destruct fuel as [|fuel]; [lia|]); cbn [locator_loop].
  - assert (i = k) as -> by lia. cbn [seq map collect]. destruct (get _) as [x|e]; [|reflexivity]. destruct (N.eqb_spec (tip - offset (N.of_nat k)) 0); [|lia]. reflexivity.
  - destruct Hs as [Hs|Hs]; [discriminate|]. assert (LT : offset (N.of_nat i) < tip) by (apply K2; lia).
    change (seq i (S (S d))) with (i :: seq (S i) (S d)). cbn [map]. change (collect get ((tip - offset (N.of_nat i)) :: map (fun i => tip - offset (N.of_nat i)) (seq (S i) (S d)))) with
      (match get (tip - offset (N.of_nat i)) with Err e => Err e | Ok x => match collect get (map (fun i => tip - offset (N.of_nat i)) (seq (S i) (S d))) with Ok l => Ok (x :: l) | Err e => Err e end end).
    destruct (get _) as [x|e]; [|reflexivity].
    assert (LN : lenN (acc ++ [x]) = N.of_nat i + 1) by (rewrite lenN_app, Ha; reflexivity). rewrite LN.
    destruct (N.eqb_spec (tip - offset (N.of_nat i)) 0); [lia|]. unfold MAX_LOCATOR_HASHES. destruct (N.leb_spec 101 (N.of_nat i + 1)); [lia|]. cbn [orb].
    assert (HT : tip - offset (N.of_nat i) - step = tip - offset (N.of_nat (S i))).
    { replace (N.of_nat (S i)) with (N.of_nat i + 1) by lia. rewrite offset_next, Hs. destruct (Nat.leb_spec i 10), (N.leb_spec (N.of_nat i) 10); lia. }
    rewrite HT, IH; [|lia|lia|lia|].
    + destruct (collect _ _); [|reflexivity]. now rewrite <- app_assoc.
    + subst step. clear HT LN IH. destruct (Nat.leb_spec (S i) 10) as [A|A].
      * right. destruct (N.ltb_spec 10 (N.of_nat i + 1)); [lia|]. destruct (Nat.leb_spec i 10); [reflexivity|lia].
      * destruct (N.ltb_spec 10 (N.of_nat i + 1)) as [_|X]; [|lia]. destruct (Nat.leb_spec i 10).
        -- right. assert (i = 10)%nat as -> by lia. reflexivity.
        -- destruct (Nat.eq_dec i 41) as [->|]; [left; lia|right].
           replace (N.of_nat (S i) - 10) with (N.succ (N.of_nat i - 10)) by lia. rewrite N.pow_succ_r'.
           assert (2 ^ (N.of_nat i - 10) <= 2 ^ 30) by (apply N.pow_le_mono_r; lia). change (2 ^ 30) with 1073741824 in *. unfold U32_SAT. lia.
Qed.
Lemma least : forall (P : nat -> Prop) n, (forall i, {P i} + {~ P i}) -> P n -> exists k, (k <= n)%nat /\ P k /\ forall i, (i < k)%nat -> ~ P i.
Proof.
  intros P n D. induction n as [n IH] using lt_wf_ind. intros H. assert (A : {i | (i < n)%nat /\ P i} + {forall i, (i < n)%nat -> ~ P i}).
  { clear IH H. induction n as [|n IH]; [right; lia|]. destruct IH as [(i & L & Q)|F]; [left; exists i; split; [lia|exact Q]|]. destruct (D n) as [Q|Q]; [left; exists n; split; [lia|exact Q]|].
    right. intros i L. destruct (Nat.eq_dec i n) as [->|]; [exact Q|]. apply F. lia. }
  destruct A as [(i & L & Q)|F]; [|exists n; auto]. destruct (IH i L Q) as (k & K & R). exists k. split; [lia|exact R].
Qed.
Lemma locator_spec : forall E (get : N -> result bytes E) tip, tip < 2 ^ 32 -> exists k, (k <= 42)%nat /\ tip <= offset (N.of_nat k) /\ (forall i, (i < k)%nat -> offset (N.of_nat i) < tip) /\
  locator_build tip get = collect get (map (fun i => tip - offset (N.of_nat i)) (seq 0 (k + 1))).
Proof.
  intros E get tip T. destruct (least (fun i => tip <= offset (N.of_nat i)) 42) as (k & K & K1 & K2).
  - intros i. destruct (tip <=? offset (N.of_nat i)) eqn:X; [left|right]; lia.
  - change (offset (N.of_nat 42)) with (9 + 2 ^ 32). lia.
  - exists k. split; [exact K|]. split; [exact K1|]. assert (K3 : forall i, (i < k)%nat -> offset (N.of_nat i) < tip) by (intros i L; specialize (K2 i L); cbn beta in K2; lia). split; [exact K3|].
    unfold locator_build. replace (k + 1)%nat with (S k) by lia.
    replace tip with (tip - offset (N.of_nat 0)) at 1 by (change (offset (N.of_nat 0)) with 0; lia).
    rewrite (locator_run E get tip k T K1 K3 K k 0 101 1 []); [|lia|lia|reflexivity|right; reflexivity]. now destruct (collect _ _).
Qed.

(** *** Service flags *)
Lemma u64_test : forall i, i < 64 -> N.testbit U64m i = true.
Proof. intros i L. change U64m with (N.ones 64). now rewrite N.ones_spec_low. Qed.
Lemma sf_add_spec : forall a b i, N.testbit (sf_add a b) i = N.testbit a i || N.testbit b i.
Proof. intros. apply N.lor_spec. Qed.
Lemma sf_remove_spec : forall a b i, a < 2 ^ 64 -> N.testbit (sf_remove a b) i = N.testbit a i && negb (N.testbit b i).
Proof.
  intros a b i A. unfold sf_remove. rewrite N.land_spec, N.lxor_spec. destruct (N.lt_ge_cases i 64) as [L|L].
  - rewrite (u64_test i L). now destruct (N.testbit b i).
  - assert (N.testbit a i = false) as ->; [|reflexivity]. destruct (N.eq_dec a 0) as [->|]; [apply N.bits_0|]. apply N.bits_above_log2. assert (N.log2 a < 64) by (apply N.log2_lt_pow2; lia). lia.
Qed.
Lemma sf_has_spec : forall a b, sf_has a b = true <-> forall i, N.testbit b i = true -> N.testbit a i = true.
Proof.
  intros a b. unfold sf_has. rewrite N.eqb_eq. split.
  - intros H i B. rewrite <- H, N.lor_spec, B. apply orb_true_r.
  - intros H. apply N.bits_inj. intro i. rewrite N.lor_spec. specialize (H i). destruct (N.testbit a i), (N.testbit b i); try reflexivity. now specialize (H eq_refl).
Qed.

(** *** AddrV2 encoder *)
Lemma av2_drain_spec : forall a, av2_drain 3 (av2_new a) = Some (addr_v2_encode a).
Proof. intros []; cbn [av2_new av2_drain av2_adv av2_chunk av_network av_size av_bytes4 av_bytes16 av_bytes32 av_nbytes addr_v2_encode app]; reflexivity. Qed.
Definition av2_spent (e : av2_enc) : Prop := av2_chunk e = [] /\ av2_adv e = (e, true).
Lemma av2_hang : forall fuel e n, av2_spent e -> av2_next fuel (e, n) = None.
Proof.
  induction fuel as [|fuel IH]; intros e n [C A]; [reflexivity|]. cbn [av2_next fst snd]. rewrite C. assert (X : nth_error (@nil N) (N.to_nat n) = None) by (now destruct (N.to_nat n)). rewrite X, A. apply IH. now split.
Qed.

(** *** Headers *)
Lemma is_connected_spec : forall sha256d l, is_connected sha256d l = true <->
  forall i a b, nth_error l i = Some a -> nth_error l (S i) = Some b -> sha256d (header_encode (fst a)) = h_prev (fst b).
Proof.
  intros sha256d. induction l as [|a l IH]; [split; [intros _ [|i] x y H; discriminate|reflexivity]|]. destruct l as [|b l].
  - split; [|reflexivity]. intros _ [|[|i]] x y H1 H2; discriminate.
  - cbn [is_connected]. rewrite andb_true_iff, IH, beqb_eq. split.
    + intros [E F] [|i] x y H1 H2; [cbn [nth_error] in *; congruence|]. exact (F i x y H1 H2).
    + intros F. split; [exact (F 0%nat a b eq_refl eq_refl)|]. intros i x y H1 H2. exact (F (S i) x y H1 H2).
Qed.
Lemma filter_chain : forall sha256d hs g, fold_left (fun prev h => filter_header sha256d h prev) hs g = header_chain sha256d g hs.
Proof. intros sha256d. induction hs as [|h hs IH]; intros g; [reflexivity|]. cbn [fold_left header_chain]. apply IH. Qed.

Lemma app_inj_32 : forall (a b c d : bytes), lenN a = lenN c -> a ++ b = c ++ d -> a = c /\ b = d.
Proof. intros a b c d L E. exact (LScript.app_inj_lenN N a b c d L E). Qed.
Lemma header_chain_bind : forall sha256d hs hs' g g', length hs = length hs' -> lenN g = 32 -> lenN g' = 32 -> (forall m, lenN (sha256d m) = 32) ->
  Forall (fun h => lenN h = 32) hs -> Forall (fun h => lenN h = 32) hs' ->
  header_chain sha256d g hs = header_chain sha256d g' hs' ->
  (hs = hs' /\ g = g') \/ exists x y, In x (header_inputs sha256d g hs) /\ In y (header_inputs sha256d g' hs') /\ x <> y /\ sha256d x = sha256d y.
Proof.
  intros sha256d. induction hs as [|h hs IH]; intros [|h' hs'] g g' L G G' HS F F' E; try discriminate L; [left; auto|].
  cbn [header_chain] in E. inversion F as [|? ? F1 F2]; inversion F' as [|? ? F3 F4]; subst.
  destruct (IH hs' _ _ ltac:(now injection L) (HS _) (HS _) HS F2 F4 E) as [[-> X]|(x & y & X & Y & R)].
  - destruct (list_eq_dec N.eq_dec (h ++ g) (h' ++ g')) as [Q|Q].
    + left. apply app_inj_32 in Q as [-> ->]; [auto|congruence].
    + right. exists (h ++ g), (h' ++ g'). cbn [header_inputs]. split; [now left|]. split; [now left|]. auto.
  - right. exists x, y. cbn [header_inputs]. split; [now right|]. split; [now right|exact R].
Qed.

(** *** V2 *)
Lemma v2_chunks : forall cs m r, bytes_ok (concat cs) -> (feed_chunks v2_dec (init v2_dec) cs = RDone m r <-> exists w, concat cs = w ++ r /\ reads_v2 m w).
Proof.
  intros cs m r B. destruct v2_model as (g & den & L & A & _). rewrite <- (A _ _ _ B). rewrite (feed_chunks_den _ _ _ L cs _ (law_init _ _ _ L)). apply run_done.
Qed.
Lemma v2_slice : forall l m r, bytes_ok l -> (decode_from_slice_unbounded v2_dec l = Ret (Ok m, r) <-> exists w, l = w ++ r /\ reads_v2 m w).
Proof.
  intros l m r B. destruct v2_model as (g & den & L & A & _). rewrite <- (A _ _ _ B). pose proof (slice_unbounded_den _ _ _ L l) as K.
  destruct (den (init v2_dec) l); [rewrite K; split; congruence|destruct K as [r' ->]; split; congruence|destruct K as [r' ->]; split; congruence|rewrite K; split; congruence].
Qed.
Lemma v2_read : forall es m r, Forall data_ok es -> bytes_ok (events_bytes es) ->
  ((exists b es', decode_from_read v2_dec es = Ret (Ok m, b, es') /\ b ++ events_bytes es' = r) <-> exists w, events_bytes es = w ++ r /\ reads_v2 m w).
Proof.
  intros es m r F B. destruct v2_model as (g & den & L & A & _). rewrite <- (A _ _ _ B). pose proof (decode_from_read_den _ _ _ L es F) as K.
  destruct (den (init v2_dec) (events_bytes es)) as [v q|e|e|].
  - destruct K as (b & es' & E & <-). split; [intros (b' & es'' & E' & <-); rewrite E in E'; congruence|]. intros X. exists b, es'. split; [rewrite E; congruence|congruence].
  - destruct K as (b & es' & E). split; [intros (b' & es'' & E' & _); congruence|congruence].
  - destruct K as (b & es' & E). split; [intros (b' & es'' & E' & _); congruence|congruence].
  - split; [intros (b' & es'' & E' & _); congruence|congruence].
Qed.
Lemma v2_unbuffered : forall bs src want m r, 0 < bs -> bytes_ok src -> (decode_from_read_unbuffered v2_dec bs src want = Ret (Ok m, r) <-> exists w, src = w ++ r /\ reads_v2 m w).
Proof.
  intros bs src want m r Hb B. destruct v2_model as (g & den & L & A & _). rewrite <- (A _ _ _ B). pose proof (decode_unbuffered_den _ _ _ L bs src want Hb) as K.
  destruct (den (init v2_dec) src); [rewrite K; split; congruence|destruct K as [r' ->]; split; congruence|destruct K as [r' ->]; split; congruence|rewrite K; split; congruence].
Qed.
Lemma v2_no_panic : forall cs, bytes_ok (concat cs) -> lenN (concat cs) < 2 ^ 32 -> feed_chunks v2_dec (init v2_dec) cs <> RPanic.
Proof.
  intros cs B LN. destruct v2_model as (g & den & L & _ & NB). rewrite (feed_chunks_den _ _ _ L cs _ (law_init _ _ _ L)). intros X. apply run_panic in X. revert X. apply NB; [exact B|]. unfold U32_MAX. change (2 ^ 32) with 4294967296 in LN. lia.
Qed.
Lemma v2_slice_no_panic : forall l, bytes_ok l -> lenN l < 2 ^ 32 -> decode_from_slice_unbounded v2_dec l <> Panic.
Proof.
  intros l B LN. destruct v2_model as (g & den & L & _ & NB). pose proof (slice_unbounded_den _ _ _ L l) as K. specialize (NB l B ltac:(unfold U32_MAX; change (2 ^ 32) with 4294967296 in LN; lia)).
  destruct (den (init v2_dec) l); [rewrite K; discriminate|destruct K as [r' ->]; discriminate|destruct K as [r' ->]; discriminate|congruence].
Qed.
(** the encoder and the identifiers *)
Local Notation short_id := MP2pMsg.short_id.
Lemma short_id_ids : forall m i s, number m = Some i -> nth_error known i = Some s ->
  (In (short_id m, s) ids /\ 0 < short_id m) \/ (short_id m = 0 /\ ~ In s (map snd ids)).
Proof.
  intros m i s H K.
  assert (A : match assocN (short_id m) ids with Some s' => str_eqb s' s && negb (short_id m =? 0) | None => (short_id m =? 0) && negb (existsb (str_eqb s) (map snd ids)) end = true).
  { destruct m as [[]| | | | | | | | | | | | | | | | | | | | | | | | | | | | | | | |c0 b0]; cbn [number] in H; try discriminate; injection H as <-; apply (f_equal (fun x => match x with Some y => y | None => [] end)) in K; cbn [nth_error known map] in K; subst s; vm_compute; reflexivity. }
  destruct (assocN (short_id m) ids) as [s'|] eqn:X; apply andb_true_iff in A as [A1 A2].
  - left. apply str_eqb_eq in A1. subst s'. split; [now apply in_ids|]. apply negb_true_iff, N.eqb_neq in A2. lia.
  - right. split; [now apply N.eqb_eq|]. intros I. apply existsb_in in I. now rewrite I in A2.
Qed.
Lemma v2_encode_reads : forall m p, (forall c q, m <> MUnknown c q) -> reads m p -> exists w, v2_encode m = Ret w /\ reads_v2 m w.
Proof.
  intros m p NU R. destruct (named_exists m NU) as [c Nm]. pose proof (command_named m c Nm) as C. unfold named in Nm. destruct (reads_len m p R) as [_ R'].
  destruct (number m) as [i|] eqn:I; [|destruct Nm as (q & -> & _); now destruct (NU c q)]. destruct Nm as (s & K & F). unfold v2_encode.
  destruct (short_id_ids m i s I K) as [[J P]|[J P]].
  - replace (short_id m =? 0) with false by lia. eexists. split; [reflexivity|]. exact (v2_short m i s _ _ I K J R').
  - rewrite J, C. cbn [N.eqb rbind]. eexists. split; [reflexivity|]. exact (v2_long m i s c _ I K P F R').
Qed.

(** *** Reading an address byte by byte *)
Fixpoint nexts (k : nat) (s : av2_enc * N) : option (av2_enc * N * list (option N)) :=
  match k with
  | O => Some (s, [])
  | S k' => match av2_next 3 s with
            | None => None
            | Some (s', b) => match nexts k' s' with None => None | Some (t, l) => Some (t, b :: l) end
            end
  end.
Lemma nexts_chunk : forall c e pre k, av2_chunk e = pre ++ c ->
  nexts (length c + k) (e, lenN pre) = match nexts k (e, lenN pre + lenN c) with None => None | Some (t, l) => Some (t, map Some c ++ l) end.
Proof.
  induction c as [|x c IH]; intros e pre k E.
  - cbn [length Nat.add lenN map app]. change (lenN (@nil N)) with 0. rewrite N.add_0_r. now destruct (nexts k _) as [[]|].
  - cbn [length Nat.add nexts av2_next fst snd]. rewrite E. unfold lenN at 1. rewrite Nat2N.id, nth_error_app2, Nat.sub_diag by lia. cbn [nth_error].
    replace (lenN pre + 1) with (lenN (pre ++ [x])) by (now rewrite lenN_app). rewrite (IH e (pre ++ [x]) k) by (now rewrite <- app_assoc).
    replace (lenN (pre ++ [x]) + lenN c) with (lenN pre + lenN (x :: c)) by (rewrite lenN_app, !lenN_cons; change (lenN (@nil N)) with 0; lia). destruct (nexts k _) as [[t l]|]; reflexivity.
Qed.
Lemma past_end : forall (c : bytes), nth_error c (N.to_nat (lenN c)) = None.
Proof. intros c. apply nth_error_None. unfold lenN. lia. Qed.
Lemma nexts_move : forall e e' k, av2_adv e = (e', true) -> (av2_chunk e' <> [] \/ exists e'', av2_adv e' = (e'', false)) ->
  nexts (S k) (e, lenN (av2_chunk e)) = nexts (S k) (e', 0).
Proof.
  intros e e' k A H. cbn [nexts av2_next fst snd]. rewrite past_end, A. change (N.to_nat 0) with 0%nat. destruct (av2_chunk e') as [|x c] eqn:C.
  - cbn [nth_error]. destruct H as [H|(e'' & ->)]; [congruence|reflexivity].
  - reflexivity.
Qed.
Lemma nexts_last : forall e e', av2_adv e = (e', false) -> nexts 1 (e, lenN (av2_chunk e)) = Some (e', lenN (av2_chunk e), [None]).
Proof. intros e e' A. cbn [nexts av2_next fst snd]. now rewrite past_end, A. Qed.
Lemma cs_nonempty : forall v, cs_encode v <> [].
Proof. intros v. unfold cs_encode. repeat match goal with |- context[if ?b then _ else _] => destruct b end; discriminate. Qed.
Definition av2_done : av2_enc := {| av_network := None; av_size := None; av_bytes4 := None; av_bytes16 := None; av_bytes32 := None; av_nbytes := None |}.
Lemma nexts_all : forall e0 e1 e2 n sz body, av2_chunk e0 = [n] -> av2_chunk e1 = cs_encode sz -> av2_chunk e2 = body ->
  av2_adv e0 = (e1, true) -> av2_adv e1 = (e2, true) -> av2_adv e2 = (av2_done, false) ->
  nexts (S (length (n :: cs_encode sz ++ body))) (e0, 0) = Some (av2_done, lenN body, map Some (n :: cs_encode sz ++ body) ++ [None]).
Proof.
  intros e0 e1 e2 n sz body C0 C1 C2 A0 A1 A2.
  pose proof (cs_nonempty sz) as NE. destruct (cs_encode sz) as [|y t] eqn:Z; [congruence|]. rewrite <- Z in *. clear NE.
  replace (S (length (n :: cs_encode sz ++ body))) with (length [n] + (length (cs_encode sz) + (length body + 1)))%nat by (cbn [length]; rewrite app_length; lia).
  change 0 with (lenN (@nil N)) at 1. rewrite (nexts_chunk [n] e0 []) by exact C0. change (lenN [] + lenN [n]) with (lenN [n]). rewrite <- C0.
  assert (X1 : (length (cs_encode sz) + (length body + 1) = S (length t + (length body + 1)))%nat) by (rewrite Z; reflexivity). rewrite X1.
  rewrite (nexts_move e0 e1) by (auto; left; rewrite C1, Z; discriminate). rewrite <- X1.
  change 0 with (lenN (@nil N)) at 1. rewrite (nexts_chunk (cs_encode sz) e1 []) by exact C1. change (lenN [] + lenN (cs_encode sz)) with (lenN (cs_encode sz)). rewrite <- C1.
  replace (length body + 1)%nat with (S (length body)) by lia. rewrite (nexts_move e1 e2) by (auto; right; now exists av2_done). replace (S (length body)) with (length body + 1)%nat by lia.
  change 0 with (lenN (@nil N)) at 1. rewrite (nexts_chunk body e2 []) by exact C2. change (lenN [] + lenN body) with (lenN body). rewrite <- C2, (nexts_last e2 av2_done A2).
  rewrite C0, C1. cbn [map app]. rewrite map_app, <- app_assoc. reflexivity.
Qed.
Lemma nexts_addr : forall a, exists n, nexts (S (length (addr_v2_encode a))) (av2_new a, 0) = Some (av2_done, n, map Some (addr_v2_encode a) ++ [None]).
Proof.
  intros a. set (e1 := fst (av2_adv (av2_new a))). set (e2 := fst (av2_adv e1)). exists (lenN (av2_chunk e2)).
  destruct a; cbn [addr_v2_encode]; apply (nexts_all (av2_new _) e1 e2); reflexivity.
Qed.
