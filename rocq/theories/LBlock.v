(** Lemmas about block validation. *)
From Verif Require Import Base MDec LDec MWitness MTx LCodec SWire LWitness LWire MMerkle SMerkle LMerkle SBlock STx LTxId.
Local Open Scope N_scope.

(** *** the stack bounded to 15 entries *)
Section NoAlloc.
Context {T : Type} (eqb : T -> T -> bool) (eqb_spec : forall a b, eqb a b = true <-> a = b) (combine : T -> T -> T) (d : T).
Lemma bits_length : forall p k, 2 ^ lenN (bits k p) <= Npos p + 1.
Proof.
  induction p as [p IH|p IH|]; intro k; cbn [bits].
  - rewrite lenN_cons. specialize (IH (S k)). rewrite N.add_1_l || idtac. replace (1 + lenN (bits (S k) p)) with (N.succ (lenN (bits (S k) p))) by lia. rewrite N.pow_succ_r'. lia.
  - specialize (IH (S k)). lia.
  - cbn. lia.
Qed.
Lemma noalloc_law : forall leaves n st pre, Rep combine d st pre -> lv st = bitsN 0 n ->
  n + lenN leaves <= 32767 -> push_leaves_noalloc eqb combine n leaves st = push_leaves eqb combine n leaves st.
Proof using eqb_spec.
  induction leaves as [|x leaves IH]; intros n st pre HR E Hn; auto. cbn [push_leaves push_leaves_noalloc]. rewrite lenN_cons in Hn.
  assert (L : lenN st = lenN (bitsN 0 n)) by (rewrite <- E; unfold lenN, lv; now rewrite map_length).
  destruct (N.eqb_spec (lenN st) 15) as [Q|_].
  { exfalso. destruct n as [|p]; cbn [bitsN] in *; [cbn in L; lia|]. pose proof (bits_length p 0) as B. rewrite <- L, Q in B. change (2 ^ 15) with 32768 in B. lia. }
  destruct (push_law eqb eqb_spec combine d [x] n st pre HR E) as [[K _]|(st' & K & K2 & K3)]; cbn [push_leaves] in K.
  - destruct n as [|p]; [discriminate|]. destruct (carry _ _ _ _) as [[s|]|]; cbn [rbind] in *; try discriminate; auto.
  - destruct n as [|p].
    + cbn [rbind] in K. injection K as <-. cbn [rbind]. eapply IH; [exact K2|exact K3|lia].
    + destruct (carry _ _ _ _) as [[s|]|]; cbn [rbind] in *; try discriminate; auto. injection K as ->.
      eapply IH; [exact K2|exact K3|lia].
Qed.
Lemma noalloc_full : forall leaves n st pre, Rep combine d st pre -> lv st = bitsN 0 n ->
  n <= 32767 -> 32767 < n + lenN leaves -> push_leaves_noalloc eqb combine n leaves st = Ret None.
Proof using eqb_spec.
  induction leaves as [|x leaves IH]; intros n st pre HR E Hn Hl; [unfold lenN in Hl; cbn in Hl; lia|]. cbn [push_leaves_noalloc].
  assert (L : lenN st = lenN (bitsN 0 n)) by (rewrite <- E; unfold lenN, lv; now rewrite map_length).
  destruct (N.eqb_spec (lenN st) 15) as [Q|Q]; auto. rewrite lenN_cons in Hl.
  assert (n <> 32767) by (intros ->; rewrite L in Q; now apply Q).
  destruct (push_law eqb eqb_spec combine d [x] n st pre HR E) as [[K _]|(st' & K & K2 & K3)]; cbn [push_leaves] in K.
  - destruct n as [|p]; [discriminate|]. destruct (carry _ _ _ _) as [[s|]|]; cbn [rbind] in *; try discriminate; auto.
  - destruct n as [|p].
    + cbn [rbind] in K. injection K as <-. cbn [rbind]. eapply IH; [exact K2|exact K3|lia|lia].
    + destruct (carry _ _ _ _) as [[s|]|]; cbn [rbind] in *; try discriminate; auto. injection K as ->.
      eapply IH; [exact K2|exact K3| |]; change (lenN [x]) with 1; lia.
Qed.
End NoAlloc.

Section Block.
Context (H : bytes -> bytes).
Lemma root_of_law : forall ids, (exists r, root_of H ids = Ret (Some r) /\ tree H ids r) \/
  (root_of H ids = Ret None /\ forall r, ~ tree H ids r).
Proof.
  intro ids. unfold root_of, calculate_root_batched.
  destruct (batched_law beqb beqb_spec (node_combine H) (length ids) ids (le_n _)) as [(r & -> & R1 & R2)|(-> & R)]; [left; exists r; split; auto; split; auto|right].
  split; auto. intros r [R1 R2]. destruct R as [->|R]; [|now apply R2]. inv R1. cbn in *. lia.
Qed.
Lemma tree_det : forall ids r r', tree H ids r -> tree H ids r' -> r = r'.
Proof. intros ids r r' [A _] [B _]. eapply root_det; eauto. Qed.
Lemma rmap_txids : forall txs, rmap_opt (compute_txid H) txs = Ret (map (txid_of H) txs).
Proof.
  induction txs as [|t txs IH]; auto. cbn [rmap_opt map]. unfold compute_txid at 1. rewrite hash_preimage_legacy. cbn [rbind]. now rewrite IH.
Qed.
Lemma stacks_exist : forall ins, Forall (fun i => witness_ok (ti_witness i)) ins -> exists ws, Forall2 stack_of (map ti_witness ins) ws.
Proof. induction 1 as [|i ins (ls & S1 & _) F (ws & IH)]; [exists []; constructor|]. exists (ls :: ws). now constructor. Qed.
Lemma wtxid_full : forall tx id, witnesses_ok tx -> (wtxid_is H tx id <-> id = H (tx_encode tx)).
Proof.
  intros tx id W. split.
  - intros (ws & S1 & ->). now rewrite (wire_tx_eq tx ws).
  - intros ->. destruct (stacks_exist _ W) as (ws & S1). exists ws. split; auto. now rewrite (wire_tx_eq tx ws).
Qed.
Lemma rmap_wtxids : forall txs, Forall witnesses_ok txs -> rmap_opt (compute_wtxid H) txs = Ret (map (fun t => H (tx_encode t)) txs).
Proof.
  induction 1 as [|t txs W F IH]; auto. cbn [rmap_opt map]. unfold compute_wtxid at 1. rewrite (hash_preimage_full t W). cbn [rbind]. now rewrite IH.
Qed.
Lemma wtxids_iff : forall txs ids, Forall witnesses_ok txs -> (Forall2 (wtxid_is H) txs ids <-> ids = map (fun t => H (tx_encode t)) txs).
Proof.
  induction txs as [|t txs IH]; intros ids W; cbn [map].
  - split; [intro F; now inv F|intros ->; constructor].
  - inv W. split.
    + intro F. inv F. apply wtxid_full in H4; auto. apply IH in H6; auto. now subst.
    + intros ->. constructor; [now apply wtxid_full|now apply IH].
Qed.
Definition wleaves (txs : list transaction) : list bytes := repeat 0 32 :: map (fun t => H (tx_encode t)) (tl txs).
Lemma wleaves_iff : forall cb txs l, Forall witnesses_ok txs -> (witness_leaves H (cb :: txs) l <-> l = wleaves (cb :: txs)).
Proof.
  intros cb txs l W. split.
  - intros (cb' & rest & ids & E & -> & F). inv E. apply wtxids_iff in F; auto. now subst.
  - intros ->. exists cb, txs. eexists. split; auto. split; [reflexivity|]. now apply wtxids_iff.
Qed.
Lemma witness_root_law : forall cb txs, Forall witnesses_ok txs -> compute_witness_root H (cb :: txs) = root_of H (wleaves (cb :: txs)).
Proof. intros cb txs W. unfold compute_witness_root. rewrite rmap_wtxids by auto. reflexivity. Qed.
Lemma is_coinbase_iff : forall tx, is_coinbase tx = true <-> coinbase_tx tx.
Proof.
  intro tx. unfold is_coinbase, coinbase_tx. destruct (tx_inputs tx) as [|i [|j l]].
  - split; [discriminate|]. intros (i & E & _). discriminate.
  - rewrite outpoint_eqb_eq. split; [intro E; exists i; auto|]. intros (i' & E & K). injection E as ->. exact K.
  - split; [discriminate|]. intros (i' & E & _). discriminate.
Qed.
Lemma takeN_app_exact : forall (a b : bytes) n, lenN a = n -> takeN n (a ++ b) = a.
Proof. intros a b n <-. unfold takeN, lenN. rewrite Nat2N.id. now rewrite firstn_app, Nat.sub_diag, firstn_O, firstn_all, app_nil_r. Qed.
Lemma dropN_app_exact : forall (a b : bytes) n, lenN a = n -> dropN n (a ++ b) = b.
Proof. intros a b n <-. unfold dropN, lenN. rewrite Nat2N.id. now rewrite skipn_app, Nat.sub_diag, skipn_all. Qed.
Lemma commits_iff : forall o c, commits o c <-> is_commitment o = true /\ c = takeN 32 (dropN 6 (to_script o)).
Proof.
  intros o c. unfold is_commitment. rewrite andb_true_iff, N.leb_le, beqb_spec. split.
  - intros (rest & E & L). rewrite E. rewrite (takeN_app_exact [106; 36; 170; 33; 169; 237]), (dropN_app_exact [106; 36; 170; 33; 169; 237]) by reflexivity.
    rewrite (takeN_app_exact c rest) by auto. split; auto. split; [|reflexivity]. unfold lenN in *. rewrite !app_length. cbn [length]. lia.
  - intros [[L E] ->]. exists (dropN 32 (dropN 6 (to_script o))). split.
    + unfold WITNESS_COMMITMENT_MAGIC in E. rewrite <- E. unfold takeN, dropN. rewrite firstn_skipn. now rewrite firstn_skipn.
    + unfold takeN, dropN, lenN in *. rewrite firstn_length, skipn_length. lia.
Qed.
Lemma no_commits : forall o, (forall c, ~ commits o c) <-> is_commitment o = false.
Proof.
  intro o. split.
  - intro K. apply not_true_is_false. intro Q. eapply K. apply commits_iff. eauto.
  - intros E c K. apply commits_iff in K as [K _]. congruence.
Qed.
Lemma find_rev : forall outs, match find is_commitment (rev outs) with
  | Some o => commitment outs (takeN 32 (dropN 6 (to_script o)))
  | None => no_commitment outs end.
Proof.
  intro outs. induction outs as [|o outs IH] using rev_ind; [constructor|]. rewrite rev_app_distr. cbn [rev app find].
  destruct (is_commitment o) eqn:E.
  - exists outs, o, []. split; auto. split; [now apply commits_iff|constructor].
  - destruct (find is_commitment (rev outs)) as [o'|].
    + destruct IH as (p & o2 & q & -> & C & F). exists p, o2, (q ++ [o]). rewrite <- app_assoc. split; auto. split; auto.
      apply Forall_app. split; auto. constructor; [|constructor]. now apply no_commits.
    + apply Forall_app. split; auto. constructor; [|constructor]. now apply no_commits.
Qed.
Lemma commitment_fun : forall outs c c', commitment outs c -> commitment outs c' -> c = c'.
Proof.
  intros outs c c' (p & o & q & E & C & F) (p' & o' & q' & E' & C' & F'). subst outs.
  assert (K : q = q' /\ o = o').
  { revert p' E'. revert q q' o o' F F' C C'. induction p as [|x p IH]; intros q q' o o' F F' C C' p' E.
    - destruct p' as [|x' p']; [now inv E|]. exfalso. injection E as -> E. apply Forall_forall with (x := o') in F; [now apply F in C'|]. rewrite E. apply in_app_iff. right. now left.
    - destruct p' as [|x' p']; [|injection E as -> E; eauto]. exfalso. injection E as -> E. apply Forall_forall with (x := o) in F'; [now apply F' in C|]. rewrite <- E. apply in_app_iff. right. now left. }
  destruct K as [_ ->]. apply commits_iff in C as [_ ->]. apply commits_iff in C' as [_ ->]. reflexivity.
Qed.
Lemma commitment_no : forall outs c, commitment outs c -> no_commitment outs -> False.
Proof. intros outs c (p & o & q & -> & C & _) N. apply Forall_app in N as [_ N]. inv N. now apply H2 in C. Qed.
Lemma all_empty_iff : forall txs, Forall witnesses_ok txs -> (all_witness_empty txs = true <-> Forall (fun tx => Forall (fun i => stack_of (ti_witness i) []) (tx_inputs tx)) txs).
Proof.
  intros txs W. unfold all_witness_empty. rewrite forallb_forall, Forall_forall. split; intros K tx Hi; specialize (K tx Hi).
  - rewrite forallb_forall in K. rewrite Forall_forall. intros i Hj. specialize (K i Hj). rewrite Forall_forall in W. pose proof (W tx Hi) as Wt. unfold witnesses_ok in Wt. rewrite Forall_forall in Wt. destruct (Wt i Hj) as (ls & S1 & _).
    rewrite (wit_empty_stack _ _ S1) in K. destruct ls; [exact S1|discriminate].
  - rewrite forallb_forall. rewrite Forall_forall in K. intros i Hj. now rewrite (wit_empty_stack _ _ (K i Hj)).
Qed.
Lemma short_to_vec : forall w r, stack_of w [r] -> lenN r = 32 -> wit_to_vec w = Ret [r].
Proof.
  intros w r S1 L. apply stack_of_layout in S1 as [-> F]. assert (S' : small [r]) by (constructor; [lia|constructor]).
  apply to_vec_spec; auto. apply stack_room; auto. unfold lenN. cbn. lia.
Qed.
Lemma check_commitment_law : forall cb rest, Forall witnesses_ok (cb :: rest) -> is_coinbase cb = true ->
  (exists wr, check_witness_commitment H (cb :: rest) = Ret (true, wr) /\ witness_rule H (cb :: rest) wr) \/
  (check_witness_commitment H (cb :: rest) = Ret (false, None) /\ forall wr, ~ witness_rule H (cb :: rest) wr).
Proof.
  intros cb rest W C. unfold check_witness_commitment. rewrite C. unfold witness_commitment_from_coinbase. rewrite C. cbn [negb].
  pose proof (find_rev (tx_outputs cb)) as F. destruct (find is_commitment (rev (tx_outputs cb))) as [o|].
  - set (c := takeN 32 (dropN 6 (to_script o))) in *. pose proof C as C'. apply is_coinbase_iff in C' as (i & Ei & _). rewrite Ei.
    assert (Wi : witness_ok (ti_witness i)) by (inv W; unfold witnesses_ok in H2; rewrite Ei in H2; now inv H2). assert (Wr : Forall witnesses_ok rest) by now inv W.
    destruct Wi as (ls & Sl & Ol). rewrite (wit_to_vec_ok _ _ Sl Ol). cbn [rbind].
    assert (U : forall s, coinbase_stack (cb :: rest) [s] -> lenN s = 32 -> ls = [s]).
    { intros s (cb' & rest' & i' & more & E1 & E2 & S1) L. injection E1 as <- <-. rewrite Ei in E2. injection E2 as <- <-.
      pose proof (short_to_vec _ _ S1 L) as K. rewrite (wit_to_vec_ok _ _ Sl Ol) in K. now injection K. }
    assert (No : (forall s, ls = [s] -> lenN s <> 32) -> forall wr, ~ witness_rule H (cb :: rest) wr).
    { intros K wr (cb' & rest' & E & [(c' & s & l & r & _ & Q1 & Q2 & _)|(Q & _)]); [now apply (K s); auto|]. injection E as <- <-. now apply (commitment_no _ _ F). }
    destruct ls as [|s [|s2 ls]]; [right; split; auto; apply No; discriminate| |right; split; auto; apply No; discriminate].
    destruct (N.eqb_spec (lenN s) 32) as [L|L]; [|right; split; auto; apply No; intros s' E; now injection E as ->].
    unfold compute_witness_commitment. rewrite witness_root_law by auto.
    destruct (root_of_law (wleaves (cb :: rest))) as [(r & -> & T)|(-> & T)]; cbn [rbind].
    + destruct (beqb c (H (r ++ s))) eqn:B.
      * left. exists (Some r). split; auto. exists cb, rest. split; auto. left. exists c, s, (wleaves (cb :: rest)), r.
        split; auto. split; [exists cb, rest, i, []; auto|]. split; auto. split; [now apply wleaves_iff|]. split; auto. split; auto. now apply beqb_spec.
      * right. split; auto. intros wr (cb' & rest' & E & [(c' & s' & l & r' & Q1 & Q2 & Q3 & Q4 & Q5 & Q6 & Q7)|(Q & _)]); injection E as <- <-; [|now apply (commitment_no _ _ F)].
        pose proof (commitment_fun _ _ _ F Q1) as <-. specialize (U s' Q2 Q3). injection U as <-. apply wleaves_iff in Q4; auto. subst l.
        pose proof (tree_det _ _ _ T Q5) as <-. apply beqb_spec in Q6. congruence.
    + right. split; auto. intros wr (cb' & rest' & E & [(c' & s' & l & r' & Q1 & Q2 & Q3 & Q4 & Q5 & Q6 & Q7)|(Q & _)]); injection E as <- <-; [|now apply (commitment_no _ _ F)].
      apply wleaves_iff in Q4; auto. subst l. now apply T in Q5.
  - destruct (all_witness_empty (cb :: rest)) eqn:A.
    + left. exists None. split; auto. exists cb, rest. split; auto. right. split; auto. split; auto. now apply all_empty_iff.
    + right. split; auto. intros wr (cb' & rest' & E & [(c' & s' & l & r' & Q1 & _)|(_ & Q & _)]); injection E as <- <-; [now apply (commitment_no _ _ Q1)|].
      apply all_empty_iff in Q; auto. congruence.
Qed.
Lemma check_root_law : forall b, (check_merkle_root H b = Ret true /\ root_rule H b) \/ (check_merkle_root H b = Ret false /\ ~ root_rule H b).
Proof.
  intro b. unfold check_merkle_root, compute_merkle_root. rewrite rmap_txids. cbn [rbind]. unfold root_rule.
  destruct (root_of_law (map (txid_of H) (b_txs b))) as [(r & -> & T)|(-> & T)]; cbn [rbind].
  - destruct (beqb (h_merkle (b_header b)) r) eqn:B.
    + left. split; auto. apply beqb_spec in B. unfold bytes, byte in *. rewrite B. exact T.
    + right. split; auto. intro K. pose proof (tree_det _ _ _ T K) as Q. symmetry in Q. apply beqb_spec in Q. congruence.
  - right. split; auto.
Qed.

(** *** what validation binds *)
Context (Hlen : forall m, lenN (H m) = 32).
Definition hash_collide (b1 b2 : block) : Prop := exists m1 m2, message H b1 m1 /\ message H b2 m2 /\ m1 <> m2 /\ H m1 = H m2.
Lemma hashed_len : forall l a b, Forall (fun x => lenN x = 32) l -> hashed (node H) l a b -> lenN a = 32 /\ lenN b = 32.
Proof using Hlen.
  intros l a b F K. induction K as [p a b q _|p a _ _|l a b _ K IH].
  - apply Forall_app in F as [_ F]. inv F. now inv H3.
  - apply Forall_app in F as [_ F]. inv F. auto.
  - apply IH. clear - Hlen. revert l. apply list_ind2; cbn [next_level]; auto; constructor; auto; unfold node; auto.
Qed.
Lemma pair_app : forall a b c e : bytes, lenN a = 32 -> lenN c = 32 -> (a, b) <> (c, e) -> a ++ b <> c ++ e.
Proof.
  intros a b c e La Lc N E. apply N. assert (K : a = c); [|subst; f_equal; now apply app_inv_head in E].
  rewrite <- (takeN_app_exact a b 32 La), <- (takeN_app_exact c e 32 Lc). now rewrite E.
Qed.
Lemma next_len : forall l, Forall (fun x => lenN x = 32) (next_level (node H) l).
Proof using Hlen. apply list_ind2; cbn [next_level]; auto; constructor; auto; unfold node; auto. Qed.
Lemma root_len : forall l r, Forall (fun x => lenN x = 32) l -> merkle_root (node H) l r -> lenN r = 32.
Proof using Hlen. intros l r F K. induction K as [x|l r _ K IH]; [now inv F|]. apply IH, next_len. Qed.
Lemma txids_len : forall txs, Forall (fun x => lenN x = 32) (map (txid_of H) txs).
Proof using Hlen. induction txs; constructor; auto. apply Hlen. Qed.
Lemma wleaves_len : forall txs, Forall (fun x => lenN x = 32) (wleaves txs).
Proof using Hlen. intro txs. constructor; [reflexivity|]. induction (tl txs); constructor; auto. Qed.
Lemma coll_txids : forall b1 b2, hash_collision (node H) (map (txid_of H) (b_txs b1)) (map (txid_of H) (b_txs b2)) -> hash_collide b1 b2.
Proof using Hlen.
  intros b1 b2 (a & b & c & e & K1 & K2 & K3 & K4). exists (a ++ b), (c ++ e).
  pose proof (hashed_len _ _ _ (txids_len _) K1). pose proof (hashed_len _ _ _ (txids_len _) K2).
  split; [now apply msg_node|]. split; [now apply msg_node|]. split; [apply pair_app; tauto|exact K4].
Qed.
Lemma coll_leaves : forall b1 b2, Forall witnesses_ok (b_txs b1) -> Forall witnesses_ok (b_txs b2) -> b_txs b1 <> [] -> b_txs b2 <> [] ->
  hash_collision (node H) (wleaves (b_txs b1)) (wleaves (b_txs b2)) -> hash_collide b1 b2.
Proof using Hlen.
  intros b1 b2 W1 W2 N1 N2 (a & b & c & e & K1 & K2 & K3 & K4). exists (a ++ b), (c ++ e).
  pose proof (hashed_len _ _ _ (wleaves_len _) K1). pose proof (hashed_len _ _ _ (wleaves_len _) K2).
  split; [|split; [|split; [apply pair_app; tauto|exact K4]]].
  - eapply msg_wnode; [|exact K1]. destruct (b_txs b1); [easy|]. inv W1. now apply wleaves_iff.
  - eapply msg_wnode; [|exact K2]. destruct (b_txs b2); [easy|]. inv W2. now apply wleaves_iff.
Qed.
Lemma txids_bind : forall l1 l2, Forall tx_shape l1 -> Forall tx_shape l2 -> map (txid_of H) l1 = map (txid_of H) l2 ->
  Forall2 same_but_witness l1 l2 \/ exists t1 t2, In t1 l1 /\ In t2 l2 /\ wire_legacy t1 <> wire_legacy t2 /\ H (wire_legacy t1) = H (wire_legacy t2).
Proof.
  clear Hlen. induction l1 as [|a l1 IH]; intros [|b l2] S1 S2 E; try discriminate; [left; constructor|]. cbn [map] in E. injection E as E1 E2. inv S1. inv S2.
  destruct (list_eq_dec N.eq_dec (wire_legacy a) (wire_legacy b)) as [K|K]; [|right; exists a, b; split; [now left|]; split; [now left|]; auto].
  apply wire_legacy_inj in K; auto. destruct (IH l2) as [F|(t1 & t2 & I1 & I2 & R)]; auto. right. exists t1, t2. split; [now right|]. split; [now right|exact R].
Qed.
Lemma wtxids_bind : forall l1 l2, Forall tx_shape l1 -> Forall tx_shape l2 -> map (fun t => H (tx_encode t)) l1 = map (fun t => H (tx_encode t)) l2 ->
  l1 = l2 \/ exists t1 t2, In t1 l1 /\ In t2 l2 /\ tx_encode t1 <> tx_encode t2 /\ H (tx_encode t1) = H (tx_encode t2).
Proof.
  clear Hlen. induction l1 as [|a l1 IH]; intros [|b l2] S1 S2 E; try discriminate; [now left|]. cbn [map] in E. injection E as E1 E2. inv S1. inv S2.
  destruct (list_eq_dec N.eq_dec (tx_encode a) (tx_encode b)) as [K|K]; [|right; exists a, b; split; [now left|]; split; [now left|]; auto].
  apply tx_encode_inj in K; auto. subst b. destruct (IH l2) as [->|(t1 & t2 & I1 & I2 & R)]; auto. right. exists t1, t2. split; [now right|]. split; [now right|exact R].
Qed.
Lemma same_tx : forall a b, same_but_witness a b -> Forall2 (fun i j => ti_witness i = ti_witness j) (tx_inputs a) (tx_inputs b) -> a = b.
Proof.
  clear Hlen. intros [v lt ins outs] [v' lt' ins' outs'] (E1 & E2 & E3 & F) G. cbn [tx_version tx_lock_time tx_inputs tx_outputs] in *. subst. f_equal.
  clear - F G. induction F as [|[p s q w] [p' s' q' w'] l l' (A & B & C)]; auto. inv G. cbn in *. subst. f_equal. auto.
Qed.
Lemma empty_same : forall l1 l2, Forall2 same_but_witness l1 l2 ->
  Forall (fun tx => Forall (fun i => stack_of (ti_witness i) []) (tx_inputs tx)) l1 ->
  Forall (fun tx => Forall (fun i => stack_of (ti_witness i) []) (tx_inputs tx)) l2 -> l1 = l2.
Proof.
  clear Hlen. induction 1 as [|a b l1 l2 E F IH]; intros S1 S2; auto. inv S1. inv S2. f_equal; auto. apply same_tx; auto.
  destruct E as (_ & _ & _ & E). clear - E H2 H4. induction E as [|i j l l' _ E IH]; constructor; inv H2; inv H4; auto.
  unfold stack_of in *. congruence.
Qed.
Lemma bind_law : forall l1 l2 r, tree H l1 r -> tree H l2 r ->
  l1 = l2 \/ hash_collision (node H) l1 l2 \/
  (exists k, (length l1 < length l2)%nat /\ level_up (node H) (S k) l2 = l1) \/ (exists k, (length l2 < length l1)%nat /\ level_up (node H) (S k) l1 = l2).
Proof.
  clear Hlen. assert (G : forall l1 l2 r h1 h2, (h1 <= h2)%nat -> tree H l1 r -> tree H l2 r -> level_up (node H) h1 l1 = [r] -> level_up (node H) h2 l2 = [r] ->
    (forall j, (j < h1)%nat -> (2 <= length (level_up (node H) j l1))%nat) -> (forall j, (j < h2)%nat -> (2 <= length (level_up (node H) j l2))%nat) ->
    l1 = l2 \/ hash_collision (node H) l1 l2 \/ (exists k, (length l1 < length l2)%nat /\ level_up (node H) (S k) l2 = l1)).
  { intros l1 l2 r h1 h2 Hle [R1 S1] [R2 S2] E1 E2 L1 L2.
    destruct (descend beqb beqb_spec (node H) [] h1 h2 l1 l2 r Hle E1 E2 L1 L2) as [K|K]; auto. destruct (h2 - h1)%nat as [|k] eqn:Ek; [now left|].
    right. right. exists k. split; auto. rewrite <- K. clear - L2 Ek.
    assert (Q : forall k, (k < h2)%nat -> (length (level_up (node H) (S k) l2) < length l2)%nat); [|apply Q; lia].
    induction k0 as [|k0 IH]; intro Hk.
    - cbn [level_up]. apply (next_shorter beqb beqb_spec). apply (L2 0%nat). lia.
    - rewrite (level_up_S (node H)). pose proof (next_shorter beqb beqb_spec (node H) (level_up (node H) (S k0) l2)) as N. specialize (L2 (S k0) ltac:(lia)). specialize (IH ltac:(lia)). lia. }
  intros l1 l2 r T1 T2. destruct (levels beqb beqb_spec (node H) [] l1 r (proj1 T1)) as (h1 & E1 & L1). destruct (levels beqb beqb_spec (node H) [] l2 r (proj1 T2)) as (h2 & E2 & L2).
  destruct (Nat.le_ge_cases h1 h2) as [Hle|Hle].
  - destruct (G l1 l2 r h1 h2) as [K|[K|K]]; auto.
  - destruct (G l2 l1 r h2 h1) as [K|[K|K]]; auto. destruct K as (a & b & c & e & K1 & K2 & K3 & K4). right. left. exists c, e, a, b. auto.
Qed.
Lemma bind_same : forall l1 l2 r, merkle_root (node H) l1 r -> merkle_root (node H) l2 r -> length l1 = length l2 ->
  l1 = l2 \/ hash_collision (node H) l1 l2.
Proof.
  clear Hlen. intros l1 l2 r T1 T2 E. destruct (levels beqb beqb_spec (node H) [] l1 r T1) as (h1 & E1 & L1). destruct (levels beqb beqb_spec (node H) [] l2 r T2) as (h2 & E2 & L2).
  pose proof (same_height beqb beqb_spec (node H) [] l1 l2 h1 h2 r r E E1 E2 L1 L2) as Hh.
  destruct (descend beqb beqb_spec (node H) [] h1 h2 l1 l2 r) as [K|K]; auto; [lia|]. rewrite Hh, Nat.sub_diag in K. left. now symmetry.
Qed.
Lemma valid_bind : forall b1 b2 w1 w2, Forall tx_shape (b_txs b1) -> Forall tx_shape (b_txs b2) ->
  coinbase_rule (b_txs b1) -> coinbase_rule (b_txs b2) ->
  root_rule H b1 -> root_rule H b2 -> witness_rule H (b_txs b1) w1 -> witness_rule H (b_txs b2) w2 -> h_merkle (b_header b1) = h_merkle (b_header b2) ->
  b_txs b1 = b_txs b2 \/ hash_collide b1 b2 \/
  (exists k, (length (b_txs b1) < length (b_txs b2))%nat /\ level_up (node H) (S k) (map (txid_of H) (b_txs b2)) = map (txid_of H) (b_txs b1)) \/
  (exists k, (length (b_txs b2) < length (b_txs b1))%nat /\ level_up (node H) (S k) (map (txid_of H) (b_txs b1)) = map (txid_of H) (b_txs b2)).
Proof using Hlen.
  intros b1 b2 w1 w2 S1 S2 C1 C2 R1 R2 W1 W2 Hm. unfold root_rule in *. rewrite <- Hm in R2.
  destruct (bind_law _ _ _ R1 R2) as [E|[K|[(k & K1 & K2)|(k & K1 & K2)]]].
  2: { right. left. now apply coll_txids. }
  2: { right. right. left. exists k. rewrite !map_length in K1. auto. }
  2: { right. right. right. exists k. rewrite !map_length in K1. auto. }
  destruct (txids_bind _ _ S1 S2 E) as [F|(t1 & t2 & I1 & I2 & N & Q)].
  2: { right. left. exists (wire_legacy t1), (wire_legacy t2). split; [now apply msg_tx|]. split; [now apply msg_tx|]. auto. }
  assert (K : b_txs b1 = b_txs b2 \/ hash_collide b1 b2); [|tauto].
  assert (V1 : Forall witnesses_ok (b_txs b1)) by (eapply Forall_impl; [|exact S1]; apply shape_witnesses).
  assert (V2 : Forall witnesses_ok (b_txs b2)) by (eapply Forall_impl; [|exact S2]; apply shape_witnesses).
  destruct W1 as (cb1 & rest1 & B1 & W1). destruct W2 as (cb2 & rest2 & B2 & W2).
  assert (Eo : tx_outputs cb1 = tx_outputs cb2) by (rewrite B1, B2 in F; inv F; match goal with K : same_but_witness cb1 cb2 |- _ => apply K end).
  destruct W1 as [(c1 & s1 & l1 & r1 & X1 & X2 & X3 & X4 & X5 & X6 & _)|(X1 & X2 & _)];
  destruct W2 as [(c2 & s2 & l2 & r2 & Y1 & Y2 & Y3 & Y4 & Y5 & Y6 & _)|(Y1 & Y2 & _)].
  2,3: exfalso; rewrite Eo in X1; eauto using commitment_no.
  2: left; now apply empty_same.
  rewrite Eo in X1. pose proof (commitment_fun _ _ _ X1 Y1) as <-. rewrite X6 in Y6.
  destruct (list_eq_dec N.eq_dec (r1 ++ s1) (r2 ++ s2)) as [Q|Q].
  2: { right. exists (r1 ++ s1), (r2 ++ s2). split; [eapply msg_commit; eauto; apply X5|]. split; [eapply msg_commit; eauto; apply Y5|]. auto. }
  rewrite B1 in X4. rewrite B2 in Y4. rewrite B1 in V1. rewrite B2 in V2. apply wleaves_iff in X4; [|now inv V1]. apply wleaves_iff in Y4; [|now inv V2]. subst l1 l2.
  assert (Hr : r1 = r2).
  { rewrite <- (takeN_app_exact r1 s1 32), <- (takeN_app_exact r2 s2 32), Q; auto; eapply root_len; try apply wleaves_len; [apply Y5|apply X5]. }
  subst r2. apply app_inv_head in Q. subst s2. 
  destruct (bind_same _ _ r1 (proj1 X5) (proj1 Y5)) as [L|L].
  - unfold wleaves. cbn [tl length]. rewrite !map_length. f_equal. rewrite B1, B2 in E. cbn [map] in E. injection E as _ E. apply (f_equal (@length bytes)) in E. now rewrite !map_length in E.
  - unfold wleaves in L. cbn [tl] in L. injection L as L. rewrite B1 in S1. rewrite B2 in S2.
    destruct (wtxids_bind rest1 rest2) as [K|(t1 & t2 & I1 & I2 & N & Z)]; [now inv S1|now inv S2|exact L| |].
    + left. rewrite B1, B2. subst rest2. f_equal. rewrite B1, B2 in F. inv F. apply same_tx; auto.
      destruct C1 as (cb & rest & D1 & i & D2 & _). rewrite B1 in D1. injection D1 as <- <-. destruct C2 as (cb & rest & D3 & j & D4 & _). rewrite B2 in D3. injection D3 as <- <-.
      rewrite D2, D4. constructor; [|constructor].
      destruct X2 as (cb & rest & i' & more & D1 & D3 & D5). rewrite B1 in D1. injection D1 as <- <-. rewrite D2 in D3. injection D3 as <- <-.
      destruct Y2 as (cb & rest & i' & more & D1 & D3 & D6). rewrite B2 in D1. injection D1 as <- <-. rewrite D4 in D3. injection D3 as <- <-.
      unfold stack_of in *. congruence.
    + right. inv V1. inv V2.
      assert (M : forall b cb rest t, b_txs b = cb :: rest -> In t rest -> Forall witnesses_ok rest -> message H b (tx_encode t)).
      { intros b cb rest t D I V. rewrite Forall_forall in V. destruct (stacks_exist _ (V t I)) as (ws & St). rewrite (wire_tx_eq t ws St). apply msg_wtx; auto. rewrite D. now right. }
      exists (tx_encode t1), (tx_encode t2). split; [eapply M; eauto|]. split; [eapply M; eauto|]. auto.
  - right. rewrite <- B1 in L, V1. rewrite <- B2 in L, V2. apply coll_leaves; auto; congruence.
Qed.
End Block.
