(** Lemmas: the legacy sighash and histories of calls on one cache. *)
From Verif Require Import Base MDec LDec MWitness MTx SWire LWire MScript MText MSighash SSighash LSighash.
Local Open Scope N_scope.

Lemma mapi_len : forall A B (f : N -> A -> B) l n, lenN (mapi f n l) = lenN l.
Proof. intros A B f l. induction l as [|x l IH]; intro n; [reflexivity|]. cbn [mapi]. rewrite !lenN_cons, IH. reflexivity. Qed.
Lemma mapi_nth : forall A B (f : N -> A -> B) l n i, nth_error (mapi f n l) i = option_map (f (n + N.of_nat i)) (nth_error l i).
Proof.
  intros A B f l. induction l as [|x l IH]; intros n i; [now destruct i|]. destruct i as [|i]; cbn [mapi nth_error option_map]; [f_equal; f_equal; lia|].
  rewrite IH. destruct (nth_error l i); [|reflexivity]. cbn [option_map]. f_equal. f_equal. lia.
Qed.
Lemma legacy_inputs_eq : forall ty i code ins n, legacy_inputs n i code (plain ty) ins = cat wire_txin (mapi (copy_input ty i code) n ins).
Proof.
  intros ty i code ins. induction ins as [|x ins IH]; intro n; [reflexivity|]. cbn [legacy_inputs mapi]. unfold cat. cbn [map concat]. rewrite IH. unfold cat.
  unfold wire_txin at 2. cbn [copy_input ti_prevout ti_script ti_sequence]. rewrite <- !app_assoc. f_equal. rewrite !wire_bytes_eq. unfold copy_input. cbn [ti_script ti_sequence].
  destruct (n =? i); cbn [negb andb orb]; [reflexivity|]. destruct (plain ty); reflexivity.
Qed.
Lemma blanks : forall n, concat (repeat [255; 255; 255; 255; 255; 255; 255; 255; 0] n) = cat wire_txout (repeat blank n).
Proof. induction n as [|n IH]; [reflexivity|]. unfold cat in *. cbn [repeat map concat]. rewrite IH. reflexivity. Qed.
Lemma cat_app : forall A (f : A -> bytes) l m, cat f (l ++ m) = cat f l ++ cat f m.
Proof. intros. unfold cat. now rewrite map_app, concat_app. Qed.
Lemma list1_cat : forall A (f : A -> bytes) x, wire_list f [x] = wire_compact 1 ++ f x.
Proof. intros. unfold wire_list. cbn [map concat]. now rewrite app_nil_r. Qed.

Definition single_bug (tx : transaction) (i ty : N) : bool := (N.land ty 0x1f =? 3) && (lenN (tx_outputs tx) <=? i).
Lemma legacy_inner_eq : forall tx i code ty, i < lenN (tx_inputs tx) -> single_bug tx i ty = false -> legacy_inner tx i code ty = Ret (legacy_msg ty i code tx).
Proof.
  intros tx i code ty LT NB. unfold legacy_inner. pose proof (consensus_bits ty) as CB. destruct (ecdsa_split (from_consensus ty)) as [sh acp].
  destruct CB as (B1 & B2 & B3 & B4 & B5 & B6). unfold single_bug in NB. destruct (nthN_some _ _ _ LT) as [x X].
  set (ins := tx_inputs (legacy_copy ty i code tx)).
  match goal with |- rbind ?a _ = _ => assert (A : a = Ret (wire_list wire_txin ins)) end.
  { subst ins. cbn [legacy_copy tx_inputs]. rewrite B1. unfold index. rewrite getN_nthN, X. destruct acp; cbn [rbind].
    - unfold nthN in X |- *. rewrite mapi_nth, X. cbn [option_map]. rewrite list1_cat, wire_compact_eq, wire_bytes_eq. unfold wire_txin, copy_input. cbn [ti_prevout ti_script ti_sequence].
      replace (0 + N.of_nat (N.to_nat i) =? i) with true by (symmetry; apply N.eqb_eq; lia). reflexivity.
    - rewrite <- B2, wire_compact_eq, legacy_inputs_eq. unfold wire_list. now rewrite mapi_len. }
  rewrite A. cbn [rbind]. clear A. set (outs := tx_outputs (legacy_copy ty i code tx)).
  match goal with |- rbind ?a _ = _ => assert (A : a = Ret (wire_list wire_txout outs)) end.
  { subst outs. cbn [legacy_copy tx_outputs]. rewrite B3 in NB |- *. rewrite B5 in NB |- *. rewrite B4. destruct sh; try easy.
    - rewrite wire_compact_eq. unfold wire_list. do 2 f_equal. rewrite flat_map_concat_map. f_equal. apply map_ext. intro. apply wire_txout_eq.
    - cbn [andb] in NB. apply N.leb_gt in NB. destruct (nthN_some _ _ _ NB) as [o O]. destruct (N.leb_spec 1 (lenN (tx_outputs tx))) as [_|]; [|lia]. cbn [rbind].
      replace (N.min i (lenN (tx_outputs tx) - 1)) with i by lia. unfold index. rewrite getN_nthN, O. cbn [rbind]. f_equal.
      unfold wire_list. rewrite lenN_app, lenN_cons, lenN_nil. replace (lenN (repeat blank (N.to_nat i))) with i by (unfold lenN; rewrite repeat_length; lia).
      replace (i + (1 + 0)) with (i + 1) by lia. rewrite wire_compact_eq. f_equal. rewrite blanks. fold (cat wire_txout (repeat blank (N.to_nat i) ++ [o])). rewrite cat_app. f_equal.
      unfold cat. cbn [map concat]. now rewrite app_nil_r, wire_txout_eq. }
  rewrite A. cbn [rbind]. unfold legacy_msg, wire_legacy. fold ins outs. cbn [legacy_copy tx_version tx_lock_time]. now rewrite <- !app_assoc.
Qed.
Lemma legacy_encode_eq : forall tx i code ty, legacy_encode tx i code ty =
  Ret (if lenN (tx_inputs tx) <=? i then LErr (i, lenN (tx_inputs tx)) else if single_bug tx i ty then LBug else LData (legacy_msg ty i code tx)).
Proof.
  intros. unfold legacy_encode, tx_in. rewrite getN_nthN. destruct (N.leb_spec (lenN (tx_inputs tx)) i) as [GE|LT].
  - rewrite nthN_none by lia. reflexivity.
  - destruct (nthN_some _ _ _ LT) as [x ->]. unfold invalid_single. pose proof (consensus_bits ty) as CB. destruct (ecdsa_split (from_consensus ty)) as [sh acp].
    destruct CB as (_ & _ & B3 & _). rewrite <- B3. fold (single_bug tx i ty). destruct (single_bug tx i ty) eqn:NB; [reflexivity|]. rewrite legacy_inner_eq by assumption. reflexivity.
Qed.

(** what is not covered does not matter *)
Lemma copy_ignores : forall ty i code a b n, map ti_prevout a = map ti_prevout b -> (plain ty = true -> map ti_sequence a = map ti_sequence b) ->
  (forall k, n + N.of_nat k = i -> option_map ti_sequence (nth_error a k) = option_map ti_sequence (nth_error b k)) ->
  cat wire_txin (mapi (copy_input ty i code) n a) = cat wire_txin (mapi (copy_input ty i code) n b).
Proof.
  intros ty i code a. induction a as [|x a IH]; intros [|y b] n P Sq K; try easy. cbn [map mapi] in *. unfold cat. cbn [map concat]. f_equal.
  - unfold wire_txin, copy_input. cbn [ti_prevout ti_script ti_sequence]. f_equal; [congruence|]. f_equal. f_equal. destruct (N.eqb_spec n i) as [E|_]; cbn [orb].
    + assert (Q := K O). cbn [nth_error option_map] in Q. assert (Some (ti_sequence x) = Some (ti_sequence y)) by (apply Q; lia). congruence.
    + destruct (plain ty); [|reflexivity]. specialize (Sq eq_refl). congruence.
  - apply IH; [congruence|intro Q; specialize (Sq Q); congruence|]. intros k E. apply (K (S k)). lia.
Qed.
Lemma agree_nth : forall a b i, map ti_prevout a = map ti_prevout b -> i < lenN a -> i < lenN b.
Proof. intros a b i E L. apply (f_equal (@length _)) in E. rewrite !map_length in E. unfold lenN in *. lia. Qed.
Lemma legacy_agree_msg : forall ty i code a b, legacy_agree ty i a b -> legacy_msg ty i code a = legacy_msg ty i code b.
Proof.
  intros ty i code a b (V & L & Pi & Si & P & S & O & Oi). unfold legacy_msg. f_equal. unfold wire_legacy. cbn [legacy_copy tx_version tx_lock_time tx_inputs tx_outputs]. rewrite V, L. f_equal. f_equal; [|f_equal].
  - destruct (anyone ty) eqn:A.
    + unfold nthN in *. rewrite !mapi_nth. destruct (nth_error (tx_inputs a) (N.to_nat i)) as [x|], (nth_error (tx_inputs b) (N.to_nat i)) as [y|]; try easy.
      cbn [option_map] in *. rewrite !list1_cat. f_equal. unfold wire_txin, copy_input. cbn [ti_prevout ti_script ti_sequence].
      replace (0 + N.of_nat (N.to_nat i) =? i) with true by (symmetry; apply N.eqb_eq; lia). cbn [orb]. congruence.
    + unfold wire_list. rewrite !mapi_len. f_equal.
      * f_equal. specialize (P eq_refl). apply (f_equal (@length _)) in P. rewrite !map_length in P. unfold lenN. congruence.
      * apply copy_ignores; [auto|intro; auto|]. intros k E. unfold nthN in Si. replace (N.to_nat i) with k in Si by lia. exact Si.
  - destruct (N.eqb_spec (N.land ty 0x1f) 2) as [_|N2]; [reflexivity|]. destruct (N.eqb_spec (N.land ty 0x1f) 3) as [E3|N3].
    + now rewrite (Oi E3).
    + rewrite O; [reflexivity|]. unfold plain. destruct (N.eqb_spec (N.land ty 0x1f) 2); [easy|]. destruct (N.eqb_spec (N.land ty 0x1f) 3); easy.
Qed.
Lemma reads_agree : forall ty i a b, reads_as a b -> legacy_agree ty i a b.
Proof.
  intros ty i a b (V & L & O & P & S). unfold legacy_agree, nthN. rewrite <- !nth_error_map, P, S, O. repeat split; auto.
Qed.
Lemma put_witness_reads : forall ins i w, map ti_prevout (put_witness ins i w) = map ti_prevout ins /\ map ti_sequence (put_witness ins i w) = map ti_sequence ins.
Proof.
  induction ins as [|x ins IH]; intros i w; [destruct i; split; reflexivity|]. destruct i as [|i]; cbn [put_witness map]; [split; reflexivity|]. destruct (IH i w) as [-> ->]. split; reflexivity.
Qed.
Section Hash.
  Variable H : bytes -> bytes.
  Lemma put_good : forall tx ps c i w, good H tx ps c -> good H tx ps (cache_put_witness c i w).
  Proof.
    intros tx ps c i w ((V & L & O & P & S) & G). split; [|exact G]. unfold cache_put_witness. cbn [sc_tx]. unfold reads_as. cbn [tx_version tx_lock_time tx_outputs tx_inputs].
    edestruct put_witness_reads as [-> ->]. repeat split; assumption.
  Qed.
  (** * What each call answers on any cache that was filled from the same transaction *)
  Definition tap_answer (k : result tap_args tap_err) : result bytes tap_err := match k with Ok a => Ok (bip341_hash H a) | Err e => Err e end.
  Definition v0_answer (tx : transaction) (i : N) (code : bytes) (am : N) (ty : ecdsa_type) : result bytes (N * N) :=
    if lenN (tx_inputs tx) <=? i then Err (i, lenN (tx_inputs tx)) else Ok (double H (bip143_msg H {| va_ty := ecdsa_u32 ty; va_tx := tx; va_i := i; va_code := code; va_amount := am |})).
  Definition legacy_answer (tx : transaction) (i : N) (code : bytes) (ty : N) : result bytes (N * N) :=
    if lenN (tx_inputs tx) <=? i then Err (i, lenN (tx_inputs tx)) else Ok (if single_bug tx i ty then UINT256_ONE else double H (legacy_msg ty i code tx)).
  Lemma tap_hash_eq : forall tx ps c i p annex leaf ty, good H tx ps c -> same_spent tx ps (CTap i p annex leaf ty) ->
    exists c', good H tx ps c' /\ tap_hash H c i p annex leaf ty = (c', tap_answer (tap_outcome tx i p annex leaf ty)).
  Proof.
    intros tx ps c i p annex leaf ty G SS. unfold tap_hash. destruct (tap_run H tx ps i p annex leaf ty) with (c := c) as (c' & w & G' & -> & W); [destruct p; [exact I|exact SS]|exact G|].
    exists c'. split; [exact G'|]. destruct (tap_outcome tx i p annex leaf ty) as [a|e]; cbn [sig_msg_of tap_answer] in *; [now subst w|reflexivity].
  Qed.
  Lemma p2wsh_hash_eq : forall tx ps c i s am ty, good H tx ps c -> exists c', good H tx ps c' /\ p2wsh_hash H c i s am ty = (c', v0_answer tx i s am ty).
  Proof.
    intros tx ps c i s am ty G. unfold p2wsh_hash. destruct (segwit_run H tx ps i s am ty c G) as (c' & w & G' & -> & W). exists c'. split; [exact G'|].
    unfold v0_answer. destruct (lenN (tx_inputs tx) <=? i); [reflexivity|]. now subst w.
  Qed.
  Definition p2wpkh_answer (tx : transaction) (i : N) (spk : bytes) (am : N) (ty : ecdsa_type) : rust (result bytes (option (N * N))) :=
    rbind (p2wpkh_script_code spk) (fun code => Ret match code with None => Err None | Some code => match v0_answer tx i code am ty with Ok h => Ok h | Err e => Err (Some e) end end).
  Lemma p2wpkh_hash_eq : forall tx ps c i s am ty, good H tx ps c -> (exists code, p2wpkh_script_code s = Ret code) -> exists c' r, good H tx ps c' /\ p2wpkh_answer tx i s am ty = Ret r /\
    p2wpkh_hash H c i s am ty = Ret (c', r).
  Proof.
    intros tx ps c i s am ty G [code C]. unfold p2wpkh_hash, p2wpkh_answer. rewrite C. cbn [rbind]. destruct code as [code|]; [|exists c, (Err None); auto].
    destruct (segwit_run H tx ps i code am ty c G) as (c' & w & G' & -> & W). exists c'. unfold v0_answer. destruct (lenN (tx_inputs tx) <=? i); [eexists; split; [exact G'|]; split; reflexivity|].
    subst w. eexists. split; [exact G'|]. split; reflexivity.
  Qed.
  Lemma legacy_hash_eq : forall tx ps c i s ty, good H tx ps c -> legacy_hash H c i s ty = Ret (legacy_answer tx i s ty).
  Proof.
    intros tx ps c i s ty (R & _). unfold legacy_hash. rewrite legacy_encode_eq. cbn [rbind]. unfold legacy_answer, single_bug. rewrite (reads_len _ _ R).
    rewrite (legacy_agree_msg ty i s _ _ (reads_agree ty i _ _ R)). destruct R as (_ & _ & O & _). rewrite O. destruct (lenN (tx_inputs tx) <=? i); [reflexivity|]. now destruct (_ && _).
  Qed.
  Definition call_answer (tx : transaction) (k : call) : rust answer :=
    match k with
    | CTap i p an l ty => Ret (ATap (tap_answer (tap_outcome tx i p an l ty)))
    | CSegwit i s am ty => Ret (ASegwit (v0_answer tx i s am ty))
    | CP2wpkh i s am ty => rbind (p2wpkh_answer tx i s am ty) (fun r => Ret (AP2wpkh r))
    | CLegacy i s ty => Ret (ALegacy (legacy_answer tx i s ty))
    | CWitness _ _ => Ret AWitness
    end.
  Lemma do_call_eq : (forall s, exists code, p2wpkh_script_code s = Ret code) -> forall tx ps c k, good H tx ps c -> same_spent tx ps k -> exists c' a, good H tx ps c' /\ call_answer tx k = Ret a /\ do_call H c k = Ret (c', a).
  Proof.
    intros PT tx ps c k G SS. destruct k as [i p an l ty|i s am ty|i s am ty|i s ty|i w]; unfold do_call, call_answer.
    - destruct (tap_hash_eq tx ps c i p an l ty G SS) as (c' & G' & ->). eexists _, _. split; [exact G'|]. split; reflexivity.
    - destruct (p2wsh_hash_eq tx ps c i s am ty G) as (c' & G' & ->). eexists _, _. split; [exact G'|]. split; reflexivity.
    - destruct (p2wpkh_hash_eq tx ps c i s am ty G (PT s)) as (c' & r & G' & -> & ->). eexists _, _. split; [exact G'|]. split; reflexivity.
    - rewrite (legacy_hash_eq tx ps) by exact G. eexists _, _. split; [exact G|]. split; reflexivity.
    - eexists _, _. split; [|split; reflexivity]. now apply put_good.
  Qed.
  Fixpoint call_answers (tx : transaction) (ks : list call) : rust (list answer) :=
    match ks with [] => Ret [] | k :: ks => rbind (call_answer tx k) (fun a => rbind (call_answers tx ks) (fun l => Ret (a :: l))) end.
  Lemma do_calls_eq : (forall s, exists code, p2wpkh_script_code s = Ret code) -> forall tx ps ks c, good H tx ps c -> Forall (same_spent tx ps) ks -> exists c' l, good H tx ps c' /\ call_answers tx ks = Ret l /\ do_calls H c ks = Ret (c', l).
  Proof.
    intros PT tx ps ks. induction ks as [|k ks IH]; intros c G F; [exists c, []; auto|]. inversion F; subst. destruct (do_call_eq PT tx ps c k G) as (c1 & a & G1 & A & D); [assumption|].
    destruct (IH c1 G1) as (c2 & l & G2 & L & DL); [assumption|]. exists c2, (a :: l). split; [exact G2|]. cbn [call_answers do_calls]. rewrite A, L, D. cbn [rbind]. rewrite DL. split; reflexivity.
  Qed.
  (** * A filled taproot cache is used whatever spent outputs are given *)
  Definition fills {E} (s : step E) : Prop := forall c c' w, s c = (c', w, Ok tt) -> sc_taproot c' <> None.
  Definition keeps {E} (s : step E) : Prop := forall c c' w r, sc_taproot c <> None -> s c = (c', w, r) -> sc_taproot c' <> None.
  Definition same {E} (s s' : step E) : Prop := forall c, sc_taproot c <> None -> s c = s' c.
  Lemma fills_l : forall E (a b : step E), fills a -> keeps b -> fills (then_ a b).
  Proof.
    intros E a b F K c c' w. unfold then_. destruct (a c) as [[c1 w1] [[]|e]] eqn:A; [|discriminate]. destruct (b c1) as [[c2 w2] r2] eqn:B. intro Q. assert (c2 = c') as <- by congruence. eapply K; [eapply F; eauto|eauto].
  Qed.
  Lemma fills_r : forall E (a b : step E), fills b -> fills (then_ a b).
  Proof.
    intros E a b F c c' w. unfold then_. destruct (a c) as [[c1 w1] [[]|e]] eqn:A; [|discriminate]. destruct (b c1) as [[c2 w2] r2] eqn:B. intro Q. assert (c2 = c') as <- by congruence. assert (r2 = Ok tt) as -> by congruence. eapply F; eauto.
  Qed.
  Lemma keeps_then : forall E (a b : step E), keeps a -> keeps b -> keeps (then_ a b).
  Proof.
    intros E a b KA KB c c' w r N. unfold then_. destruct (a c) as [[c1 w1] [[]|e]] eqn:A; [|intro Q; assert (c1 = c') as <- by congruence; eapply KA; eauto].
    destruct (b c1) as [[c2 w2] r2] eqn:B. intro Q. assert (c2 = c') as <- by congruence. eapply KB; [eapply KA; eauto|eauto].
  Qed.
  Lemma same_then : forall E (a a' b b' : step E), same a a' -> keeps a -> same b b' -> same (then_ a b) (then_ a' b').
  Proof.
    intros E a a' b b' SA KA SB c N. unfold then_. rewrite <- (SA c N). destruct (a c) as [[c1 w1] [[]|e]] eqn:A; [|reflexivity]. rewrite <- (SB c1); [reflexivity|]. eapply KA; eauto.
  Qed.
  Lemma same_refl : forall E (a : step E), same a a. Proof. intros E a c _. reflexivity. Qed.
  Lemma keeps_write : forall E w, keeps (@write E w). Proof. intros E w c c' w' r N Q. unfold write in Q. congruence. Qed.
  Lemma keeps_fail : forall E e, keeps (@fail E e). Proof. intros E w c c' w' r N Q. unfold fail in Q. congruence. Qed.
  Lemma keeps_common : forall E f, keeps (@write_common H E f).
  Proof. intros E f c c' w r N Q. unfold write_common, get_common in Q. destruct (sc_common c); [congruence|]. assert (c' = mk_cache (sc_tx c) (Some (compute_common H (sc_tx c))) (sc_segwit c) (sc_taproot c)) as -> by congruence. exact N. Qed.
  Lemma keeps_taproot : forall p f, keeps (write_taproot H p f).
  Proof. intros p f c c' w r N Q. unfold write_taproot in Q. destruct (get_all p) as [os|]; [|congruence]. unfold get_taproot in Q. destruct (sc_taproot c) eqn:T; [|easy]. assert (c' = c) as -> by congruence. congruence. Qed.
  Lemma fills_taproot : forall p f, fills (write_taproot H p f).
  Proof.
    intros p f c c' w Q. unfold write_taproot in Q. destruct (get_all p) as [os|]; [|congruence]. unfold get_taproot in Q. destruct (sc_taproot c) eqn:T; [assert (c' = c) as -> by congruence; congruence|]. intro E.
    apply (f_equal (fun x => sc_taproot (fst (fst x)))) in Q. cbn [fst sc_taproot] in Q. congruence.
  Qed.
  Lemma same_taproot : forall ps ps' f, same (write_taproot H (PAll ps) f) (write_taproot H (PAll ps') f).
  Proof. intros ps ps' f c N. unfold write_taproot. cbn [get_all]. unfold get_taproot. destruct (sc_taproot c); [reflexivity|easy]. Qed.
  Ltac keep := repeat first [apply keeps_write | apply keeps_fail | apply keeps_common | apply keeps_taproot | apply keeps_then
    | match goal with |- keeps (match ?x with _ => _ end) => destruct x end].
  Lemma tap_fills : forall tx i os annex leaf ty c c' w, anyone (tap_u8 ty) = false -> sc_tx c = tx -> tap_encode H i (PAll os) annex leaf ty c = (c', w, Ok tt) -> sc_taproot c' <> None.
  Proof.
    intros tx i os annex leaf ty c c' w NA T. unfold tap_encode. cbv zeta. destruct (negb (check_all (PAll os) (sc_tx c))); [discriminate|]. generalize (sc_tx c). intro t.
    assert (S2 : snd (tap_split ty) = false) by (destruct ty; (reflexivity || discriminate NA)). destruct (tap_split ty) as [sh acp]. cbn [snd] in S2. subst acp. cbn [negb].
    intro Q. revert c c' w T Q. enough (F : fills (then_ (write ([0] ++ [tap_u8 ty] ++ le_bytes 4 (tx_version t) ++ le_bytes 4 (tx_lock_time t)))
      (then_ (then_ (write_common H cm_prevouts) (then_ (write_taproot H (PAll os) tp_amounts) (then_ (write_taproot H (PAll os) tp_scripts) (write_common H cm_sequences))))
      (then_ (if negb (tap_single_or_none sh) then write_common H cm_outputs else skip)
      (then_ (write [N.lor (match annex with Some _ => 1 | None => 0 end) (match leaf with Some _ => 2 | None => 0 end)])
      (then_ (write (le_bytes 4 (i mod 2 ^ 32)))
      (then_ (match annex with Some a => write (H (cs_encode (lenN a) ++ a)) | None => skip end)
      (then_ (match sh with
           | TSingle => match getN (tx_outputs t) i with Some o => write (H (txout_encode o)) | None => fail (ESingleMissing i (lenN (tx_outputs t))) end
           | _ => skip
           end)
          (match leaf with Some (h, pos) => write (h ++ [0] ++ le_bytes 4 pos) | None => skip end))))))))) by (intros c c' w _ Q; eapply F; exact Q).
    apply fills_r. apply fills_l; [apply fills_r, fills_l; [apply fills_taproot|keep]|keep].
  Qed.
  Lemma tap_same : forall i ps ps' annex leaf ty c, anyone (tap_u8 ty) = false -> lenN ps = lenN ps' -> sc_taproot c <> None -> tap_encode H i (PAll ps) annex leaf ty c = tap_encode H i (PAll ps') annex leaf ty c.
  Proof.
    intros i ps ps' annex leaf ty c NA LE N. unfold tap_encode. cbv zeta. unfold check_all. rewrite LE. destruct (negb _); [reflexivity|].
    assert (S2 : snd (tap_split ty) = false) by (destruct ty; (reflexivity || discriminate NA)). destruct (tap_split ty) as [sh acp]. cbn [snd] in S2. subst acp. cbn [negb].
    match goal with |- ?s c = ?s' c => enough (Q : same s s') by exact (Q c N) end. apply same_then; [apply same_refl|keep|]. apply same_then; [|keep|apply same_refl].
    apply same_then; [apply same_refl|keep|]. apply same_then; [apply same_taproot|keep|]. apply same_then; [apply same_taproot|keep|apply same_refl].
  Qed.
End Hash.
