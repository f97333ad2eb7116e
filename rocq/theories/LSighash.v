(** Lemmas: the sighash encoders and their caches. *)
From Verif Require Import Base MDec LDec MWitness MTx SWire LWire MScript MText LHash2 MSighash SSighash.
Local Open Scope N_scope.

Lemma getN_nthN : forall A (l : list A) i, getN l i = nthN l i.
Proof.
  intros A l i. unfold getN, nthN. destruct (N.ltb_spec i (lenN l)) as [L|G]; [reflexivity|]. symmetry. apply nth_error_None. unfold lenN in G. lia.
Qed.
Lemma nthN_some : forall A (l : list A) i, i < lenN l -> exists x, nthN l i = Some x.
Proof.
  intros A l i L. unfold nthN. destruct (nth_error l (N.to_nat i)) as [x|] eqn:E; [eauto|]. apply nth_error_None in E. unfold lenN in L. lia.
Qed.
Lemma nthN_none : forall A (l : list A) i, lenN l <= i -> nthN l i = None.
Proof. intros A l i L. unfold nthN. apply nth_error_None. unfold lenN in L. lia. Qed.
Lemma nthN_map : forall A B (f : A -> B) l i, nthN (map f l) i = option_map f (nthN l i).
Proof. intros. unfold nthN. apply nth_error_map. Qed.
Lemma cat_flat : forall A (f g : A -> bytes) l, (forall x, f x = g x) -> flat_map f l = cat g l.
Proof. intros A f g l E. unfold cat. rewrite flat_map_concat_map. f_equal. apply map_ext. exact E. Qed.
Lemma le_bytes_mod : forall i, le_bytes 4 (i mod 2 ^ 32) = le_bytes 4 i.
Proof.
  intro i. rewrite <- (N.mod_small (i mod 2 ^ 32) (256 ^ N.of_nat 4)) by (apply N.mod_lt; discriminate).
  assert (G : forall n v, le_bytes n (v mod 256 ^ N.of_nat n) = le_bytes n v).
  { clear. induction n as [|n IH]; intro v; [reflexivity|]. cbn [le_bytes]. replace (256 ^ N.of_nat (S n)) with (256 * 256 ^ N.of_nat n) by (rewrite Nat2N.inj_succ, N.pow_succ_r'; reflexivity).
    assert (NZ : 256 ^ N.of_nat n <> 0) by (apply N.pow_nonzero; discriminate).
    rewrite N.mod_mul_r by first [discriminate|exact NZ]. f_equal.
    - rewrite N.add_mod by discriminate. rewrite N.mul_comm, N.mod_mul by discriminate. rewrite N.add_0_r, !N.mod_mod by discriminate. reflexivity.
    - rewrite (N.add_comm (v mod 256)), (N.mul_comm 256), N.div_add_l by discriminate. rewrite (N.div_small (v mod 256)) by (apply N.mod_lt; discriminate). rewrite N.add_0_r. apply IH. }
  rewrite G. exact (G 4%nat i).
Qed.

(** * Caches *)
Section Hash.
  Variable H : bytes -> bytes.
  Definition reads_as (a b : transaction) : Prop :=
    tx_version a = tx_version b /\ tx_lock_time a = tx_lock_time b /\ tx_outputs a = tx_outputs b /\
    map ti_prevout (tx_inputs a) = map ti_prevout (tx_inputs b) /\ map ti_sequence (tx_inputs a) = map ti_sequence (tx_inputs b).
  Lemma reads_refl : forall a, reads_as a a. Proof. repeat split. Qed.
  Lemma reads_sym : forall a b, reads_as a b -> reads_as b a. Proof. intros a b (A & B & C & D & E). repeat split; congruence. Qed.
  Lemma reads_len : forall a b, reads_as a b -> lenN (tx_inputs a) = lenN (tx_inputs b).
  Proof. intros a b (_ & _ & _ & D & _). apply (f_equal (@length _)) in D. rewrite !map_length in D. unfold lenN. congruence. Qed.
  Definition tap_cache_of (os : list txout) : taproot_cache :=
    mk_taproot (H (flat_map (fun o => le_bytes 8 (to_amount o)) os)) (H (flat_map (fun o => script_encode (to_script o)) os)).
  Definition segwit_of (cc : common_cache) : segwit_cache := mk_segwit (H (cm_prevouts cc)) (H (cm_sequences cc)) (H (cm_outputs cc)).
  Definition good (tx : transaction) (ps : list txout) (c : cache) : Prop :=
    reads_as (sc_tx c) tx /\ (sc_common c = None \/ sc_common c = Some (compute_common H tx)) /\
    (sc_segwit c = None \/ sc_segwit c = Some (segwit_of (compute_common H tx))) /\ (sc_taproot c = None \/ sc_taproot c = Some (tap_cache_of ps)).
  Lemma new_good : forall tx ps, good tx ps (cache_new tx). Proof. intros. split; [apply reads_refl|]. repeat split; now left. Qed.
  Lemma flat_map_via : forall A B (f : A -> B) (g : B -> bytes) l, flat_map (fun x => g (f x)) l = flat_map g (map f l).
  Proof. intros. induction l as [|x l IH]; [reflexivity|]. cbn [map flat_map]. now rewrite IH. Qed.
  Lemma common_reads : forall a b, reads_as a b -> compute_common H a = compute_common H b.
  Proof.
    intros a b (V & L & O & P & S). unfold compute_common. rewrite O. f_equal; f_equal.
    - rewrite !(flat_map_via _ _ ti_prevout outpoint_encode). now rewrite P.
    - rewrite !(flat_map_via _ _ ti_sequence (le_bytes 4)). now rewrite S.
  Qed.
  Lemma get_common_good : forall tx ps c, good tx ps c -> exists c', get_common H c = (c', compute_common H tx) /\ good tx ps c' /\ sc_common c' = Some (compute_common H tx).
  Proof.
    intros tx ps c (R & C & S & T). unfold get_common. destruct C as [C|C]; rewrite C.
    - rewrite (common_reads _ _ R). eexists. split; [reflexivity|]. split; [|reflexivity]. split; [exact R|]. split; [now right|]. split; [exact S|exact T].
    - exists c. split; [reflexivity|]. split; [|exact C]. repeat split; auto; apply R.
  Qed.
  Lemma get_segwit_good : forall tx ps c, good tx ps c -> exists c', get_segwit H c = (c', segwit_of (compute_common H tx)) /\ good tx ps c'.
  Proof.
    intros tx ps c G. unfold get_segwit. destruct G as (R & C & S & T). destruct S as [S|S]; rewrite S.
    - destruct (get_common_good tx ps c) as (c1 & E1 & G1 & C1); [split; auto|]. rewrite E1. eexists. split; [reflexivity|]. destruct G1 as (R1 & D1 & S1 & T1). split; [exact R1|]. split; [exact D1|]. split; [now right|exact T1].
    - exists c. split; [reflexivity|]. repeat split; auto; apply R.
  Qed.
  Lemma get_taproot_good : forall tx ps c, good tx ps c -> exists c', get_taproot H c ps = (c', tap_cache_of ps) /\ good tx ps c'.
  Proof.
    intros tx ps c (R & C & S & T). unfold get_taproot. destruct T as [T|T]; rewrite T.
    - eexists. split; [reflexivity|]. split; [exact R|]. split; [exact C|]. split; [exact S|now right].
    - exists c. split; [reflexivity|]. repeat split; auto; apply R.
  Qed.
  (** [s] gives [q] from every good cache and leaves a good cache *)
  Definition runs {E} (tx : transaction) (ps : list txout) (s : step E) (q : result bytes E) : Prop := forall c, good tx ps c ->
    exists c' w, good tx ps c' /\ s c = (c', w, match q with Ok _ => Ok tt | Err e => Err e end) /\ match q with Ok w' => w = w' | Err _ => True end.
  Lemma runs_write : forall E tx ps w, runs tx ps (@write E w) (Ok w).
  Proof. intros E tx ps w c G. exists c, w. split; [exact G|]. split; reflexivity. Qed.
  Lemma runs_skip : forall E tx ps, runs tx ps (@skip E) (Ok []). Proof. intros. apply runs_write. Qed.
  Lemma runs_fail : forall E tx ps (e : E), runs tx ps (fail e) (Err e).
  Proof. intros E tx ps e c G. exists c, []. split; [exact G|]. split; [reflexivity|exact I]. Qed.
  Lemma runs_common : forall E tx ps f, runs tx ps (@write_common H E f) (Ok (f (compute_common H tx))).
  Proof. intros E tx ps f c G. destruct (get_common_good tx ps c G) as (c1 & E1 & G1 & _). unfold write_common. rewrite E1. exists c1, (f (compute_common H tx)). auto. Qed.
  Lemma runs_segwit : forall E tx ps f, runs tx ps (@write_segwit H E f) (Ok (f (segwit_of (compute_common H tx)))).
  Proof. intros E tx ps f c G. destruct (get_segwit_good tx ps c G) as (c1 & E1 & G1). unfold write_segwit. rewrite E1. exists c1, (f (segwit_of (compute_common H tx))). auto. Qed.
  Lemma runs_taproot : forall tx ps f, runs tx ps (write_taproot H (PAll ps) f) (Ok (f (tap_cache_of ps))).
  Proof. intros tx ps f c G. destruct (get_taproot_good tx ps c G) as (c1 & E1 & G1). unfold write_taproot, get_all. rewrite E1. exists c1, (f (tap_cache_of ps)). auto. Qed.
  Lemma runs_kind : forall tx ps i o f, runs tx ps (write_taproot H (POne i o) f) (Err EPrevoutsKind).
  Proof. intros tx ps i o f c G. exists c, []. split; [exact G|]. split; [reflexivity|exact I]. Qed.
  Definition rseq {E} (q1 q2 : result bytes E) : result bytes E := match q1 with Err e => Err e | Ok w1 => match q2 with Err e => Err e | Ok w2 => Ok (w1 ++ w2) end end.
  Lemma runs_then : forall E tx ps (a b : step E) q1 q2, runs tx ps a q1 -> runs tx ps b q2 -> runs tx ps (then_ a b) (rseq q1 q2).
  Proof.
    intros E tx ps a b q1 q2 A B c G. destruct (A c G) as (c1 & w1 & G1 & E1 & Q1). unfold then_. rewrite E1. destruct q1 as [w|e]; cbn [rseq]; [|exists c1, w1; auto].
    destruct (B c1 G1) as (c2 & w2 & G2 & E2 & Q2). rewrite E2. exists c2, (w1 ++ w2).
    split; [exact G2|]. destruct q2 as [w'|e]; split; auto. now rewrite Q1, Q2.
  Qed.
  Lemma runs_then_err : forall E tx ps (a b : step E) e, runs tx ps a (Err e) -> runs tx ps (then_ a b) (Err e).
  Proof. intros E tx ps a b e A c G. destruct (A c G) as (c1 & w1 & G1 & E1 & _). unfold then_. rewrite E1. exists c1, w1. auto. Qed.
  Lemma runs_eq : forall E tx ps (s : step E) q q', runs tx ps s q -> q = q' -> runs tx ps s q'. Proof. intros. now subst. Qed.
  Lemma tap_bits : forall ty, let '(sh, acp) := tap_split ty in
    anyone (tap_u8 ty) = acp /\ ((N.land (tap_u8 ty) 3 =? 2) || (N.land (tap_u8 ty) 3 =? 3)) = tap_single_or_none sh /\ (N.land (tap_u8 ty) 3 =? 3) = match sh with TSingle => true | _ => false end.
  Proof. destruct ty; repeat split. Qed.
  Lemma tap_tx_in_reads : forall t tx i, reads_as t tx ->
    (lenN (tx_inputs tx) <= i -> tap_tx_in t i = Err (EInputsIndex i (lenN (tx_inputs tx))) /\ tx_in t i = Err (i, lenN (tx_inputs tx))) /\
    (i < lenN (tx_inputs tx) -> exists x y, tap_tx_in t i = Ok x /\ tx_in t i = Ok x /\ nthN (tx_inputs tx) i = Some y /\ ti_prevout x = ti_prevout y /\ ti_sequence x = ti_sequence y).
  Proof.
    intros t tx i R. pose proof (reads_len _ _ R) as RL. destruct R as (_ & _ & _ & P & S). unfold tap_tx_in, tx_in. rewrite getN_nthN. split; intro L.
    - rewrite nthN_none by lia. rewrite RL. split; reflexivity.
    - destruct (nthN_some _ (tx_inputs t) i ltac:(lia)) as [x X]. destruct (nthN_some _ (tx_inputs tx) i L) as [y Y]. rewrite X. exists x, y. repeat split; auto.
      + apply (f_equal (fun l => nthN l i)) in P. rewrite !nthN_map, X, Y in P. now injection P.
      + apply (f_equal (fun l => nthN l i)) in S. rewrite !nthN_map, X, Y in S. now injection S.
  Qed.
  Lemma spend_byte : forall (annex : option bytes) (leaf : option (bytes * N)),
    N.lor (match annex with Some _ => 1 | None => 0 end) (match leaf with Some _ => 2 | None => 0 end) =
    2 * (match leaf with Some _ => 1 | None => 0 end) + (match annex with Some _ => 1 | None => 0 end).
  Proof. intros [a|] [l|]; reflexivity. Qed.
  Lemma cat1 : forall A (f : A -> bytes) x, cat f [x] = f x. Proof. intros. unfold cat. cbn [map concat]. apply app_nil_r. Qed.
  Lemma common_spec : forall tx, compute_common H tx =
    mk_common (H (cat (fun i => wire_outpoint (ti_prevout i)) (tx_inputs tx))) (H (cat (fun i => le_bytes 4 (ti_sequence i)) (tx_inputs tx))) (H (cat wire_txout (tx_outputs tx))).
  Proof.
    intro tx. unfold compute_common. f_equal; f_equal; apply cat_flat; [reflexivity|reflexivity|apply wire_txout_eq].
  Qed.
  Lemma tap_cache_spec : forall os, tap_cache_of os = mk_taproot (H (cat (fun o => le_bytes 8 (to_amount o)) os)) (H (cat (fun o => wire_bytes (to_script o)) os)).
  Proof. intro os. unfold tap_cache_of. f_equal; f_equal; apply cat_flat; [reflexivity|intro; apply wire_bytes_eq]. Qed.
  Definition sig_msg_of (r : result tap_args tap_err) : result bytes tap_err := match r with Ok a => Ok (0 :: sig_msg H a) | Err e => Err e end.
  Lemma tap_run : forall tx ps i p annex leaf ty, match p with PAll os => anyone (tap_u8 ty) = true \/ lenN os <> lenN (tx_inputs tx) \/ os = ps | POne _ _ => True end ->
    runs tx ps (tap_encode H i p annex leaf ty) (sig_msg_of (tap_outcome tx i p annex leaf ty)).
  Proof.
    intros tx ps i p annex leaf ty CONS c G. pose proof G as (R & _). unfold tap_encode.
    pose proof (reads_len _ _ R) as RL. destruct (tap_tx_in_reads _ _ i R) as [TIN TIS]. destruct R as (V & L & O & _). cbv zeta. rewrite V, L, O.
    unfold check_all. rewrite RL. unfold tap_outcome. cbv zeta. pose proof (tap_bits ty) as TB. destruct (tap_split ty) as [sh acp]. destruct TB as (B1 & B2 & B3). rewrite B1, B3 in *.
    (* the parts after the inputs, and the whole message *)
    assert (OUTS : runs tx ps (if negb (tap_single_or_none sh) then write_common H cm_outputs else skip) (Ok (if tap_single_or_none sh then [] else cm_outputs (compute_common H tx))))
      by (destruct (tap_single_or_none sh); [apply runs_skip|apply (runs_common tap_err)]).
    assert (ANX : runs tx ps (match annex with Some a => write (H (cs_encode (lenN a) ++ a)) | None => skip end) (@Ok _ tap_err (match annex with Some a => H (wire_bytes a) | None => [] end))).
    { destruct annex as [a|]; [|apply runs_skip]. rewrite <- wire_bytes_eq. apply runs_write. }
    assert (LEAF : runs tx ps (match leaf with Some (h, pos) => write (h ++ [0] ++ le_bytes 4 pos) | None => skip end) (@Ok _ tap_err (match leaf with Some (h, pos) => h ++ [0] ++ le_bytes 4 pos | None => [] end)))
      by (destruct leaf as [[h pos]|]; [apply runs_write|apply runs_skip]).
    set (single := match sh with TSingle => true | _ => false end) in *.
    assert (SINGLE : runs tx ps (match sh with
           | TSingle => match getN (tx_outputs tx) i with Some o => write (H (txout_encode o)) | None => fail (ESingleMissing i (lenN (tx_outputs tx))) end
           | _ => skip
           end) (if single && (lenN (tx_outputs tx) <=? i) then Err (ESingleMissing i (lenN (tx_outputs tx))) else Ok (if single then match nthN (tx_outputs tx) i with Some o => H (wire_txout o) | None => [] end else []))).
    { unfold single. destruct sh; try apply runs_skip. cbn [andb]. rewrite getN_nthN. destruct (N.leb_spec (lenN (tx_outputs tx)) i) as [GE|LT].
      - rewrite nthN_none by lia. apply runs_fail.
      - destruct (nthN_some _ _ _ LT) as [o OE]. rewrite OE, <- wire_txout_eq. apply runs_write. }
    set (all os := H (cat (fun i => wire_outpoint (ti_prevout i)) (tx_inputs tx)) ++ H (cat (fun o => le_bytes 8 (to_amount o)) os) ++
      H (cat (fun o => wire_bytes (to_script o)) os) ++ H (cat (fun i => le_bytes 4 (ti_sequence i)) (tx_inputs tx))).
    assert (IN1 : match p with PAll os => lenN os = lenN (tx_inputs tx) | POne _ _ => True end -> runs tx ps (if negb acp then
             then_ (write_common H cm_prevouts) (then_ (write_taproot H p tp_amounts) (then_ (write_taproot H p tp_scripts) (write_common H cm_sequences)))
           else skip) (if acp then Ok [] else match p with POne _ _ => Err EPrevoutsKind | PAll os => Ok (all os) end)).
    { intro SZ. destruct acp; cbn [negb]; [apply runs_skip|]. destruct p as [j o|os].
      - eapply runs_eq; [eapply runs_then; [apply runs_common|eapply runs_then_err, runs_kind]|reflexivity].
      - assert (os = ps) as -> by (destruct CONS as [C|[C|C]]; [congruence|congruence|exact C]).
        eapply runs_eq; [eapply runs_then; [apply runs_common|eapply runs_then; [apply runs_taproot|eapply runs_then; [apply runs_taproot|apply runs_common]]]|].
        unfold rseq. rewrite common_spec, tap_cache_spec. reflexivity. }
    set (one x (o : txout) := wire_outpoint (ti_prevout x) ++ le_bytes 8 (to_amount o) ++ wire_bytes (to_script o) ++ le_bytes 4 (ti_sequence x)).
    assert (IN2 : match p with PAll os => lenN os = lenN (tx_inputs tx) | POne _ _ => True end -> runs tx ps (if acp then
             match tap_tx_in (sc_tx c) i with Err e => fail e | Ok txin =>
             match prevouts_get p i with Err e => fail e | Ok o =>
               write (outpoint_encode (ti_prevout txin) ++ le_bytes 8 (to_amount o) ++ script_encode (to_script o) ++ le_bytes 4 (ti_sequence txin))
             end end
           else write (le_bytes 4 (i mod 2 ^ 32)))
      (if acp then match nthN (tx_inputs tx) i with None => Err (EInputsIndex i (lenN (tx_inputs tx))) | Some x =>
         match p with POne j o => if i =? j then Ok (one x o) else Err EOneIndex | PAll os => Ok (one x (match nthN os i with Some o => o | None => blank end)) end end
       else Ok (le_bytes 4 i))).
    { intro SZ. destruct acp; [|rewrite le_bytes_mod; apply runs_write]. destruct (N.lt_ge_cases i (lenN (tx_inputs tx))) as [LT|GE].
      - destruct (TIS LT) as (x & y & -> & _ & -> & PX & SX). unfold prevouts_get. destruct p as [j o|os].
        + destruct (i =? j); [|apply runs_fail]. unfold one. rewrite wire_bytes_eq, PX, SX. apply runs_write.
        + rewrite getN_nthN. destruct (nthN_some _ os i ltac:(lia)) as [o ->]. unfold one. rewrite wire_bytes_eq, PX, SX. apply runs_write.
      - rewrite (nthN_none _ (tx_inputs tx) i) by lia. destruct (TIN GE) as [-> _]. apply runs_fail. }
    assert (SZD : match p with PAll os => lenN os = lenN (tx_inputs tx) | POne _ _ => True end \/ match p with PAll os => lenN os <> lenN (tx_inputs tx) | POne _ _ => False end)
      by (destruct p as [j o|os]; [now left|destruct (N.eq_dec (lenN os) (lenN (tx_inputs tx))); [now left|now right]]).
    destruct SZD as [SZ|SZ].
    2: { destruct p as [j o|os]; [easy|]. apply N.eqb_neq in SZ. rewrite SZ. cbn [negb sig_msg_of]. exists c, []. auto. }
    specialize (IN1 SZ). specialize (IN2 SZ).
    assert (CK : (match p with PAll os => lenN os =? lenN (tx_inputs tx) | POne _ _ => true end) = true) by (destruct p; [reflexivity|now apply N.eqb_eq]).
    rewrite CK. cbn [negb].
    assert (RUN := runs_then _ _ _ _ _ _ _ (runs_write _ tx ps ([0] ++ [tap_u8 ty] ++ le_bytes 4 (tx_version tx) ++ le_bytes 4 (tx_lock_time tx)))
      (runs_then _ _ _ _ _ _ _ IN1 (runs_then _ _ _ _ _ _ _ OUTS (runs_then _ _ _ _ _ _ _ (runs_write _ tx ps
        [N.lor (match annex with Some _ => 1 | None => 0 end) (match leaf with Some _ => 2 | None => 0 end)])
      (runs_then _ _ _ _ _ _ _ IN2 (runs_then _ _ _ _ _ _ _ ANX (runs_then _ _ _ _ _ _ _ SINGLE LEAF))))))).
    refine (runs_eq _ _ _ _ _ _ RUN _ c G). clear RUN IN1 IN2 SINGLE LEAF ANX OUTS TIN TIS G. rewrite spend_byte, common_spec. cbn [cm_outputs]. unfold sig_msg_of.
    assert (MSG : forall spent prev, single && (lenN (tx_outputs tx) <=? i) = false ->
      0 :: sig_msg H {| ta_ty := tap_u8 ty; ta_tx := tx; ta_i := i; ta_spent := spent; ta_prev := prev; ta_annex := annex; ta_leaf := leaf |} =
      ([0] ++ [tap_u8 ty] ++ le_bytes 4 (tx_version tx) ++ le_bytes 4 (tx_lock_time tx)) ++ (if acp then [] else all spent) ++ (if tap_single_or_none sh then [] else H (cat wire_txout (tx_outputs tx))) ++
      [2 * (match leaf with Some _ => 1 | None => 0 end) + (match annex with Some _ => 1 | None => 0 end)] ++
      (if acp then match nthN (tx_inputs tx) i with Some x => one x prev | None => [] end else le_bytes 4 i) ++ (match annex with Some a => H (wire_bytes a) | None => [] end) ++
      (if single then match nthN (tx_outputs tx) i with Some o => H (wire_txout o) | None => [] end else []) ++ match leaf with Some (h, pos) => h ++ [0] ++ le_bytes 4 pos | None => [] end).
    { intros spent prev NS. unfold sig_msg, bip341_hashed, bip341_hashed2, at_input, at_output. cbn [ta_ty ta_tx ta_i ta_spent ta_prev ta_annex ta_leaf fst snd]. rewrite B1, B3, B2. unfold cat at 1. rewrite map_app, concat_app.
      assert (A1 : concat (map H (if acp then [] else [cat (fun i => wire_outpoint (ti_prevout i)) (tx_inputs tx); cat (fun o => le_bytes 8 (to_amount o)) spent; cat (fun o => wire_bytes (to_script o)) spent; cat (fun i => le_bytes 4 (ti_sequence i)) (tx_inputs tx)])) = if acp then [] else all spent)
        by (destruct acp; [reflexivity|]; unfold all; cbn [map concat]; now rewrite app_nil_r).
      assert (A2 : concat (map H (if tap_single_or_none sh then [] else [cat wire_txout (tx_outputs tx)])) = if tap_single_or_none sh then [] else H (cat wire_txout (tx_outputs tx)))
        by (destruct (tap_single_or_none sh); [reflexivity|]; cbn [map concat]; now rewrite app_nil_r).
      rewrite A1, A2. assert (A3 : cat H match annex with Some x => [wire_bytes x] | None => [] end = match annex with Some a => H (wire_bytes a) | None => [] end) by (destruct annex; [apply cat1|reflexivity]).
      assert (A4 : cat H (if single then match nthN (tx_outputs tx) i with Some x => [wire_txout x] | None => [] end else []) = if single then match nthN (tx_outputs tx) i with Some o => H (wire_txout o) | None => [] end else [])
        by (destruct single; [|reflexivity]; destruct (nthN (tx_outputs tx) i); [apply cat1|reflexivity]).
      rewrite A3, A4. cbn [app]. rewrite <- !app_assoc. reflexivity. }
    destruct p as [j o|os].
    - destruct acp; cbn [negb rseq andb]; [|reflexivity]. destruct (N.leb_spec (lenN (tx_inputs tx)) i) as [GE|LT]; [rewrite nthN_none by lia; reflexivity|].
      destruct (nthN_some _ _ _ LT) as [x X]. rewrite X in *. destruct (i =? j); [|reflexivity].
      destruct (single && (lenN (tx_outputs tx) <=? i)); [reflexivity|]. rewrite MSG by reflexivity. reflexivity.
    - apply N.eqb_eq in CK. destruct (N.eqb_spec (lenN os) (lenN (tx_inputs tx))) as [_|]; [|congruence]. cbn [negb]. destruct acp; cbn [rseq andb].
      + destruct (N.leb_spec (lenN (tx_inputs tx)) i) as [GE|LT]; [rewrite nthN_none by lia; reflexivity|].
        destruct (nthN_some _ _ _ LT) as [x X]. rewrite X in *. destruct (single && (lenN (tx_outputs tx) <=? i)); [reflexivity|]. rewrite MSG by reflexivity. reflexivity.
      + destruct (single && (lenN (tx_outputs tx) <=? i)); [reflexivity|]. rewrite MSG by reflexivity. reflexivity.
  Qed.

  (** * Segwit v0 *)
  Lemma ecdsa_bits : forall ty, let '(sh, acp) := ecdsa_split ty in
    anyone (ecdsa_u32 ty) = acp /\ plain (ecdsa_u32 ty) = negb (ecdsa_single_or_none sh) /\ (N.land (ecdsa_u32 ty) 0x1f =? 3) = is_single sh.
  Proof. destruct ty; repeat split. Qed.
  Lemma segwit_run : forall tx ps i code amount ty,
    runs tx ps (segwit_encode H i code amount ty) (if lenN (tx_inputs tx) <=? i then Err (i, lenN (tx_inputs tx))
      else Ok (bip143_msg H {| va_ty := ecdsa_u32 ty; va_tx := tx; va_i := i; va_code := code; va_amount := amount |})).
  Proof.
    intros tx ps i code amount ty c G. pose proof G as (R & _). unfold segwit_encode.
    destruct (tap_tx_in_reads _ _ i R) as [TIN TIS]. destruct R as (V & L & O & _). cbv zeta. rewrite V, L, O.
    pose proof (ecdsa_bits ty) as TB. destruct (ecdsa_split ty) as [sh acp]. destruct TB as (B1 & B2 & B3).
    assert (P1 : runs tx ps (if negb acp then @write_segwit H (N * N) sg_prevouts else write zero_hash) (Ok (if acp then zero_hash else H (cm_prevouts (compute_common H tx)))))
      by (destruct acp; [apply runs_write|apply runs_segwit]).
    assert (P2 : runs tx ps (if negb acp && negb (ecdsa_single_or_none sh) then @write_segwit H (N * N) sg_sequences else write zero_hash)
      (Ok (if negb acp && negb (ecdsa_single_or_none sh) then H (cm_sequences (compute_common H tx)) else zero_hash)))
      by (destruct (negb acp && negb (ecdsa_single_or_none sh)); [apply runs_segwit|apply runs_write]).
    assert (P3 : runs tx ps (match tx_in (sc_tx c) i with Err e => fail e | Ok txin =>
             write (outpoint_encode (ti_prevout txin) ++ script_encode code ++ le_bytes 8 amount ++ le_bytes 4 (ti_sequence txin)) end)
      (match nthN (tx_inputs tx) i with None => Err (i, lenN (tx_inputs tx)) | Some x => Ok (wire_outpoint (ti_prevout x) ++ wire_bytes code ++ le_bytes 8 amount ++ le_bytes 4 (ti_sequence x)) end)).
    { destruct (N.lt_ge_cases i (lenN (tx_inputs tx))) as [LT|GE].
      - destruct (TIS LT) as (x & y & _ & -> & -> & PX & SX). rewrite wire_bytes_eq, PX, SX. apply runs_write.
      - rewrite (nthN_none _ (tx_inputs tx) i) by lia. destruct (TIN GE) as [_ ->]. apply runs_fail. }
    assert (P4 : runs tx ps (if negb (ecdsa_single_or_none sh) then @write_segwit H (N * N) sg_outputs
           else match (if is_single sh && (i <? lenN (tx_outputs tx)) then getN (tx_outputs tx) i else None) with
                | Some o => write (Hd H (txout_encode o)) | None => write zero_hash end)
      (Ok (or_zero H (v0_outputs {| va_ty := ecdsa_u32 ty; va_tx := tx; va_i := i; va_code := code; va_amount := amount |})))).
    { unfold v0_outputs. cbn [va_ty va_tx va_i]. rewrite B2, B3. destruct (negb (ecdsa_single_or_none sh)).
      - eapply runs_eq; [apply runs_segwit|]. rewrite common_spec. reflexivity.
      - destruct (is_single sh); cbn [andb]; [|apply runs_write]. destruct (N.ltb_spec i (lenN (tx_outputs tx))) as [LT|GE].
        + rewrite getN_nthN. destruct (nthN_some _ _ _ LT) as [o ->]. cbn [option_map or_zero]. rewrite <- wire_txout_eq. apply runs_write.
        + rewrite nthN_none by lia. apply runs_write. }
    assert (RUN := runs_then _ _ _ _ _ _ _ (runs_write _ tx ps (le_bytes 4 (tx_version tx))) (runs_then _ _ _ _ _ _ _ P1 (runs_then _ _ _ _ _ _ _ P2 (runs_then _ _ _ _ _ _ _ P3
      (runs_then _ _ _ _ _ _ _ P4 (runs_write _ tx ps (le_bytes 4 (tx_lock_time tx) ++ le_bytes 4 (ecdsa_u32 ty)))))))).
    refine (runs_eq _ _ _ _ _ _ RUN _ c G). clear RUN P1 P2 P3 P4 TIN TIS G. rewrite common_spec. cbn [cm_prevouts cm_sequences].
    destruct (N.leb_spec (lenN (tx_inputs tx)) i) as [GE|LT]; [rewrite nthN_none by lia; reflexivity|]. destruct (nthN_some _ _ _ LT) as [x X].
    unfold bip143_msg. cbn [va_ty va_tx va_i va_code va_amount]. rewrite X. cbn [rseq]. f_equal. f_equal. unfold v0_prevouts, v0_sequences. cbn [va_ty va_tx]. rewrite B1, B2. f_equal; [destruct acp; reflexivity|].
    f_equal. destruct (negb acp && negb (ecdsa_single_or_none sh)); reflexivity.
  Qed.
End Hash.

(** * Legacy *)
Lemma consensus_bits : forall ty, let '(sh, acp) := ecdsa_split (from_consensus ty) in
  anyone ty = acp /\ plain ty = negb (ecdsa_single_or_none sh) /\ (N.land ty 0x1f =? 3) = is_single (from_consensus ty) /\
  (N.land ty 0x1f =? 2) = (match sh with ENone => true | _ => false end) /\ (is_single (from_consensus ty) = match sh with ESingle => true | _ => false end) /\
  match sh with EAll | ENone | ESingle => True | _ => False end.
Proof.
  intro ty. unfold anyone, plain. assert (E1 : N.land ty 0x1f = N.land (N.land ty 0x9f) 0x1f) by (rewrite <- N.land_assoc; reflexivity). assert (E2 : N.land ty 0x80 = N.land (N.land ty 0x9f) 0x80) by (rewrite <- N.land_assoc; reflexivity).
  unfold from_consensus. change (N.lor 0x1f 0x80) with 0x9f. cbv zeta. rewrite E1, E2. set (m := N.land ty 0x9f). assert (B : m < 256) by (change 256 with (2 ^ 8); apply LHash2.land_lt; reflexivity). assert (MM : N.land m 0x9f = m) by (subst m; rewrite <- N.land_assoc; reflexivity). clearbody m. clear E1 E2 ty.
  set (fc m := if m =? 0x01 then EAll else if m =? 0x02 then ENone else if m =? 0x03 then ESingle
  else if m =? 0x81 then EAllAcp else if m =? 0x82 then ENoneAcp else if m =? 0x83 then ESingleAcp
  else if N.land m 0x80 =? 0x80 then EAllAcp else EAll). change (if m =? 0x01 then _ else _) with (fc m).
  set (f m := let '(sh, acp) := ecdsa_split (fc m) in
    Bool.eqb (N.land m 0x80 =? 0x80) acp && Bool.eqb (negb (N.land m 0x1f =? 2) && negb (N.land m 0x1f =? 3)) (negb (ecdsa_single_or_none sh)) && Bool.eqb (N.land m 0x1f =? 3) (is_single (fc m)) &&
    Bool.eqb (N.land m 0x1f =? 2) (match sh with ENone => true | _ => false end) && Bool.eqb (is_single (fc m)) (match sh with ESingle => true | _ => false end) && match sh with EAll | ENone | ESingle => true | _ => false end).
  assert (F : f m = true).
  { assert (ALL : forallb (fun m => negb (N.land m 0x9f =? m) || f m) (map N.of_nat (seq 0 256)) = true) by (vm_compute; reflexivity). rewrite forallb_forall in ALL. specialize (ALL m). cbv beta in ALL. rewrite MM, N.eqb_refl in ALL. apply ALL.
    apply in_map_iff. exists (N.to_nat m). clear f fc ALL. split; [apply N2Nat.id|]. apply in_seq. lia. }
  unfold f in F. destruct (ecdsa_split (fc m)) as [sh acp]. repeat (apply andb_prop in F; destruct F as [F ?]). repeat split; try (apply Bool.eqb_prop; assumption). destruct sh; easy.
Qed.
