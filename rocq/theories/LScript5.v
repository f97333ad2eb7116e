(** Multisig, redeem scripts, signature operations. *)
From Verif Require Import Base MDec MWitness MAmount LWitness SWitness2 LWitness2 MTx MTxSize SWire LBuilt SWitness LWire LCodec LWitDec LTxEx LTxId LTxSize MScript SScript LScript LScript2 LScriptNum LScript3 LScript4.
Local Open Scope N_scope.

(** ** Appending *)
Fixpoint at_offsets (pos : N) (l : list instr) (es : list bytes) : list (result (N * instr) script_err) :=
  match l, es with
  | i :: l', e :: es' => Ok (pos, i) :: at_offsets (pos + lenN e) l' es'
  | _, _ => []
  end.
Lemma parses_concat : forall m l es, Forall2 (good m) l es -> forall pos s r,
  parses m (pos + lenN (concat es)) s r -> parses m pos (concat es ++ s) (at_offsets pos l es ++ r).
Proof.
  intros m l es H. induction H as [|i e l es [H1 H2] H IH]; intros pos s r P.
  - cbn [concat app at_offsets]. cbn [concat] in P. rewrite lenN_nil, N.add_0_r in P. exact P.
  - cbn [concat at_offsets app]. rewrite <- app_assoc. apply parses_instr; auto. apply IH.
    cbn [concat] in P. rewrite lenN_app in P. rewrite <- N.add_assoc. exact P.
Qed.
Lemma strip_offsets : forall m l es pos, Forall2 (good m) l es -> map strip (at_offsets pos l es) = map Ok l.
Proof. intros m l es pos H. revert pos. induction H; intros pos; [reflexivity|]. cbn [at_offsets map strip]. rewrite IHForall2. reflexivity. Qed.
Lemma parses_shift : forall m pos s r, parses m pos s r -> forall pos', exists r', parses m pos' s r' /\ map strip r' = map strip r.
Proof.
  intros m pos s r H. induction H; intros pos'.
  - exists []. split; [constructor|reflexivity].
  - destruct (IHparses (pos' + lenN e)) as (r' & P & E). exists (Ok (pos', i) :: r'). split; [constructor; auto|].
    cbn [map strip]. rewrite E. reflexivity.
  - eexists. split; [eapply parses_non_minimal; eauto|reflexivity].
  - eexists. split; [apply parses_short_header; auto|reflexivity].
  - eexists. split; [apply parses_early_end; auto|reflexivity].
Qed.
Lemma instrs_app : forall m s s' l r, bytes_ok s -> bytes_ok s' -> instrs m s = Ret (map Ok l) -> instrs m s' = Ret r ->
  instrs m (s ++ s') = Ret (map Ok l ++ r).
Proof.
  intros m s s' l r Hs Hs' E E'. assert (B : built m s l) by (apply built_reads; auto).
  destruct B as (_ & es & -> & F). destruct (instrs_parses m s' Hs') as (r0 & P & E0 & _).
  rewrite E0 in E'. assert (R : map strip r0 = r) by congruence. subst r.
  destruct (parses_shift _ _ _ _ P (0 + lenN (concat es))) as (r1 & P1 & R1).
  pose proof (parses_concat m l es F 0 s' r1 P1) as P2.
  destruct (instrs_parses m (concat es ++ s') ltac:(apply bytes_ok_app; auto)) as (r2 & P3 & E3 & _).
  rewrite E3, (parses_det _ _ _ _ P3 _ P2), map_app, (strip_offsets m), R1 by auto. reflexivity.
Qed.

(** ** Redeem script *)
Lemma redeem_spec : forall s, bytes_ok s -> exists o, redeem_script s = Ret o /\
  forall d, o = Some d <-> exists ds, instrs false s = Ret (map Ok (map PushBytes (ds ++ [d]))).
Proof.
  intros s Hs. destruct (instrs_parses false s Hs) as (r & P & E & _). unfold redeem_script, last_item, instructions.
  unfold instrs in *. rewrite E. cbn [rbind].
  match goal with |- context [existsb ?f ?l] => set (bad := f); destruct (existsb bad l) eqn:X end.
  - eexists. split; [reflexivity|]. intro d. split; [discriminate|]. intros (ds & Q). exfalso.
    assert (Q2 : map strip r = map Ok (map PushBytes (ds ++ [d]))) by congruence. rewrite Q2 in X.
    apply existsb_exists in X. destruct X as (x & I & B). rewrite map_map in I. apply in_map_iff in I.
    destruct I as (y & <- & _). discriminate.
  - eexists. split; [reflexivity|].
    assert (D : exists ds, map strip r = map Ok (map PushBytes ds)).
    { clear -X. induction r as [|x r IH]; [exists []; reflexivity|]. cbn [map existsb] in X. apply orb_false_iff in X.
      destruct X as [X1 X2]. destruct (IH X2) as (ds & Q). destruct x as [[p [d|op]]|e]; try discriminate.
      exists (d :: ds). cbn [map strip]. rewrite Q. reflexivity. }
    destruct D as (ds & Q). rewrite Q. rewrite <- !map_rev.
    destruct (snoc_cases_gen _ ds) as [->|(w & x & ->)].
    + cbn [rev map]. intro d. split; [discriminate|]. intros (ds & Z). apply (f_equal (fun r => match r with Ret l => length l | Panic => O end)) in Z.
      rewrite !map_length, app_length in Z. cbn [length map] in Z. lia.
    + rewrite rev_unit. cbn [map]. intro d. split.
      * intro Z. inv Z. exists w. reflexivity.
      * intros (ds & Z). assert (Z2 : map (fun d => Ok (E := script_err) (PushBytes d)) (w ++ [x]) = map (fun d => Ok (PushBytes d)) (ds ++ [d])).
        { rewrite !map_map in Z. congruence. }
        rewrite !map_app in Z2. cbn [map] in Z2. apply app_inj_tail in Z2. destruct Z2 as [_ Z2]. congruence.
Qed.

(** ** Multisig *)
Definition leading_pushes (l : list item) : N :=
  lenN ((fix go l := match l with Ok (PushBytes d) :: l' => d :: go l' | _ => [] end) l).

Lemma pushnum_iff : forall op n, decode_pushnum op = Some n <-> 1 <= n <= 16 /\ op = 80 + n.
Proof.
  intros op n. unfold decode_pushnum, between. change OP_1 with 81. change OP_16 with 96.
  destruct (N.leb_spec 81 op), (N.leb_spec op 96); cbn [andb]; split; intro Q; try discriminate; try lia.
  - inv Q. lia.
  - f_equal. lia.
Qed.

Lemma multisig_loop_spec : forall keys rest c,
  (match rest with Ok (PushBytes _) :: _ => False | _ => True end) -> c + lenN keys <= 255 ->
  multisig_loop (map (fun d => Ok (PushBytes d)) keys ++ rest) c =
  multisig_loop rest (c + lenN keys).
Proof.
  induction keys as [|k keys IH]; intros rest c Hr Hc.
  - cbn [map app]. rewrite lenN_nil, N.add_0_r. reflexivity.
  - cbn [map app multisig_loop]. rewrite lenN_cons in *. destruct (N.ltb_spec c 255); [|lia].
    rewrite IH by (auto; lia). f_equal; lia.
Qed.
Lemma multisig_loop_panics : forall keys rest c, c <= 255 -> 255 < c + lenN keys ->
  multisig_loop (map (fun d => Ok (PushBytes d)) keys ++ rest) c = Panic.
Proof.
  induction keys as [|k keys IH]; intros rest c H Hc; [rewrite lenN_nil in Hc; lia|].
  cbn [map app multisig_loop]. rewrite lenN_cons in Hc. destruct (N.ltb_spec c 255); [|reflexivity].
  apply IH; lia.
Qed.

Lemma split_pushes : forall l : list item, exists keys rest, l = map (fun d => Ok (PushBytes d)) keys ++ rest /\
  match rest with Ok (PushBytes _) :: _ => False | _ => True end.
Proof.
  induction l as [|[[d|op]|e] l IH].
  - exists [], []. split; [reflexivity|auto].
  - destruct IH as (k & r & -> & H). exists (d :: k), r. split; [reflexivity|auto].
  - exists [], (Ok (Op op) :: l). split; [reflexivity|auto].
  - exists [], (Err e :: l). split; [reflexivity|auto].
Qed.

Lemma split_pushes_unique : forall k1 r1 k2 (r2 : list item),
  match r1 with Ok (PushBytes _) :: _ => False | _ => True end ->
  match r2 with Ok (PushBytes _) :: _ => False | _ => True end ->
  map (fun d => Ok (PushBytes d)) k1 ++ r1 = map (fun d => Ok (PushBytes d)) k2 ++ r2 -> k1 = k2 /\ r1 = r2.
Proof.
  induction k1 as [|d k1 IH]; intros r1 k2 r2 H1 H2 E; destruct k2 as [|d2 k2]; cbn [map app] in E.
  - auto.
  - exfalso. rewrite E in H1. exact H1.
  - exfalso. rewrite <- E in H2. exact H2.
  - injection E as -> E. destruct (IH _ _ _ H1 H2 E) as [-> ->]. auto.
Qed.

Lemma multisig_spec : forall s, bytes_ok s ->
  (forall op keys rest, instrs false s = Ret (Ok (Op op) :: map (fun d => Ok (PushBytes d)) keys ++ rest) -> lenN keys <= 255) ->
  exists b, is_multisig s = Ret b /\ (b = true <-> exists l, instrs false s = Ret (map Ok l) /\ multisig l).
Proof.
  intros s Hs Hk. destruct (instrs_parses false s Hs) as (r & P & E & _). unfold is_multisig, instructions.
  unfold instrs in *. rewrite E in *. cbn [rbind]. pose proof (reads_shape _ _ _ _ P) as (tail & Sh & T).
  clear P. set (l := map strip r) in *. clearbody l.
  assert (No : forall b, b = false -> (b = true -> False)) by (intros; congruence).
  assert (F : forall (Q : Prop), ~ Q -> exists b, Ret false = Ret b /\ (b = true <-> Q)).
  { intros Q N. exists false. split; [reflexivity|]. split; [discriminate|tauto]. }
  destruct l as [|[[d|op]|e] l1]; try (apply F; intros (l & Q & m & keys & _ & _ & ->); inversion Q; fail).
  destruct (decode_pushnum op) as [req|] eqn:D1.
  2:{ apply F. intros (l & Q & m & keys & H1 & H2 & ->). cbn [map] in Q.
      assert (E1 : op = 80 + m) by congruence. assert (decode_pushnum op = Some m) by (apply pushnum_iff; lia). congruence. }
  apply pushnum_iff in D1. destruct D1 as [D1 ->].
  destruct (split_pushes l1) as (keys & rest & -> & Hr). specialize (Hk _ _ _ eq_refl).
  rewrite multisig_loop_spec by (auto; lia). rewrite N.add_0_l.
  (* what a multisig would look like *)
  assert (W : forall l, Ret (Ok (Op (80 + req)) :: map (fun d => Ok (PushBytes d)) keys ++ rest) = Ret (map Ok l) -> multisig l ->
     req <= lenN keys /\ lenN keys <= 16 /\ rest = [Ok (Op (80 + lenN keys)); Ok (Op 174)]).
  { intros l Q (m & ks & H1 & H2 & ->). cbn [map] in Q. assert (Q1 : 80 + req = 80 + m) by congruence.
    assert (Q2 : map (fun d => Ok (PushBytes d)) keys ++ rest = map (Ok (E := script_err)) (map PushBytes ks ++ [Op (80 + lenN ks); Op 174])) by congruence.
    rewrite map_app, map_map in Q2. cbn [map] in Q2. apply split_pushes_unique in Q2; [|exact Hr|exact I].
    destruct Q2 as [-> ->]. assert (m = req) by lia. subst m. split; [lia|]. split; [lia|]. reflexivity. }
  destruct rest as [|[[d|op2]|e] l2]; cbn [multisig_loop rbind].
  - destruct (lenN keys <? req); apply F; intros (l & Q & M); destruct (W l Q M) as (_ & _ & Z); discriminate.
  - contradiction.
  - destruct (decode_pushnum op2) as [n|] eqn:D2.
    2:{ cbn [rbind]. apply F. intros (l & Q & M). destruct (W l Q M) as (A & B & Z). assert (Z1 : op2 = 80 + lenN keys) by congruence.
        assert (decode_pushnum op2 = Some (lenN keys)) by (apply pushnum_iff; split; [lia|auto]). congruence. }
    apply pushnum_iff in D2. destruct D2 as [D2 ->]. destruct (N.eqb_spec n (lenN keys)) as [->|Ne]; cbn [rbind].
    2:{ apply F. intros (l & Q & M). destruct (W l Q M) as (A & B & Z). assert (Z1 : 80 + n = 80 + lenN keys) by congruence. lia. }
    destruct (N.ltb_spec (lenN keys) req).
    { apply F. intros (l & Q & M). destruct (W l Q M) as (A & B & Z). lia. }
    destruct l2 as [|[[d|op3]|e] l3]; try (apply F; intros (l & Q & M); destruct (W l Q M) as (_ & _ & Z); inversion Z; fail).
    change OP_CHECKMULTISIG with 174. destruct (N.eqb_spec op3 174) as [->|Ne]; cbn [andb].
    2:{ apply F. intros (l & Q & M). destruct (W l Q M) as (A & B & Z). congruence. }
    destruct l3 as [|x l3].
    + eexists. split; [reflexivity|]. split; [intros _|reflexivity].
      exists (Op (80 + req) :: map PushBytes keys ++ [Op (80 + lenN keys); Op 174]). split.
      * cbn [map]. rewrite map_app, map_map. reflexivity.
      * exists req, keys. split; [lia|]. split; [lia|reflexivity].
    + apply F. intros (l & Q & M). destruct (W l Q M) as (A & B & Z). discriminate.
  - destruct (lenN keys <? req); [apply F; intros (l & Q & M); destruct (W l Q M) as (_ & _ & Z); discriminate|].
    destruct l2 as [|[[d|op3]|e2] l3]; try (apply F; intros (l & Q & M); destruct (W l Q M) as (_ & _ & Z); discriminate).
    eexists. split; [reflexivity|].
    assert (G : forall b, (b = true <-> exists l, Ret (Ok (Op (80 + req)) :: map (fun d => Ok (PushBytes d)) keys ++ Err e :: Ok (Op op3) :: l3) = Ret (map Ok l) /\ multisig l) <-> b = false).
    { intro b. split; [|intros ->; split; [discriminate|intros (l & Q & M); destruct (W l Q M) as (_ & _ & Z); discriminate]].
      intros [H _]. destruct b; [|reflexivity]. destruct (H eq_refl) as (l & Q & M). destruct (W l Q M) as (_ & _ & Z). discriminate. }
    apply G. (* an error is always the last item *)
    exfalso. clear -Sh T. set (pre := (Ok (Op (80 + req)) :: map (fun d => Ok (PushBytes d)) keys) : list item) in *.
    change (pre ++ Err e :: Ok (Op op3) :: l3 = map Ok (oks r) ++ tail) in Sh.
    assert (N : forall (a : list instr) (pre t : list item), pre ++ Err e :: t = map Ok a ++ tail -> (tail = [] \/ exists e, tail = [Err e]) -> t = []).
    { induction a as [|x a IH]; intros p t Q Tt; cbn [map app] in Q.
      - destruct Tt as [->|(e' & ->)]; [destruct p; discriminate|]. destruct p as [|y p]; [inv Q; reflexivity|].
        injection Q as _ Q. destruct p; discriminate.
      - destruct p as [|y p]; [discriminate|]. injection Q as _ Q. eapply IH; eauto. }
    apply N in Sh; [discriminate|exact T].
Qed.

(** ** Signature operations *)
Definition prev_cache (prev : option instr) : option N :=
  match prev with Some (Op op) => if (op =? 172) || (op =? 173) || (op =? 174) || (op =? 175) then None else decode_pushnum op | _ => None end.

Lemma multisig_keys_cache : forall acc prev,
  multisig_keys acc prev = match acc, prev_cache prev with true, Some p => p | _, _ => 20 end.
Proof.
  intros acc prev. unfold multisig_keys, prev_cache. destruct acc; [|destruct prev as [[]|]; try reflexivity].
  destruct prev as [[d|op]|]; try reflexivity. unfold decode_pushnum, between. change OP_1 with 81. change OP_16 with 96.
  destruct (N.leb_spec 81 op), (N.leb_spec op 96); cbn [andb];
    destruct (N.eqb_spec op 172), (N.eqb_spec op 173), (N.eqb_spec op 174), (N.eqb_spec op 175); cbn [orb]; try reflexivity; lia.
Qed.
Lemma multisig_keys_le : forall acc prev, multisig_keys acc prev <= 20.
Proof.
  intros acc prev. unfold multisig_keys. destruct acc; [|lia]. destruct prev as [[d|op]|]; try lia.
  destruct (N.leb_spec 81 op), (N.leb_spec op 96); cbn [andb]; lia.
Qed.
Lemma sigops_bound : forall acc l prev, sigops_from acc prev l <= 20 * lenN l.
Proof.
  intros acc. induction l as [|i l IH]; intros prev; [rewrite lenN_nil; cbn [sigops_from]; lia|].
  cbn [sigops_from]. rewrite lenN_cons. specialize (IH (Some i)). pose proof (multisig_keys_le acc prev).
  destruct i as [d|op]; [lia|]. destruct (_ || _); [lia|]. destruct (_ || _); lia.
Qed.

Lemma sigops_loop_ok : forall acc l tail prev n, (tail = [] \/ exists e, tail = [Err e]) ->
  n + 20 * lenN l < USIZE ->
  sigops_loop acc (map Ok l ++ tail) n (prev_cache prev) = Ret (n + sigops_from acc prev l).
Proof.
  intros acc. induction l as [|i l IH]; intros tail prev n T H.
  - cbn [map app sigops_from]. rewrite N.add_0_r. destruct T as [->|(e & ->)]; reflexivity.
  - cbn [map app sigops_loop sigops_from]. rewrite lenN_cons in H. destruct i as [d|op].
    + change None with (prev_cache (Some (PushBytes d))). rewrite IH by (auto; lia). f_equal; lia.
    + change OP_CHECKSIG with 172. change OP_CHECKSIGVERIFY with 173. change OP_CHECKMULTISIG with 174. change OP_CHECKMULTISIGVERIFY with 175.
      destruct ((op =? 172) || (op =? 173)) eqn:E1.
      * unfold usz. destruct (N.ltb_spec (n + 1) USIZE); [|lia]. cbn [rbind].
        replace None with (prev_cache (Some (Op op))) by (unfold prev_cache; rewrite E1; reflexivity).
        rewrite IH by (auto; lia). f_equal; lia.
      * destruct ((op =? 174) || (op =? 175)) eqn:E2.
        -- rewrite <- multisig_keys_cache. pose proof (multisig_keys_le acc prev).
           unfold usz. destruct (N.ltb_spec (n + multisig_keys acc prev) USIZE); [|lia]. cbn [rbind].
           replace None with (prev_cache (Some (Op op))) by (unfold prev_cache; rewrite E1; cbn [orb]; rewrite E2; reflexivity).
           rewrite IH by (auto; lia). f_equal; lia.
        -- replace (decode_pushnum op) with (prev_cache (Some (Op op))).
           2:{ unfold prev_cache. rewrite E1. cbn [orb]. rewrite E2. reflexivity. }
           rewrite IH by (auto; lia). f_equal; lia.
Qed.

Lemma lenN_map : forall A B (f : A -> B) l, lenN (map f l) = lenN l.
Proof. intros. unfold lenN. rewrite map_length. reflexivity. Qed.
Lemma oks_len : forall r, lenN (oks r) <= lenN r.
Proof.
  induction r as [|x r IH]; [unfold lenN; cbn; lia|]. cbn [oks flat_map]. rewrite lenN_app, lenN_cons. fold (oks r).
  destruct x as [[p i]|e]; [rewrite lenN_cons|]; rewrite lenN_nil; lia.
Qed.

Lemma count_sigops_spec : forall acc s, bytes_ok s -> 20 * lenN s < 2 ^ 64 ->
  exists n, count_sigops_internal acc s = Ret n /\ script_sigops acc s n /\ n <= 20 * lenN s.
Proof.
  intros acc s Hs L. destruct (instrs_parses false s Hs) as (r & P & E & _). unfold count_sigops_internal, instructions.
  unfold instrs in E. rewrite E. cbn [rbind]. destruct (reads_shape _ _ _ _ P) as (tail & Sh & T). rewrite Sh.
  pose proof (reads_count _ _ _ _ P) as C. pose proof (oks_len r) as O.
  change None with (prev_cache None). rewrite sigops_loop_ok.
  - exists (0 + sigops_from acc None (oks r)). split; [reflexivity|]. split; [exists r; split; [exact P|reflexivity]|].
    pose proof (sigops_bound acc (oks r) None). lia.
  - exact T.
  - change USIZE with (2 ^ 64). lia.
Qed.

Lemma sigops_from_acc_le : forall l p, sigops_from true p l <= sigops_from false p l.
Proof.
  induction l as [|i l IH]; intro p; [cbn [sigops_from]; lia|]. cbn [sigops_from]. specialize (IH (Some i)).
  destruct i as [d|op]; [lia|]. destruct (_ || _); [lia|]. destruct (_ || _); [|lia].
  pose proof (multisig_keys_le true p). change (multisig_keys false p) with 20. lia.
Qed.
Lemma sigops_legacy_app : forall l1 l2 p q, sigops_from false p (l1 ++ l2) = sigops_from false p l1 + sigops_from false q l2.
Proof.
  induction l1 as [|i l1 IH]; intros l2 p q.
  - cbn [app sigops_from]. destruct l2 as [|i l2]; [reflexivity|]. cbn [sigops_from]. change (multisig_keys false p) with 20. change (multisig_keys false q) with 20. rewrite N.add_0_l. reflexivity.
  - cbn [app sigops_from]. rewrite (IH l2 (Some i) q). lia.
Qed.
Definition last_opt (p : option instr) (l : list instr) : option instr := fold_left (fun _ i => Some i) l p.
Lemma sigops_app : forall acc l1 l2 p, sigops_from acc p (l1 ++ l2) = sigops_from acc p l1 + sigops_from acc (last_opt p l1) l2.
Proof.
  intros acc. induction l1 as [|i l1 IH]; intros l2 p; [cbn [app sigops_from last_opt fold_left]; lia|].
  cbn [app sigops_from]. rewrite (IH l2 (Some i)). unfold last_opt. cbn [fold_left]. lia.
Qed.
Lemma sigops_prev_le : forall acc l p, sigops_from acc p l <= sigops_from acc None l.
Proof.
  intros acc [|i l] p; [cbn [sigops_from]; lia|]. cbn [sigops_from]. destruct i as [d|op]; [lia|].
  destruct (_ || _); [lia|]. destruct (_ || _); [|lia]. pose proof (multisig_keys_le acc p).
  replace (multisig_keys acc None) with 20 by (destruct acc; reflexivity). lia.
Qed.
Lemma sigops_prev_eq : forall acc l p,
  (forall op l', l = Op op :: l' -> (op = 174 \/ op = 175) -> False) -> sigops_from acc p l = sigops_from acc None l.
Proof.
  intros acc [|i l] p H; [reflexivity|]. cbn [sigops_from]. destruct i as [d|op]; [reflexivity|].
  destruct (_ || _); [reflexivity|]. destruct ((op =? 174) || (op =? 175)) eqn:E; [|reflexivity].
  exfalso. apply orb_true_iff in E. apply (H op l eq_refl). destruct E as [E|E]; apply N.eqb_eq in E; auto.
Qed.

(** ** Total cost *)
Lemma sat_sum_exact : forall A (f : A -> rust N) l ns c,
  Forall2 (fun x n => f x = Ret n) l ns -> c + sumN ns < 2 ^ 64 -> sat_sum f l c = Ret (c + sumN ns).
Proof.
  intros A f l ns c H. revert c. induction H as [|x n l ns Hx H IH]; intros c B.
  - cbn [sat_sum sumN fold_right]. rewrite N.add_0_r. reflexivity.
  - cbn [sat_sum]. rewrite Hx. cbn [rbind]. cbn [sumN fold_right] in B. fold (sumN ns) in B.
    unfold sat_add. rewrite N.min_l by (unfold USIZE_MAX; change USIZE with (2 ^ 64); lia).
    rewrite IH by lia. cbn [sumN fold_right]. fold (sumN ns). f_equal. lia.
Qed.
Lemma sum_bound : forall ns k, Forall (fun n => n <= k) ns -> sumN ns <= k * lenN ns.
Proof.
  intros ns k H. induction H; [cbn [sumN fold_right]; lia|]. cbn [sumN fold_right]. fold (sumN l). rewrite lenN_cons. lia.
Qed.

Lemma parse_bytes_ok : forall m pos s r, parses m pos s r -> bytes_ok s ->
  Forall (fun x => match x with Ok (_, PushBytes d) => bytes_ok d /\ lenN d <= lenN s | _ => True end) r.
Proof.
  intros m pos s r H. induction H; intro B; try (repeat constructor; fail).
  apply bytes_ok_app in B. destruct B as [Be Bs]. constructor.
  - assert (K : forall d e, encodes (PushBytes d) e -> bytes_ok e -> bytes_ok d /\ lenN d <= lenN e).
    { intros d e' En He. inversion En; subst; rewrite ?lenN_cons, ?lenN_app; apply bytes_ok_cons in He; destruct He as [_ He];
        [split; [exact He|lia]|..]; apply bytes_ok_app in He; (split; [tauto|lia]). }
    destruct i as [d|op]; [|auto]. rewrite lenN_app. destruct (K d e H Be). split; [auto|lia].
  - eapply Forall_impl; [|apply IHparses; exact Bs]. cbn beta. intros [[p [d|op]]|x]; auto.
    rewrite lenN_app. intros [? ?]. split; [auto|lia].
Qed.

Lemma last_push_ok : forall s d, bytes_ok s -> last_push s (Some d) -> bytes_ok d /\ lenN d <= lenN s.
Proof.
  intros s d Hs (r & P & E). pose proof (parse_bytes_ok _ _ _ _ P Hs) as F.
  destruct (rev r) as [|x t] eqn:R; [discriminate|].
  assert (I : In x r) by (apply in_rev; rewrite R; left; reflexivity).
  rewrite Forall_forall in F. specialize (F x I). destruct x as [[p [d'|op]]|e]; try discriminate. inv E. exact F.
Qed.

Lemma p2sh_one_spec : forall o i, script_ok (to_script o) -> script_ok (ti_script i) ->
  exists n, p2sh_sigops_one o i = Ret n /\ p2sh_cost (to_script o) (ti_script i) n /\ n <= 80000000.
Proof.
  intros o i [_ Ho] [Li Hi]. unfold p2sh_sigops_one. unfold MAX_LEN in *. destruct (is_p2sh (to_script o)) eqn:E.
  - apply is_p2sh_iff in E. destruct (last_push_spec (ti_script i) Hi) as (l & -> & LP). cbn [rbind].
    destruct l as [d|].
    + destruct (last_push_ok _ _ Hi LP) as [Bd Ld].
      destruct (count_sigops_spec true d Bd ltac:(lia)) as (n & En & Sn & Bn). unfold count_sigops. rewrite En. cbn [rbind].
      unfold sat_add. rewrite N.min_l by (unfold USIZE_MAX; change USIZE with (2 ^ 64); lia).
      exists (0 + n). split; [reflexivity|]. rewrite N.add_0_l. split; [|lia]. left. split; [exact E|]. exists (Some d). auto.
    + exists 0. split; [reflexivity|]. split; [|lia]. left. split; [exact E|]. exists None. auto.
  - exists 0. split; [reflexivity|]. split; [|lia]. right. split; [|reflexivity]. intro Q. apply is_p2sh_iff in Q. congruence.
Qed.

Lemma program_sigops_spec : forall w ls spk, stack_of w ls -> Forall script_ok ls ->
  exists n, witness_program_sigops w spk = Ret n /\ program_cost spk ls n /\ n <= 80000000.
Proof.
  intros w ls spk St Sk. unfold witness_program_sigops, program_cost. destruct (is_p2wpkh spk) eqn:E1.
  { apply is_p2wpkh_iff in E1. destruct E1 as (p & L & ->). exists 1. split; [reflexivity|]. split; [|lia].
    left. exists p. auto. }
  destruct (is_p2wsh spk) eqn:E2.
  { apply is_p2wsh_iff in E2. destruct E2 as (p & L & ->).
    assert (Sm : short_elements ls) by (eapply Forall_impl; [|exact Sk]; cbn beta; intros a [? _]; auto).
    apply stack_of_layout in St as [-> F]. unfold wit_last. rewrite get_back_nth by auto. cbn [rbind].
    change (N.to_nat 0) with O. destruct (rev ls) as [|e t] eqn:R; cbn [nth_error].
    - exists 0. split; [reflexivity|]. split; [|lia]. right. left. exists p. auto.
    - assert (I : In e ls) by (apply in_rev; rewrite R; left; reflexivity).
      rewrite Forall_forall in Sk. destruct (Sk e I) as [Le Be]. unfold MAX_LEN in Le.
      destruct (count_sigops_spec true e Be ltac:(lia)) as (n & En & Sn & Bn). exists n. split; [exact En|].
      split; [|lia]. right. left. exists p. auto. }
  exists 0. split; [reflexivity|]. split; [|lia]. right. right. split; [|reflexivity].
  intros (p & [L|L] & ->).
  - assert (is_p2wpkh (t_witness 0 p) = true) by (apply is_p2wpkh_iff; eauto). congruence.
  - assert (is_p2wsh (t_witness 0 p) = true) by (apply is_p2wsh_iff; eauto). congruence.
Qed.

Lemma witness_one_spec : forall o i ls, script_ok (to_script o) -> script_ok (ti_script i) ->
  stack_of (ti_witness i) ls -> Forall script_ok ls ->
  exists n, witness_sigops_one o i = Ret n /\ witness_cost (to_script o) (ti_script i) ls n /\ n <= 80000000.
Proof.
  intros o i ls [_ Ho] [Li Hi] St Sk. unfold witness_sigops_one, witness_cost. cbv zeta.
  destruct (is_witness_program (to_script o)) eqn:E1.
  { apply is_wp_iff in E1. destruct (program_sigops_spec _ _ (to_script o) St Sk) as (n & En & Pn & Bn).
    exists n. split; [exact En|]. split; [|lia]. auto. }
  assert (NP : ~ is_program (to_script o)) by (intro Q; apply is_wp_iff in Q; congruence).
  destruct (is_p2sh (to_script o)) eqn:E2.
  - apply is_p2sh_iff in E2. destruct (is_push_only_spec (ti_script i) Hi) as (b & -> & Bi). cbn [rbind]. destruct b.
    + destruct (last_push_spec (ti_script i) Hi) as (l & -> & LP). cbn [rbind]. destruct l as [d|].
      * destruct (program_sigops_spec _ _ d St Sk) as (n & En & Pn & Bn). exists n. split; [exact En|]. split; [|lia].
        right. left. split; [exact E2|]. split; [apply Bi; reflexivity|]. exists (Some d). auto.
      * exists 0. split; [reflexivity|]. split; [|lia].
        right. left. split; [exact E2|]. split; [apply Bi; reflexivity|]. exists None. auto.
    + exists 0. split; [reflexivity|]. split; [|lia]. right. right. split; [exact NP|]. split; [|reflexivity].
      intros [_ Q]. apply Bi in Q. discriminate.
  - exists 0. split; [reflexivity|]. split; [|lia]. right. right. split; [exact NP|]. split; [|reflexivity].
    intros [Q _]. apply is_p2sh_iff in Q. congruence.
Qed.

Lemma Forall2_exists : forall A B (P : A -> Prop) (R : A -> B -> Prop) l, Forall P l -> (forall x, P x -> exists y, R x y) ->
  exists ys, Forall2 R l ys.
Proof.
  intros A B P R l H E. induction H as [|x l Hx H IH]; [exists []; constructor|].
  destruct IH as (ys & F). destruct (E x Hx) as (y & Ry). exists (y :: ys). constructor; auto.
Qed.
Lemma Forall2_len : forall A B (R : A -> B -> Prop) l l', Forall2 R l l' -> lenN l = lenN l'.
Proof. intros A B R l l' H. induction H; [rewrite !lenN_nil; reflexivity|]. rewrite !lenN_cons. lia. Qed.
Lemma Forall2_r : forall A B (R : A -> B -> Prop) (P : B -> Prop) l l', Forall2 R l l' -> (forall x y, R x y -> P y) -> Forall P l'.
Proof. intros A B R P l l' H K. induction H; constructor; eauto. Qed.
Lemma Forall2_imp : forall A B (R S : A -> B -> Prop) l l', Forall2 R l l' -> (forall x y, R x y -> S x y) -> Forall2 S l l'.
Proof. intros A B R S l l' H K. induction H; constructor; eauto. Qed.

Lemma total_cost_spec : forall spent tx, tx_shape tx -> (forall p o, spent p = Some o -> script_ok (to_script o)) ->
  exists ins outs sh wit,
    Forall2 (fun i n => script_sigops false (ti_script i) n) (tx_inputs tx) ins /\
    Forall2 (fun o n => script_sigops false (to_script o) n) (tx_outputs tx) outs /\
    Forall2 (fun i '(a, b) => input_cost spent i a b) (tx_inputs tx) (combine sh wit) /\
    length sh = length wit /\ length wit = length (tx_inputs tx) /\
    total_sigop_cost spent tx = Ret (4 * (sumN ins + sumN outs) + 4 * sumN sh + sumN wit).
Proof.
  intros spent tx (_ & _ & [Li Fi] & [Lo Fo]) Hsp.
  destruct (Forall2_exists _ _ _ (fun i n => count_sigops_legacy (ti_script i) = Ret n /\ script_sigops false (ti_script i) n /\ n <= 80000000) _ Fi) as (ins & F1).
  { intros i (_ & [Ls Hs] & _). unfold MAX_LEN in Ls. destruct (count_sigops_spec false (ti_script i) Hs ltac:(lia)) as (n & A & B & C). exists n. repeat split; auto. lia. }
  destruct (Forall2_exists _ _ _ (fun o n => count_sigops_legacy (to_script o) = Ret n /\ script_sigops false (to_script o) n /\ n <= 80000000) _ Fo) as (outs & F2).
  { intros i (_ & [Ls Hs]). unfold MAX_LEN in Ls. destruct (count_sigops_spec false (to_script i) Hs ltac:(lia)) as (n & A & B & C). exists n. repeat split; auto. lia. }
  destruct (Forall2_exists _ (N * N) _ (fun i '(a, b) =>
     input_cost spent i a b /\ a <= 80000000 /\ b <= 80000000 /\
     match spent (ti_prevout i) with Some p => p2sh_sigops_one p i | None => Ret 0 end = Ret a /\
     match spent (ti_prevout i) with Some p => witness_sigops_one p i | None => Ret 0 end = Ret b) _ Fi) as (costs & F3).
  { intros i (_ & Hs & _ & (ls & St & _ & Sk)). unfold input_cost. destruct (spent (ti_prevout i)) as [o|] eqn:Es.
    - pose proof (Hsp _ _ Es) as Ho. destruct (p2sh_one_spec o i Ho Hs) as (a & A1 & A2 & A3).
      destruct (witness_one_spec o i ls Ho Hs St Sk) as (b & B1 & B2 & B3). exists (a, b). repeat (split; eauto).
    - exists (0, 0). repeat split; lia. }
  set (sh := map fst costs). set (wit := map snd costs).
  assert (Cmb : combine sh wit = costs) by (unfold sh, wit; clear; induction costs as [|[a b] c IH]; cbn [map combine fst snd]; [|rewrite IH]; reflexivity).
  assert (L1 : lenN ins = lenN (tx_inputs tx)) by (symmetry; eapply Forall2_len; eauto).
  assert (L2 : lenN outs = lenN (tx_outputs tx)) by (symmetry; eapply Forall2_len; eauto).
  assert (L3 : lenN costs = lenN (tx_inputs tx)) by (symmetry; eapply Forall2_len; eauto).
  unfold MAX_LEN in *.
  assert (S1 : sumN ins <= 80000000 * lenN ins) by (apply sum_bound; eapply Forall2_r; [exact F1|]; cbn beta; tauto).
  assert (S2 : sumN outs <= 80000000 * lenN outs) by (apply sum_bound; eapply Forall2_r; [exact F2|]; cbn beta; tauto).
  assert (S3 : sumN sh <= 80000000 * lenN sh).
  { apply sum_bound. unfold sh. apply Forall_map. eapply Forall2_r; [exact F3|]. cbn beta. intros x [a b]. cbn [fst]. tauto. }
  assert (S4 : sumN wit <= 80000000 * lenN wit).
  { apply sum_bound. unfold wit. apply Forall_map. eapply Forall2_r; [exact F3|]. cbn beta. intros x [a b]. cbn [snd]. tauto. }
  assert (L4 : lenN sh = lenN costs) by apply lenN_map. assert (L5 : lenN wit = lenN costs) by apply lenN_map.
  exists ins, outs, sh, wit.
  split; [eapply Forall2_imp; [exact F1|]; cbn beta; tauto|].
  split; [eapply Forall2_imp; [exact F2|]; cbn beta; tauto|].
  split; [rewrite Cmb; eapply Forall2_imp; [exact F3|]; cbn beta; intros x [a b]; tauto|].
  split; [unfold sh, wit; rewrite !map_length; reflexivity|].
  split; [unfold wit; rewrite map_length; unfold lenN in L3; lia|].
  unfold total_sigop_cost, count_p2pk_p2pkh_sigops, count_p2sh_sigops, count_witness_sigops.
  rewrite (sat_sum_exact _ _ _ ins) by ((eapply Forall2_imp; [exact F1|]; cbn beta; tauto) || lia). cbn [rbind].
  rewrite (sat_sum_exact _ _ _ outs) by ((eapply Forall2_imp; [exact F2|]; cbn beta; tauto) || lia). cbn [rbind].
  rewrite (sat_sum_exact _ _ _ sh); [|unfold sh|lia].
  2:{ clear -F3. induction F3 as [|x [a b] l l' H F IH]; cbn [map fst]; constructor; auto. tauto. }
  cbn [rbind].
  rewrite (sat_sum_exact _ _ _ wit); [|unfold wit|lia].
  2:{ clear -F3. induction F3 as [|x [a b] l l' H F IH]; cbn [map snd]; constructor; auto. tauto. }
  cbn [rbind]. unfold sat_add, sat_mul, USIZE_MAX. change (USIZE - 1) with (2 ^ 64 - 1).
  rewrite !N.add_0_l. rewrite !N.min_l by lia. f_equal. lia.
Qed.
