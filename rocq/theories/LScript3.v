(** Building scripts. *)
From Verif Require Import Base MDec MWitness MAmount MTx MTxSize MScript SScript LScript LScript2 LScriptNum.
Local Open Scope N_scope.

Definition good (m : bool) (i : instr) (e : bytes) : Prop := encodes i e /\ (m = true -> shortest i e).
(** [s] consists of exactly the instructions [l] *)
Definition built (m : bool) (s : bytes) (l : list instr) : Prop :=
  bytes_ok s /\ exists es, s = concat es /\ Forall2 (good m) l es.

Lemma parses_split : forall m pos s r, parses m pos s r -> forall l, map strip r = map Ok l ->
  exists es, s = concat es /\ Forall2 (good m) l es.
Proof.
  intros m pos s r H. induction H; intros k E.
  - destruct k; [|discriminate]. exists []. split; [reflexivity|constructor].
  - destruct k as [|j k]; [discriminate|]. cbn [map strip] in E. injection E as <- E.
    destruct (IHparses k E) as (es & -> & F). exists (e :: es). split; [reflexivity|].
    constructor; [split; auto|auto].
  - destruct k; discriminate.
  - destruct k; discriminate.
  - destruct k; discriminate.
Qed.

Lemma split_parses : forall m l es, Forall2 (good m) l es -> forall pos,
  exists r, parses m pos (concat es) r /\ map strip r = map Ok l.
Proof.
  intros m l es H. induction H; intros pos.
  - exists []. split; [constructor|reflexivity].
  - destruct (IHForall2 (pos + lenN y)) as (r & P & E). destruct H as [H1 H2].
    exists (Ok (pos, x) :: r). split; [cbn [concat]; constructor; auto|]. cbn [map strip]. rewrite E. reflexivity.
Qed.

Lemma built_reads : forall m s l, built m s l <-> bytes_ok s /\ instrs m s = Ret (map Ok l).
Proof.
  intros m s l. split.
  - intros (Hs & es & E & F). split; [exact Hs|]. destruct (instrs_parses m s Hs) as (r & P & -> & _).
    destruct (split_parses m l es F 0) as (r' & P' & <-). rewrite <- E in P'.
    rewrite (parses_det _ _ _ _ P _ P'). reflexivity.
  - intros [Hs R]. split; [exact Hs|]. destruct (instrs_parses m s Hs) as (r & P & E & _).
    rewrite E in R. assert (R2 : map strip r = map Ok l) by congruence. eapply parses_split; eauto.
Qed.

Lemma good_weaken : forall m l es, Forall2 (good m) l es -> Forall2 (good false) l es.
Proof. intros m l es H. induction H; constructor; auto. destruct H. split; [auto|discriminate]. Qed.
Lemma built_weaken : forall m s l, built m s l -> built false s l.
Proof. intros m s l (Hs & es & E & F). split; [auto|]. exists es. split; [auto|]. eapply good_weaken; eauto. Qed.

Lemma built_nil : forall m, built m [] [].
Proof. intro m. split; [constructor|]. exists []. split; [reflexivity|constructor]. Qed.

Lemma built_snoc : forall m s l i e, built m s l -> good m i e -> bytes_ok e -> built m (s ++ e) (l ++ [i]).
Proof.
  intros m s l i e (Hs & es & -> & F) G He. split; [apply bytes_ok_app; auto|].
  exists (es ++ [e]). split; [rewrite concat_app; cbn [concat]; rewrite app_nil_r; reflexivity|].
  apply Forall2_app; [exact F|]. constructor; [exact G|constructor].
Qed.

Lemma built_app : forall m s l s' l', built m s l -> built m s' l' -> built m (s ++ s') (l ++ l').
Proof.
  intros m s l s' l' (Hs & es & -> & F) (Hs' & es' & -> & F'). split; [apply bytes_ok_app; auto|].
  exists (es ++ es'). split; [symmetry; apply concat_app|]. apply Forall2_app; assumption.
Qed.

Lemma built_op : forall m s l op, 79 <= op <= 255 -> built m s l -> built m (s ++ [op]) (l ++ [Op op]).
Proof.
  intros m s l op H B. apply built_snoc; auto.
  - split; [constructor; auto|]. intros _. apply shortest_op.
  - repeat constructor. unfold byte_ok. lia.
Qed.

Lemma push_no_opt_enc : forall s d, lenN d < 2 ^ 32 ->
  exists e, sb_push_slice_no_opt s d = s ++ e /\ encodes (PushBytes d) e /\
    (bytes_ok d -> bytes_ok e) /\ (special d = false -> shortest (PushBytes d) e).
Proof.
  intros s d H. unfold sb_push_slice_no_opt. change OP_PUSHDATA1 with 76.
  destruct (N.ltb_spec (lenN d) 76).
  { exists (lenN d :: d). rewrite <- app_assoc. unfold as_u8. rewrite N.mod_small by lia.
    split; [reflexivity|]. split; [apply enc_direct; lia|]. split; [intro; constructor; [unfold byte_ok; lia|auto]|].
    intro. apply shortest_direct; [lia|auto]. }
  destruct (N.ltb_spec (lenN d) 256).
  { exists (76 :: le_bytes 1 (lenN d) ++ d). rewrite <- !app_assoc.
    split; [reflexivity|]. split; [apply enc_pushdata1; lia|].
    split; [intro; constructor; [unfold byte_ok; lia|]; apply bytes_ok_app; split; [apply le_bytes_ok|auto]|].
    intros _. apply shortest_pd1; lia. }
  destruct (N.ltb_spec (lenN d) 65536).
  { exists (77 :: le_bytes 2 (lenN d) ++ d). rewrite <- !app_assoc.
    split; [|split; [apply enc_pushdata2; lia|]].
    - f_equal. cbn [le_bytes app]. unfold as_u8. rewrite N.mod_mod by lia. reflexivity.
    - split; [intro; constructor; [unfold byte_ok; lia|]; apply bytes_ok_app; split; [apply le_bytes_ok|auto]|].
      intros _. apply shortest_pd2; lia. }
  exists (78 :: le_bytes 4 (lenN d) ++ d). rewrite <- !app_assoc.
  split; [|split; [apply enc_pushdata4; lia|]].
  - f_equal. cbn [le_bytes app]. unfold as_u8. rewrite !N.mod_mod by lia.
    rewrite !N.div_div by lia. reflexivity.
  - split; [intro; constructor; [unfold byte_ok; lia|]; apply bytes_ok_app; split; [apply le_bytes_ok|auto]|].
    intros _. apply shortest_pd4; lia.
Qed.

Definition canon (d : bytes) : instr := if special d then Op (special_op d) else PushBytes d.
Lemma canon_pushed : forall d, pushed (canon d) = Some d.
Proof. intro d. unfold canon. destruct (special d) eqn:S; [apply special_push; auto|reflexivity]. Qed.

Lemma push_slice_cases : forall s d, sb_push_slice s d =
  if special d then s ++ [special_op d] else sb_push_slice_no_opt s d.
Proof.
  intros s d. unfold sb_push_slice, special, special_op, sb_push_slice_non_minimal.
  destruct d as [|b [|]]; try reflexivity.
  destruct (N.eqb_spec b 129); [reflexivity|]. unfold between. cbn [orb].
  destruct ((1 <=? b) && (b <=? 16)); reflexivity.
Qed.

Lemma push_slice_built : forall m s l d, built m s l -> bytes_ok d -> lenN d < 2 ^ 32 ->
  built m (sb_push_slice s d) (l ++ [canon d]).
Proof.
  intros m s l d B Hd Hl. rewrite push_slice_cases. unfold canon. destruct (special d) eqn:Sp.
  - apply built_op; auto. destruct (special_push d Sp). lia.
  - destruct (push_no_opt_enc s d Hl) as (e & -> & En & Ok & Sh). apply built_snoc; auto. split; auto.
Qed.
Lemma push_slice_nm_built : forall s l d, built false s l -> bytes_ok d -> lenN d < 2 ^ 32 ->
  built false (sb_push_slice_non_minimal s d) (l ++ [PushBytes d]).
Proof.
  intros s l d B Hd Hl. unfold sb_push_slice_non_minimal.
  destruct (push_no_opt_enc s d Hl) as (e & -> & En & Ok & Sh). apply built_snoc; auto. split; [auto|discriminate].
Qed.

Lemma special_num : forall d, special d = true -> bytes_ok d ->
  num_val d = (-1)%Z \/ (1 <= num_val d <= 16)%Z.
Proof.
  intros d S H. unfold special in S. destruct d as [|b [|]]; try discriminate.
  destruct (N.eqb_spec b 129) as [e|]; [subst b; left; reflexivity|]. cbn [orb] in S. eqbs. right.
  pose proof (num_val_snoc [] b ltac:(constructor) ltac:(lia)) as E. cbn [app] in E. rewrite E.
  unfold sgn. destruct (N.ltb_spec b 128); [|lia]. rewrite N.mod_small by lia. cbn [le_val].
  rewrite lenN_nil, N.pow_0_r. lia.
Qed.

Lemma push_int_built : forall m s l n, built m s l -> (- 2 ^ 63 < n < 2 ^ 63)%Z ->
  exists s' i d, sb_push_int_unchecked s n = Ret s' /\ built m s' (l ++ [i]) /\
    pushed i = Some d /\ bytes_ok d /\ num_val d = n /\ num_minimal d /\
    (i = PushBytes d \/ exists op, i = Op op /\ op_num op = Some n).
Proof.
  intros m s l n B Hn. unfold sb_push_int_unchecked, sb_push_opcode.
  destruct (Z.eqb_spec n (-1)) as [->|N1].
  { exists (s ++ [79]), (Op 79), [129]. split; [reflexivity|]. split; [apply built_op; [lia|auto]|].
    split; [reflexivity|]. split; [repeat constructor|]. split; [reflexivity|].
    split; [apply num_minimal_intro; [repeat constructor|]; right; left; split; [reflexivity|discriminate]|].
    right. exists 79. split; reflexivity. }
  destruct (Z.eqb_spec n 0) as [->|N0].
  { exists (s ++ [0]), (PushBytes []), []. split; [reflexivity|]. split.
    - apply built_snoc; [auto| |repeat constructor]. split; [apply (enc_direct []); rewrite lenN_nil; lia|].
      intros _. apply (shortest_direct []); [rewrite lenN_nil; lia|reflexivity].
    - split; [reflexivity|]. split; [constructor|]. split; [reflexivity|].
      split; [apply num_minimal_intro; [constructor|auto]|]. left. reflexivity. }
  destruct ((1 <=? n) && (n <=? 16))%Z eqn:R.
  { apply andb_true_iff in R. destruct R as [R1 R2]. apply Z.leb_le in R1, R2.
    change (OP_1 - 1) with 80. exists (s ++ [Z.to_N n + 80]), (Op (Z.to_N n + 80)), [Z.to_N n].
    split; [reflexivity|]. split; [apply built_op; [lia|auto]|].
    assert (Hv : num_val [Z.to_N n] = n).
    { pose proof (num_val_snoc [] (Z.to_N n) ltac:(constructor) ltac:(lia)) as E. cbn [app] in E. rewrite E.
      unfold sgn. destruct (N.ltb_spec (Z.to_N n) 128); [|lia]. rewrite N.mod_small by lia. cbn [le_val].
      rewrite lenN_nil, N.pow_0_r. lia. }
    assert (Hb : bytes_ok [Z.to_N n]) by (repeat constructor; unfold byte_ok; lia).
    split; [|split; [exact Hb|split; [exact Hv|]]].
    - unfold pushed. destruct (N.eqb_spec (Z.to_N n + 80) 79); [lia|].
      destruct (N.leb_spec 81 (Z.to_N n + 80)); [|lia]. destruct (N.leb_spec (Z.to_N n + 80) 96); [|lia].
      cbn [andb]. do 2 f_equal. lia.
    - split; [apply num_minimal_intro; [exact Hb|]; right; left; split; [reflexivity|]; rewrite Hv; exact N0|].
      right. exists (Z.to_N n + 80). split; [reflexivity|]. unfold op_num, between.
      destruct (N.leb_spec 81 (Z.to_N n + 80)); [|lia]. destruct (N.leb_spec (Z.to_N n + 80) 96); [|lia].
      cbn [andb]. f_equal. lia. }
  unfold sb_push_int_non_minimal. destruct (scriptint_bytes_ok n Hn) as (b & -> & Hb & Hv & Hm & Hl). cbn [rbind].
  assert (Sp : special b = false).
  { destruct (special b) eqn:Sp; [|reflexivity]. exfalso. destruct (special_num b Sp Hb) as [Q|Q]; [lia|].
    rewrite Hv in Q. destruct (Z.leb_spec 1 n), (Z.leb_spec n 16); cbn [andb] in R; try discriminate; lia. }
  destruct (push_no_opt_enc s b ltac:(lia)) as (e & -> & En & Ok & Sh).
  exists (s ++ e), (PushBytes b), b. split; [reflexivity|]. split; [apply built_snoc; auto; split; auto|].
  split; [reflexivity|]. repeat (split; [assumption|]). left. reflexivity.
Qed.

Lemma Forall2_snoc_inv : forall A B (R : A -> B -> Prop) l x es, Forall2 R (l ++ [x]) es ->
  exists es' e, es = es' ++ [e] /\ Forall2 R l es' /\ R x e.
Proof.
  intros A B R l x es H. apply Forall2_app_inv_l in H. destruct H as (es' & t & F & G & ->).
  inversion G as [|? e ? ? Hx Hn]; subst. inversion Hn; subst. eauto.
Qed.

Lemma snoc_cases_gen : forall A (l : list A), l = [] \/ exists w x, l = w ++ [x].
Proof. intros A l. destruct l using rev_ind; [auto|]. right. eauto. Qed.

Lemma last_opcode_built : forall m s l, built m s l ->
  last_opcode s = Ret (match rev l with Op op :: _ => Some op | _ => None end).
Proof.
  intros m s l B. apply built_weaken in B. apply built_reads in B. destruct B as [_ B].
  unfold last_opcode, last_item, instructions. unfold instrs in B. rewrite B. cbn [rbind].
  rewrite <- map_rev. destruct (rev l) as [|[d|op] t]; reflexivity.
Qed.

Lemma to_verify_of : forall op, opcode_to_verify (Some op) = verify_of op.
Proof. reflexivity. Qed.
Lemma verify_of_range : forall op op', verify_of op = Some op' -> 79 <= op' <= 255.
Proof.
  intros op op' H. unfold verify_of in H.
  destruct (op =? 135); [inv H; lia|]. destruct (op =? 156); [inv H; lia|].
  destruct (op =? 172); [inv H; lia|]. destruct (op =? 174); [inv H; lia|]. discriminate.
Qed.

Lemma verify_built : forall m s l, built m s l ->
  exists s' l', sb_scan_and_push_verify s = Ret s' /\ built m s' l' /\ bstep BVerify l l'.
Proof.
  intros m s l B. unfold sb_scan_and_push_verify. rewrite (last_opcode_built m s l B). cbn [rbind].
  destruct (snoc_cases_gen _ l) as [->|(w & x & ->)].
  - cbn [rev opcode_to_verify]. exists (s ++ [105]), ([] ++ [Op 105]). split; [reflexivity|].
    split; [apply built_op; [lia|auto]|]. apply bs_verify. intros l' op op' E. destruct l'; discriminate.
  - rewrite rev_unit. destruct x as [d|op].
    + cbn [opcode_to_verify]. eexists _, _. split; [reflexivity|]. split; [apply built_op; [|exact B]; vm_compute; split; discriminate|].
      apply bs_verify. intros l' op op' E. apply app_inj_tail in E. destruct E. discriminate.
    + rewrite to_verify_of. destruct (verify_of op) as [op'|] eqn:V.
      * exists (removelast s ++ [op']), (w ++ [Op op']). split; [reflexivity|]. split; [|constructor; auto].
        destruct B as (Hs & es & -> & F). apply Forall2_snoc_inv in F. destruct F as (es' & e & -> & F & [En _]).
        inversion En; subst. rewrite concat_app in *. cbn [concat app] in *. rewrite removelast_last.
        apply bytes_ok_app in Hs. apply built_op; [eapply verify_of_range; eauto|].
        split; [tauto|]. eauto.
      * eexists _, _. split; [reflexivity|]. split; [apply built_op; [|exact B]; vm_compute; split; discriminate|].
        apply bs_verify. intros l' o o' E. apply app_inj_tail in E. destruct E as [_ E]. inv E. congruence.
Qed.

Lemma run_op_built : forall m s l o, built m s l -> bop_ok o -> (m = true -> bop_min o = true) ->
  exists s' l', run_op s o = Ret s' /\ built m s' l' /\ bstep o l l'.
Proof.
  intros m s l o B Ho Hm. destruct o as [op|d|d|n| |i]; cbn [run_op bop_ok] in *.
  - destruct Ho as [->|Ho].
    + exists (s ++ [0]), (l ++ [PushBytes []]). split; [reflexivity|]. split; [|constructor].
      apply built_snoc; [auto| |repeat constructor]. split; [apply (enc_direct []); rewrite lenN_nil; lia|].
      intros _. apply (shortest_direct []); [rewrite lenN_nil; lia|reflexivity].
    + exists (s ++ [op]), (l ++ [Op op]). split; [reflexivity|]. split; [apply built_op; auto|]. constructor. lia.
  - destruct Ho. eexists _, _. split; [reflexivity|]. split; [apply push_slice_built; eauto|]. constructor. apply canon_pushed.
  - destruct Ho. cbn [bop_min] in Hm. destruct m; [specialize (Hm eq_refl); discriminate|].
    eexists _, _. split; [reflexivity|]. split; [apply push_slice_nm_built; eauto|]. constructor.
  - destruct (push_int_built m s l n B Ho) as (s' & i & d & E & B' & P & _ & V & M & _).
    exists s', (l ++ [i]). split; [exact E|]. split; [exact B'|]. econstructor; eauto.
  - apply verify_built. exact B.
  - destruct i as [d|op]; cbn [sb_push_instruction] in *.
    + destruct Ho. eexists _, _. split; [reflexivity|]. split; [apply push_slice_built; eauto|]. constructor. apply canon_pushed.
    + eexists _, _. split; [reflexivity|]. split; [apply built_op; eauto|]. constructor.
Qed.

Lemma run_ops_built : forall m os s l, built m s l -> Forall bop_ok os -> (m = true -> forallb bop_min os = true) ->
  exists s' l', run_ops s os = Ret s' /\ built m s' l' /\ bsteps os l l'.
Proof.
  intros m. induction os as [|o os IH]; intros s l B Ho Hm.
  - exists s, l. split; [reflexivity|]. split; [auto|constructor].
  - inv Ho. assert (Hm1 : m = true -> bop_min o = true /\ forallb bop_min os = true).
    { intro Q. specialize (Hm Q). cbn [forallb] in Hm. apply andb_true_iff in Hm. exact Hm. }
    destruct (run_op_built m s l o B) as (s1 & l1 & E1 & B1 & S1); [auto|intro Q; apply Hm1; auto|].
    destruct (IH s1 l1 B1) as (s2 & l2 & E2 & B2 & S2); [auto|intro Q; apply Hm1; auto|].
    exists s2, l2. cbn [run_ops]. rewrite E1. cbn [rbind]. split; [exact E2|]. split; [exact B2|]. econstructor; eauto.
Qed.

(** Re-assembling a script from its instructions. *)
Lemma fold_push_built : forall m l s l0, built m s l0 ->
  Forall (fun i => match i with Op op => 79 <= op <= 255 | PushBytes d => bytes_ok d /\ lenN d < 2 ^ 32 end) l ->
  exists l1, built m (fold_left sb_push_instruction l s) (l0 ++ l1) /\ map pushed l1 = map pushed l /\
    Forall2 (fun i j => match i with Op op => j = Op op | PushBytes d => pushed j = Some d end) l l1.
Proof.
  intros m. induction l as [|i l IH]; intros s l0 B F.
  - exists []. rewrite app_nil_r. split; [exact B|]. split; [reflexivity|constructor].
  - inv F. cbn [fold_left]. destruct i as [d|op]; cbn [sb_push_instruction].
    + destruct H1 as [Hd Hl]. destruct (IH _ _ (push_slice_built m s l0 d B Hd Hl) H2) as (l1 & B1 & M1 & F1).
      exists (canon d :: l1). rewrite <- app_assoc in B1. split; [exact B1|]. cbn [map]. rewrite canon_pushed, M1.
      split; [reflexivity|]. constructor; [apply canon_pushed|exact F1].
    + destruct (IH _ _ (built_op m s l0 op H1 B) H2) as (l1 & B1 & M1 & F1).
      exists (Op op :: l1). rewrite <- app_assoc in B1. split; [exact B1|]. cbn [map]. rewrite M1.
      split; [reflexivity|]. constructor; auto.
Qed.

Lemma min_encoding_unique : forall i e e', encodes i e -> encodes i e' -> shortest i e -> shortest i e' -> e = e'.
Proof.
  intros i e e' H H' M M'. destruct i as [d|op].
  - assert (L : length e = length e').
    { assert (P : pushed (PushBytes d) = Some d) by reflexivity.
      pose proof (M d _ _ P P H'). pose proof (M' d _ _ P P H). lia. }
    revert L. inversion H; inversion H'; subst; lens; intro L; try reflexivity; exfalso; lia.
  - inversion H; inversion H'; subst. reflexivity.
Qed.

Lemma good_push_eq : forall i e s, good true i e -> bytes_ok e ->
  sb_push_instruction s i = s ++ e.
Proof.
  intros i e s [En Sh] He. specialize (Sh eq_refl). destruct i as [d|op]; cbn [sb_push_instruction].
  - pose proof (encodes_len _ _ En) as Hl. rewrite push_slice_cases.
    destruct (special d) eqn:Sp.
    + exfalso. apply (shortest_iff _ _ d En eq_refl) in Sh. unfold min_len in Sh. rewrite Sp in Sh.
      pose proof (special_len d Sp) as L1. unfold lenN in L1. revert Sh. inversion En; subst; lens; lia.
    + destruct (push_no_opt_enc s d Hl) as (e' & -> & En' & _ & Sh'). f_equal.
      eapply min_encoding_unique; eauto.
  - inversion En; subst. reflexivity.
Qed.
Lemma good_push_no_opt_eq : forall i e s, good true i e -> bytes_ok e ->
  sb_push_instruction_no_opt s i = s ++ e.
Proof.
  intros i e s G He. rewrite <- (good_push_eq i e s G He). destruct i as [d|op]; [|reflexivity].
  cbn [sb_push_instruction sb_push_instruction_no_opt]. rewrite push_slice_cases. destruct (special d) eqn:Sp; [|reflexivity].
  exfalso. destruct G as [En Sh]. specialize (Sh eq_refl).
  apply (shortest_iff _ _ d En eq_refl) in Sh. unfold min_len in Sh. rewrite Sp in Sh.
  pose proof (special_len d Sp) as L1. unfold lenN in L1. revert Sh. inversion En; subst; lens; lia.
Qed.

Lemma fold_rebuild : forall l es, Forall2 (good true) l es -> bytes_ok (concat es) -> forall s,
  fold_left sb_push_instruction l s = s ++ concat es /\
  fold_left sb_push_instruction_no_opt l s = s ++ concat es.
Proof.
  intros l es F. induction F as [|i e l es G F IH]; intros H s.
  - cbn [fold_left concat]. rewrite app_nil_r. auto.
  - cbn [concat] in *. apply bytes_ok_app in H. destruct H as [He Hes]. cbn [fold_left].
    rewrite (good_push_eq i e s G He), (good_push_no_opt_eq i e s G He).
    rewrite app_assoc. apply IH. exact Hes.
Qed.

Lemma from_iter_round_trip : forall s l hint, bytes_ok s -> instrs true s = Ret (map Ok l) ->
  (forall m, hint = Some m -> lenN l <= m) ->
  sb_from_iter hint l = Ret s.
Proof.
  intros s l hint Hs R Hh. assert (B : built true s l) by (apply built_reads; auto).
  destruct B as (_ & es & -> & F). destruct (fold_rebuild l es F Hs []) as [E1 E2]. cbn [app] in *.
  unfold sb_from_iter, sb_extend. rewrite E1, E2. destruct hint as [m|]; [|reflexivity].
  specialize (Hh m eq_refl). destruct (N.ltb_spec m 6); [|reflexivity].
  destruct (N.ltb_spec 5 (lenN l)); [lia|reflexivity].
Qed.
