(** The instruction iterator parses exactly the script format. *)
From Verif Require Import Base MDec MWitness MAmount MTx MTxSize MScript SScript LScript.
Local Open Scope N_scope.

Lemma rpdl_short : forall d k, lenN d < k -> read_push_data_len d k = None.
Proof. intros. unfold read_push_data_len. destruct (N.ltb_spec (lenN d) k); [reflexivity|lia]. Qed.
Lemma rpdl_ok : forall a r, read_push_data_len (a ++ r) (lenN a) = Some (le_val a, r).
Proof.
  intros. unfold read_push_data_len. rewrite lenN_app. destruct (N.ltb_spec (lenN a + lenN r) (lenN a)); [lia|].
  replace (N.to_nat (lenN a)) with (length a) by (unfold lenN; lia).
  rewrite firstn_app, firstn_all, Nat.sub_diag, skipn_app, skipn_all, Nat.sub_diag.
  cbn [firstn skipn app]. rewrite app_nil_r. reflexivity.
Qed.

Lemma le_bytes_of_val : forall a n, bytes_ok a -> lenN a = N.of_nat n -> le_bytes n (le_val a) = a.
Proof. intros a n Ha L. unfold lenN in L. assert (length a = n) as <- by lia. apply le_bytes_val; auto. Qed.

Section PD.
Variables (op : N) (k : nat) (min : N).
Hypothesis Hk : (k = 1 \/ k = 2 \/ k = 4)%nat.
Hypothesis Hop : 76 <= op <= 78.
Hypothesis enc_k : forall d, lenN d < 256 ^ N.of_nat k -> encodes (PushBytes d) (op :: le_bytes k (lenN d) ++ d).
Hypothesis enc_inv : forall i e, encodes i (op :: e) -> exists d, i = PushBytes d /\ e = le_bytes k (lenN d) ++ d /\ lenN d < 256 ^ N.of_nat k.
Hypothesis short_k : forall d, lenN d < 256 ^ N.of_nat k -> (shortest (PushBytes d) (op :: le_bytes k (lenN d) ++ d) <-> min <= lenN d).
Hypothesis head_k : forall r, short_header (op :: r) <-> exists a r', lenN a = N.of_nat k /\ r = a ++ r' /\ le_val a < min.
Hypothesis next_k : forall m r, instr_next m (op :: r) = next_push_data_len m r (N.of_nat k) min.

Lemma step_pd : forall m r, bytes_ok r -> step_ok m (op :: r).
Proof using Hk Hop enc_k enc_inv short_k head_k next_k.
  intros m r Hr. unfold step_ok. rewrite next_k. unfold next_push_data_len.
  destruct (N.ltb_spec (lenN r) (N.of_nat k)) as [L|L].
  - right. right. right. rewrite rpdl_short by auto. rewrite kill_nil. split; [|split; [|reflexivity]].
    + intros i e s' H E. destruct e as [|b e]; [inversion H|]. cbn [app] in E. injection E as <- E.
      apply enc_inv in H. destruct H as (d & -> & -> & _). subst r. rewrite !lenN_app, lenN_le_bytes in L. lia.
    + intros _ H. apply head_k in H. destruct H as (a & r' & La & -> & _). rewrite lenN_app in L. lia.
  - destruct (split_len _ r _ L) as (a & r1 & -> & La). apply bytes_ok_app in Hr. destruct Hr as [Ha Hr1].
    replace (read_push_data_len (a ++ r1) (N.of_nat k)) with (Some (le_val a, r1))
      by (rewrite <- La; symmetry; apply rpdl_ok).
    set (n := le_val a) in *.
    assert (Hn : n < 256 ^ N.of_nat k) by (rewrite <- La; apply le_val_lt; auto).
    assert (Hn32 : n <= U32_MAX).
    { unfold U32_MAX. destruct Hk as [->|[->| ->]]; cbn in Hn; lia. }
    assert (Eh : short_header (op :: a ++ r1) <-> n < min).
    { rewrite head_k. split.
      - intros (a' & r' & La' & E & Hlt). apply app_inj_lenN in E; [|congruence]. destruct E as [-> ->]. exact Hlt.
      - intro. exists a, r1. auto. }
    assert (Estuck : lenN r1 < n -> stuck (op :: a ++ r1)).
    { intros Hs i e s' H E. destruct e as [|b e]; [inversion H|]. cbn [app] in E. injection E as <- E.
      apply enc_inv in H. destruct H as (d & -> & -> & Hd). rewrite <- app_assoc in E.
      apply app_inj_lenN in E; [|rewrite lenN_le_bytes; auto]. destruct E as [Ea ->].
      unfold n in Hs. rewrite Ea, le_val_bytes in Hs by auto. rewrite lenN_app in Hs. lia. }
    destruct (N.leb_spec n (lenN r1)) as [Ln|Ln].
    + destruct (split_len _ r1 n Ln) as (d & s' & -> & Ld).
      assert (Ed : a = le_bytes k (lenN d)).
      { rewrite Ld. unfold n. symmetry. apply le_bytes_of_val; auto. }
      assert (Ee : op :: a ++ d ++ s' = (op :: le_bytes k (lenN d) ++ d) ++ s')
        by (cbn [app]; rewrite <- app_assoc, <- Ed; reflexivity).
      assert (Hd : lenN d < 256 ^ N.of_nat k) by (rewrite Ld; auto).
      destruct (m && (n <? min)) eqn:T.
      * right. left. apply andb_true_iff in T. destruct T as [Tm Tn]. apply N.ltb_lt in Tn. rewrite kill_nil.
        exists (PushBytes d), (op :: le_bytes k (lenN d) ++ d), s'. split; [exact Ee|].
        split; [apply enc_k; auto|]. split; [auto|]. split; [|reflexivity].
        rewrite short_k by auto. lia.
      * left. exists (PushBytes d), (op :: le_bytes k (lenN d) ++ d), s'. split; [exact Ee|].
        split; [apply enc_k; auto|]. split.
        -- intros ->. cbn [andb] in T. apply N.ltb_ge in T. rewrite short_k by auto. lia.
        -- destruct (N.ltb_spec U32_MAX n); [lia|]. rewrite <- Ld. rewrite take_ok; [reflexivity|].
           unfold U32_MAX in *. lia.
    + destruct (m && (n <? min)) eqn:T.
      * right. right. left. apply andb_true_iff in T. destruct T as [Tm Tn]. apply N.ltb_lt in Tn.
        rewrite kill_nil. split; [auto|]. split; [auto|]. split; [tauto|reflexivity].
      * right. right. right. split; [auto|]. split.
        -- intros -> H. cbn [andb] in T. apply N.ltb_ge in T. apply Eh in H. lia.
        -- destruct (N.ltb_spec U32_MAX n); [lia|]. rewrite take_short by auto. reflexivity.
Qed.
End PD.

Lemma next_pd : forall op m r, 76 <= op <= 78 -> instr_next m (op :: r) =
  if op =? OP_PUSHDATA1 then next_push_data_len m r 1 76
  else if op =? OP_PUSHDATA2 then next_push_data_len m r 2 256
  else if op =? OP_PUSHDATA4 then next_push_data_len m r 4 65536
  else Ret (Some (Ok (Op op)), r).
Proof. intros. unfold instr_next. rewrite classify_pd by auto. reflexivity. Qed.

Lemma step_pd1 : forall m r, bytes_ok r -> step_ok m (76 :: r).
Proof.
  apply (step_pd 76 1 76); [auto|lia|apply enc_pushdata1| |apply shortest_pd1| |].
  - intros i e H. inversion H; subst; try lia. eexists. split; [reflexivity|]. split; [reflexivity|assumption].
  - intro r. split.
    + intros [(n & r' & E & Hn)|[(a & r' & _ & E & _)|(a & r' & _ & E & _)]]; try discriminate.
      injection E as ->. exists [n], r'. split; [reflexivity|]. split; [reflexivity|]. cbn [le_val]. lia.
    + intros (a & r' & La & -> & Hlt). left. destruct a as [|x [|]]; [discriminate La| |rewrite !lenN_cons in La; lia].
      exists x, r'. split; [reflexivity|]. cbn [le_val] in Hlt. lia.
  - intros. apply (next_pd 76). lia.
Qed.
Lemma step_pd2 : forall m r, bytes_ok r -> step_ok m (77 :: r).
Proof.
  apply (step_pd 77 2 256); [auto|lia|apply enc_pushdata2| |apply shortest_pd2| |].
  - intros i e H. inversion H; subst; try lia. eexists. split; [reflexivity|]. split; [reflexivity|assumption].
  - intro r. split.
    + intros [(n & r' & E & Hn)|[(a & r' & La & E & Hlt)|(a & r' & _ & E & _)]]; try discriminate.
      injection E as ->. exists a, r'. auto.
    + intros (a & r' & La & -> & Hlt). right. left. exists a, r'. auto.
  - intros. apply (next_pd 77). lia.
Qed.
Lemma step_pd4 : forall m r, bytes_ok r -> step_ok m (78 :: r).
Proof.
  apply (step_pd 78 4 65536); [auto|lia|apply enc_pushdata4| |apply shortest_pd4| |].
  - intros i e H. inversion H; subst; try lia. eexists. split; [reflexivity|]. split; [reflexivity|assumption].
  - intro r. split.
    + intros [(n & r' & E & Hn)|[(a & r' & La & E & Hlt)|(a & r' & La & E & Hlt)]]; try discriminate.
      injection E as ->. exists a, r'. auto.
    + intros (a & r' & La & -> & Hlt). right. right. exists a, r'. auto.
  - intros. apply (next_pd 78). lia.
Qed.

Lemma next_op : forall m op r, 79 <= op <= 255 -> instr_next m (op :: r) = Ret (Some (Ok (Op op)), r).
Proof.
  intros m op r H. unfold instr_next. destruct (classify_op op H) as (cl & -> & C). cbn [rbind].
  destruct cl; try reflexivity; [destruct C|].
  unfold OP_PUSHDATA1, OP_PUSHDATA2, OP_PUSHDATA4.
  destruct (N.eqb_spec op0 76); [lia|]. destruct (N.eqb_spec op0 77); [lia|]. destruct (N.eqb_spec op0 78); [lia|].
  reflexivity.
Qed.

Lemma step_all : forall m b r, bytes_ok (b :: r) -> step_ok m (b :: r).
Proof.
  intros m b r H. apply bytes_ok_cons in H. destruct H as [Hb Hr]. unfold byte_ok in Hb.
  destruct (N.leb_spec b 75); [apply step_direct; auto|].
  destruct (N.eqb_spec b 76) as [->|]; [apply step_pd1; auto|].
  destruct (N.eqb_spec b 77) as [->|]; [apply step_pd2; auto|].
  destruct (N.eqb_spec b 78) as [->|]; [apply step_pd4; auto|].
  left. exists (Op b), [b], r. split; [reflexivity|]. split; [apply enc_opcode; lia|].
  split; [intros _; apply shortest_op|]. apply next_op. lia.
Qed.

(** ** Collecting *)
Lemma collect_nil : forall f m, collect_fuel (S f) m [] = Ret [].
Proof. reflexivity. Qed.
Lemma collect_S : forall f m data, collect_fuel (S f) m data =
  rbind (instr_next m data) (fun '(o, data') =>
      match o with
      | None => Ret []
      | Some i => rbind (collect_fuel f m data') (fun l => Ret (i :: l))
      end).
Proof. reflexivity. Qed.
Lemma collect_idx_S : forall f m st, collect_indices_fuel (S f) m st =
  rbind (indices_next m st) (fun '(o, st') =>
      match o with
      | None => Ret []
      | Some i => rbind (collect_indices_fuel f m st') (fun l => Ret (i :: l))
      end).
Proof. reflexivity. Qed.

Lemma collect_parses : forall n f m pos s, length s = n -> (n < f)%nat -> bytes_ok s ->
  exists l, parses m pos s l /\ collect_fuel f m s = Ret (map strip l)
    /\ (pos + lenN s < USIZE -> collect_indices_fuel f m (s, pos) = Ret l).
Proof.
  induction n as [n IH] using lt_wf_ind. intros f m pos s Hn Hf Hs.
  destruct f as [|f]; [lia|]. rewrite collect_S, collect_idx_S. unfold indices_next.
  destruct s as [|b r].
  { exists []. split; [constructor|]. split; reflexivity. }
  pose proof (step_all m b r Hs) as St. set (s := b :: r) in *.
  assert (Herr : forall e, instr_next m s = Ret (Some (Err e), []) ->
     rbind (instr_next m s) (fun '(o, data') => match o with
      | None => Ret [] | Some i => rbind (collect_fuel f m data') (fun l => Ret (i :: l)) end) = Ret [Err e]
     /\ (pos + lenN s < USIZE -> rbind (rbind (instr_next m s) (fun '(o, data') => match o with
        | None => Ret (None, (data', pos))
        | Some i => if lenN s <? lenN data' then Panic else
           let consumed := lenN s - lenN data' in
           rbind (usz (pos + consumed)) (fun pos' => Ret (Some (match i with Ok x => Ok (pos, x) | Err e => Err e end), (data', pos'))) end))
        (fun '(o, st') => match o with None => Ret [] | Some i => rbind (collect_indices_fuel f m st') (fun l => Ret (i :: l)) end)
        = Ret [Err e])).
  { intros e E. rewrite E. cbn [rbind]. destruct f as [|f']; [unfold s in Hn; cbn [length] in Hn; lia|].
    split; [reflexivity|]. intro Hp. destruct (N.ltb_spec (lenN s) (lenN (@nil N))) as [HH|HH]; [rewrite lenN_nil in HH; lia|].
    rewrite lenN_nil, N.sub_0_r. cbn zeta. unfold usz. destruct (N.ltb_spec (pos + lenN s) USIZE); [|lia]. reflexivity. }
  destruct St as [(i & e & s' & E & He & Sh & En)|[(i & e & s' & E & He & Hm & Sh & En)|[(Hst & Hm & Hh & En)|(Hst & Hh & En)]]].
  - pose proof (encodes_len1 _ _ He) as L1.
    assert (Ls : lenN s = lenN e + lenN s') by (rewrite E; apply lenN_app).
    assert (Hs' : bytes_ok s') by (rewrite E in Hs; apply bytes_ok_app in Hs; tauto).
    destruct (IH (length s') ltac:(unfold lenN in *; lia) f m (pos + lenN e) s' eq_refl ltac:(unfold lenN in *; lia) Hs')
      as (l & P & C1 & C2).
    exists (Ok (pos, i) :: l). split; [rewrite E; constructor; auto|]. rewrite En. cbn [rbind].
    rewrite C1. split; [reflexivity|]. intro Hp. specialize (C2 ltac:(lia)).
    destruct (N.ltb_spec (lenN s) (lenN s')); [lia|]. cbn zeta.
    replace (lenN s - lenN s') with (lenN e) by lia.
    unfold usz. destruct (N.ltb_spec (pos + lenN e) USIZE); [|lia]. cbn [rbind]. unfold bytes in *. rewrite C2. reflexivity.
  - exists [Err NonMinimalPush]. split; [rewrite E; eapply parses_non_minimal; eauto|]. apply Herr; auto.
  - exists [Err NonMinimalPush]. split; [apply parses_short_header; auto|]. apply Herr; auto.
  - exists [Err EarlyEndOfScript]. split; [apply parses_early_end; auto; discriminate|]. apply Herr; auto.
Qed.

Definition instrs (m : bool) (s : bytes) : rust (list item) := collect_fuel (S (length s)) m s.

Lemma instrs_parses : forall m s, bytes_ok s ->
  exists l, parses m 0 s l /\ instrs m s = Ret (map strip l) /\ (lenN s < USIZE -> instruction_indices m s = Ret l).
Proof. intros m s H. apply (collect_parses (length s)); auto. Qed.

(** ** The specification determines the result *)
Lemma stuck_nil : stuck [].
Proof. intros i e s' H E. apply encodes_nonempty in H. destruct e; [congruence|discriminate]. Qed.

Lemma parses_det : forall m pos s l1, parses m pos s l1 -> forall l2, parses m pos s l2 -> l1 = l2.
Proof.
  intros m pos s l1 H. induction H; intros l2 H2.
  - inversion H2; subst; auto; try congruence.
    + match goal with H : encodes ?i ?e |- _ => destruct (encodes_nonempty _ _ H); destruct e; [auto|discriminate] end.
    + match goal with H : encodes ?i ?e |- _ => destruct (encodes_nonempty _ _ H); destruct e; [auto|discriminate] end.
    + match goal with H : short_header [] |- _ => destruct H as [(?&?&E&_)|[(?&?&_&E&_)|(?&?&_&E&_)]]; discriminate end.
  - inversion H2; subst.
    + destruct (encodes_nonempty _ _ H). destruct e; [auto|discriminate].
    + match goal with A : encodes ?i ?e, B : encodes ?i' ?e', E : ?e ++ ?s = ?e' ++ ?s' |- _ =>
        destruct (encodes_prefix _ _ _ _ _ _ A B E) as (-> & -> & ->) end.
      f_equal. apply IHparses. assumption.
    + match goal with A : encodes ?i ?e, B : encodes ?i' ?e', E : ?e ++ ?s = ?e' ++ ?s' |- _ =>
        destruct (encodes_prefix _ _ _ _ _ _ A B E) as (-> & -> & ->) end. tauto.
    + exfalso. eapply H3; eauto.
    + exfalso. eapply H4; eauto.
  - inversion H2; subst.
    + destruct (encodes_nonempty _ _ H). destruct e; [auto|discriminate].
    + match goal with A : encodes ?i ?e, B : encodes ?i' ?e', E : ?e ++ ?s = ?e' ++ ?s' |- _ =>
        destruct (encodes_prefix _ _ _ _ _ _ A B E) as (-> & -> & ->) end. tauto.
    + reflexivity.
    + reflexivity.
    + exfalso. eapply H4; eauto.
  - inversion H2; subst; auto.
    + destruct H1 as [(?&?&E&_)|[(?&?&_&E&_)|(?&?&_&E&_)]]; discriminate.
    + exfalso. eapply H; eauto.
    + tauto.
  - inversion H2; subst; auto.
    + congruence.
    + exfalso. eapply H0; eauto.
    + exfalso. eapply H0; eauto.
    + tauto.
Qed.
