(** The transaction decoder is lawful, inverts the encoder and is canonical. *)
From Verif Require Import Base MDec LDec LDec2 LPrefix LCompact MWitness SWitness LWitness LWitDec MTx MAmount LCodec.
Local Open Scope N_scope.

(** A sub-decoder pushed inside a larger state machine. *)
Lemma sub_push : forall A E (D : decoder A E) g den, lawful D g den -> nontrivial g den -> forall a l, g a ->
  match push D a l with
  | (a', r, NeedsMore) => g a' /\ (exists p, l = p ++ r /\ (l <> [] -> p <> [])) /\ forall t, den a (l ++ t) = den a' (r ++ t)
  | (a', r, Ready) =>
      (exists p, l = p ++ r) /\
      match fin D a' with
      | Ret (Ok v) => (exists p, l = p ++ r /\ p <> []) /\ forall t, den a (l ++ t) = Done v (r ++ t)
      | Ret (Err e) => forall t, den a (l ++ t) = Fail e
      | Panic => forall t, den a (l ++ t) = Boom
      end
  | (_, r, PErr e) => (exists p, l = p ++ r) /\ forall t, den a (l ++ t) = Fail e
  | (_, _, PPanic) => forall t, den a (l ++ t) = Boom
  end.
Proof.
  intros A E D g den L NT a l G. pose proof (law_push _ _ _ L a l G) as P.
  destruct (push D a l) as [[a' r] []]; auto.
  destruct P as [P1 P2]. split; auto. destruct (fin D a') as [[v|e]|]; auto.
  split; auto. pose proof (P2 []) as K. rewrite !app_nil_r in K. cbn [of_fin of_res] in K.
  destruct (nontrivial_consumes D g den L NT _ _ _ _ G K) as (p & E1 & E2 & _). eauto.
Qed.

Lemma set_witness_len : forall ins i w ins', set_witness ins i w = Ret ins' -> lenN ins' = lenN ins.
Proof.
  induction ins; intros i w ins' H; cbn in H; [discriminate|]. destruct i.
  - inv H. now rewrite !lenN_cons.
  - destruct (set_witness ins i w) eqn:E; inv H. rewrite !lenN_cons. f_equal. eauto.
Qed.
Lemma set_witness_ok : forall ins i w, (i < length ins)%nat -> exists ins', set_witness ins i w = Ret ins'.
Proof.
  induction ins; intros i w H; cbn in *; [lia|]. destruct i; [eauto|].
  destruct (IHins i w) as [r ->]; [lia|]. eexists. reflexivity.
Qed.

Section Tx.
Context (gu : st u32_dec -> Prop) (du : st u32_dec -> bytes -> outcome N eof_err)
  (Lu : lawful u32_dec gu du) (Nu : nontrivial gu du).
Context (gi : st ins_dec -> Prop) (di : st ins_dec -> bytes -> outcome (list txin) (vec_err txin_err))
  (Li : lawful ins_dec gi di) (Ni : nontrivial gi di).
Context (go : st outs_dec -> Prop) (d_o : st outs_dec -> bytes -> outcome (list txout) (vec_err txout_err))
  (Lo : lawful outs_dec go d_o) (No : nontrivial go d_o).
Context (gw : st witness_dec -> Prop) (dw : st witness_dec -> bytes -> outcome witness wd_err)
  (Lw : lawful witness_dec gw dw) (Nw : nontrivial gw dw).

Definition den_lock (v : N) ins outs d l : outcome transaction txd_err :=
  obind (fun _ => TeEarlyLockTime) TeLockTime (du d l) (fun lt r =>
    of_fin (Ret (tx_check {| tx_version := v; tx_lock_time := lt; tx_inputs := ins; tx_outputs := outs |})) r).

Fixpoint den_wits (k : nat) (v : N) ins outs (i : N) d l : outcome transaction txd_err :=
  match k with
  | O => Boom
  | S k' =>
      obind (fun _ => TeEarlyWitnesses) TeWitness (dw d l) (fun w r =>
        match set_witness ins (N.to_nat i) w with
        | Panic => Boom
        | Ret ins' =>
            if i <? lenN ins' - 1 then den_wits k' v ins' outs (i + 1) (init witness_dec) r
            else if negb (lenN ins' =? 0) && forallb (fun i => wit_is_empty (ti_witness i)) ins'
            then Fail TeNoWitnesses
            else den_lock v ins' outs (init u32_dec) r
        end)
  end.

Definition den_outs (v : N) (ins : list txin) (sw : bool) d l : outcome transaction txd_err :=
  obind (fun _ => TeEarlyOutputs) TeOutputs (d_o d l) (fun outs r =>
    if sw && negb (lenN ins =? 0) then den_wits (length ins) v ins outs 0 (init witness_dec) r
    else den_lock v ins outs (init u32_dec) r).
Definition den_ins2 (v : N) d l : outcome transaction txd_err :=
  obind (fun _ => TeEarlyInputs) TeInputs (di d l) (fun ins r => den_outs v ins true (init outs_dec) r).
Definition den_flag (v : N) (l : bytes) : outcome transaction txd_err :=
  match l with
  | [] => More TeEarlyFlag
  | b :: l' => if b =? 1 then den_ins2 v (init ins_dec) l' else Fail (TeSegwitFlag b)
  end.
Definition den_ins1 (v : N) d l : outcome transaction txd_err :=
  obind (fun _ => TeEarlyInputs) TeInputs (di d l) (fun ins r =>
    match ins with [] => den_flag v r | _ => den_outs v ins false (init outs_dec) r end).
Definition den_version d l : outcome transaction txd_err :=
  obind (fun _ => TeEarlyVersion) TeVersion (du d l) (fun v r => den_ins1 v (init ins_dec) r).

Definition tx_den (s : txd_state) (l : bytes) : outcome transaction txd_err :=
  match s with
  | TsVersion d => den_version d l
  | TsInputs v second d => if second then den_ins2 v d l else den_ins1 v d l
  | TsSegwitFlag v => den_flag v l
  | TsOutputs v ins sw d => den_outs v ins sw d l
  | TsWitnesses v ins outs i d => den_wits (N.to_nat (lenN ins - i)) v ins outs i d l
  | TsLockTime v ins outs d => den_lock v ins outs d l
  | TsDone _ => Boom
  | TsErrored => Boom
  end.
Definition tx_good (s : txd_state) : Prop :=
  match s with
  | TsVersion d => gu d
  | TsInputs _ _ d => gi d
  | TsSegwitFlag _ => True
  | TsOutputs _ _ _ d => go d
  | TsWitnesses _ ins _ i d => i < lenN ins /\ gw d
  | TsLockTime _ _ _ d => gu d
  | _ => False
  end.

Let Iu := law_init _ _ _ Lu.
Let Ii := law_init _ _ _ Li.
Let Io := law_init _ _ _ Lo.
Let Iw := law_init _ _ _ Lw.

Lemma den_lock_pf : forall v ins outs d, gu d -> prefixy (den_lock v ins outs d).
Proof using Lu.
  intros. unfold den_lock. apply prefixy_bind; [now apply (prefixy_lawful _ _ _ _ _ Lu)|].
  intro lt. apply prefixy_fin.
Qed.
Lemma den_wits_pf : forall k v ins outs i d, gw d -> prefixy (den_wits k v ins outs i d).
Proof using Lu Lw.
  induction k; intros v ins outs i d G; cbn [den_wits].
  - constructor; intros; try discriminate; auto.
  - apply prefixy_bind; [now apply (prefixy_lawful _ _ _ _ _ Lw)|]. intro w.
    destruct (set_witness ins (N.to_nat i) w) as [ins'|]; [|constructor; intros; try discriminate; auto].
    destruct (i <? lenN ins' - 1); [apply IHk; apply Iw|].
    destruct (_ && _); [apply prefixy_fail|apply den_lock_pf; apply Iu].
Qed.
Lemma den_outs_pf : forall v ins sw d, go d -> prefixy (den_outs v ins sw d).
Proof using Lu Lo Lw.
  intros. unfold den_outs. apply prefixy_bind; [now apply (prefixy_lawful _ _ _ _ _ Lo)|].
  intro outs. destruct (_ && _); [apply den_wits_pf; apply Iw|apply den_lock_pf; apply Iu].
Qed.
Lemma den_ins2_pf : forall v d, gi d -> prefixy (den_ins2 v d).
Proof using Lu Li Lo Lw.
  intros. unfold den_ins2. apply prefixy_bind; [now apply (prefixy_lawful _ _ _ _ _ Li)|].
  intro ins. apply den_outs_pf. apply Io.
Qed.
Lemma den_flag_pf : forall v, prefixy (den_flag v).
Proof using Lu Li Lo Lw.
  intro v. destruct (den_ins2_pf v (init ins_dec) Ii) as [P1 P2 P3]. constructor.
  - intros [|b l] x r H; cbn [den_flag] in H; [discriminate|]. destruct (b =? 1) eqn:Hb; [|discriminate].
    destruct (P1 _ _ _ H) as (p & -> & Hp). exists (b :: p). split; auto. intro t. cbn [app den_flag]. now rewrite Hb.
  - intros [|b l] e t H; cbn [den_flag app] in *; [discriminate|]. destruct (b =? 1) eqn:Hb; auto.
  - intros [|b l] t H; cbn [den_flag app] in *; [discriminate|]. destruct (b =? 1) eqn:Hb; auto.
Qed.
Lemma den_ins1_pf : forall v d, gi d -> prefixy (den_ins1 v d).
Proof using Lu Li Lo Lw.
  intros. unfold den_ins1. apply prefixy_bind; [now apply (prefixy_lawful _ _ _ _ _ Li)|].
  intros [|i ins]; [apply den_flag_pf|apply den_outs_pf; apply Io].
Qed.
Lemma tx_den_pf : forall s, tx_good s -> prefixy (tx_den s).
Proof using Lu Li Lo Lw.
  intros [d|v [] d|v|v ins sw d|v ins outs i d|v ins outs d|tx|] G; cbn [tx_good tx_den] in *; try contradiction.
  - unfold den_version. apply prefixy_bind; [now apply (prefixy_lawful _ _ _ _ _ Lu)|].
    intro v. apply den_ins1_pf. apply Ii.
  - now apply den_ins2_pf.
  - now apply den_ins1_pf.
  - apply den_flag_pf.
  - now apply den_outs_pf.
  - now apply den_wits_pf.
  - now apply den_lock_pf.
Qed.

Lemma txd_step_law : forall s l, tx_good s ->
  match txd_step s l with
  | inl (s', l') => tx_good s' /\ (exists p, l = p ++ l' /\ p <> []) /\ forall t, tx_den s (l ++ t) = tx_den s' (l' ++ t)
  | inr (s', r, NeedsMore) => tx_good s' /\ (exists p, l = p ++ r /\ (l <> [] -> p <> [])) /\ forall t, tx_den s (l ++ t) = tx_den s' (r ++ t)
  | inr (s', r, Ready) => (exists p, l = p ++ r) /\ forall t, tx_den s (l ++ t) = of_fin (txd_fin s') (r ++ t)
  | inr (s', r, PErr e) => (exists p, l = p ++ r) /\ forall t, tx_den s (l ++ t) = Fail e
  | inr (_, _, PPanic) => forall t, tx_den s (l ++ t) = Boom
  end.
Proof using Lu Nu Li Ni Lo No Lw Nw.
  intros [d|v second d|v|v ins sw d|v ins outs i d|v ins outs d|tx|] l G; cbn [tx_good txd_step] in *; try contradiction.
  - pose proof (sub_push _ _ _ _ _ Lu Nu d l G) as P. destruct (push u32_dec d l) as [[d' r] []].
    + destruct P as (P1 & P2 & P3). repeat split; auto. intro t. cbn [tx_den]. unfold den_version. now rewrite P3.
    + destruct P as [Q P]. destruct (fin u32_dec d') as [[x|e]|].
      * destruct P as [P1 P2]. split; [exact Ii|split; [auto|]]. intro t. cbn [tx_den]. unfold den_version. rewrite P2. reflexivity.
      * split; auto. intro t. cbn [tx_den]. unfold den_version. now rewrite P.
      * intro t. cbn [tx_den]. unfold den_version. now rewrite P.
    + destruct P as [Q P]. split; auto. intro t. cbn [tx_den]. unfold den_version. now rewrite P.
    + intro t. cbn [tx_den]. unfold den_version. now rewrite P.
  - pose proof (sub_push _ _ _ _ _ Li Ni d l G) as P. destruct (push ins_dec d l) as [[d' r] []].
    + destruct P as (P1 & P2 & P3). repeat split; auto. intro t. destruct second; cbn [tx_den]; unfold den_ins1, den_ins2; now rewrite P3.
    + destruct P as [Q P]. destruct (fin ins_dec d') as [[x|e]|].
      * destruct P as [P1 P2]. destruct second; [|destruct x as [|x0 x]]; repeat split; auto; try apply Io;
          intro t; cbn [tx_den]; unfold den_ins1, den_ins2; rewrite P2; reflexivity.
      * split; auto. intro t. destruct second; cbn [tx_den]; unfold den_ins1, den_ins2; now rewrite P.
      * intro t. destruct second; cbn [tx_den]; unfold den_ins1, den_ins2; now rewrite P.
    + destruct P as [Q P]. split; auto. intro t. destruct second; cbn [tx_den]; unfold den_ins1, den_ins2; now rewrite P.
    + intro t. destruct second; cbn [tx_den]; unfold den_ins1, den_ins2; now rewrite P.
  - destruct l as [|b l'].
    + repeat split; auto. exists []. auto.
    + destruct (b =? 1) eqn:Hb.
      * split; [exact Ii|split; [exists [b]; split; auto; discriminate|]]. intro t. cbn [app tx_den den_flag]. now rewrite Hb.
      * split; [exists [b]; auto|]. intro t. cbn [app tx_den den_flag]. now rewrite Hb.
  - pose proof (sub_push _ _ _ _ _ Lo No d l G) as P. destruct (push outs_dec d l) as [[d' r] []].
    + destruct P as (P1 & P2 & P3). repeat split; auto. intro t. cbn [tx_den]; unfold den_outs; now rewrite P3.
    + destruct P as [Q P]. destruct (fin outs_dec d') as [[x|e]|].
      * destruct P as [P1 P2]. destruct (sw && negb (lenN ins =? 0)) eqn:Hsw; repeat split; auto; try apply Iw; try apply Iu.
        -- apply andb_true_iff in Hsw as [_ Hn]. destruct (N.eqb_spec (lenN ins) 0); [discriminate|lia].
        -- intro t. cbn [tx_den]; unfold den_outs. rewrite P2. cbn [obind]. rewrite Hsw, N.sub_0_r.
           unfold lenN. now rewrite Nat2N.id.
        -- intro t. cbn [tx_den]; unfold den_outs. rewrite P2. cbn [obind]. now rewrite Hsw.
      * split; auto. intro t. cbn [tx_den]; unfold den_outs; now rewrite P.
      * intro t. cbn [tx_den]; unfold den_outs; now rewrite P.
    + destruct P as [Q P]. split; auto. intro t. cbn [tx_den]; unfold den_outs; now rewrite P.
    + intro t. cbn [tx_den]; unfold den_outs; now rewrite P.
  - destruct G as [Hi G].
    assert (Hk : N.to_nat (lenN ins - i) = S (N.to_nat (lenN ins - i - 1))) by lia.
    pose proof (sub_push _ _ _ _ _ Lw Nw d l G) as P. destruct (push witness_dec d l) as [[d' r] []].
    + destruct P as (P1 & P2 & P3). repeat split; auto. intro t. cbn [tx_den]. rewrite Hk. cbn [den_wits]. now rewrite P3.
    + destruct P as [Q P]. destruct (fin witness_dec d') as [[w|e]|].
      * destruct P as [P1 P2]. destruct (set_witness_ok ins (N.to_nat i) w) as [ins' Hs]; [unfold lenN in Hi; lia|].
        rewrite Hs. pose proof (set_witness_len _ _ _ _ Hs) as Hlen.
        assert (T : forall t, tx_den (TsWitnesses v ins outs i d) (l ++ t) =
           if i <? lenN ins' - 1 then den_wits (N.to_nat (lenN ins - i - 1)) v ins' outs (i + 1) (init witness_dec) (r ++ t)
            else if negb (lenN ins' =? 0) && forallb (fun i => wit_is_empty (ti_witness i)) ins'
            then Fail TeNoWitnesses
            else den_lock v ins' outs (init u32_dec) (r ++ t)).
        { intro t. cbn [tx_den]. rewrite Hk. cbn [den_wits]. rewrite P2. cbn [obind]. now rewrite Hs. }
        destruct (i <? lenN ins' - 1) eqn:Hlt.
        -- split; [split; [lia|exact Iw]|split; [auto|]]. intro t. rewrite T. cbn [tx_den].
           now replace (lenN ins' - (i + 1)) with (lenN ins - i - 1) by lia.
        -- destruct (_ && _) eqn:Hn.
           ++ split; auto. 
           ++ split; [exact Iu|split; [auto|]]. intro t. rewrite T. reflexivity.
      * split; auto. intro t. cbn [tx_den]. rewrite Hk. cbn [den_wits]. now rewrite P.
      * intro t. cbn [tx_den]. rewrite Hk. cbn [den_wits]. now rewrite P.
    + destruct P as [Q P]. split; auto. intro t. cbn [tx_den]. rewrite Hk. cbn [den_wits]. now rewrite P.
    + intro t. cbn [tx_den]. rewrite Hk. cbn [den_wits]. now rewrite P.
  - pose proof (sub_push _ _ _ _ _ Lu Nu d l G) as P. destruct (push u32_dec d l) as [[d' r] []].
    + destruct P as (P1 & P2 & P3). repeat split; auto. intro t. cbn [tx_den]. unfold den_lock. now rewrite P3.
    + destruct P as [Q P]. destruct (fin u32_dec d') as [[x|e]|].
      * destruct P as [P1 P2]. split; auto. intro t. cbn [tx_den]. unfold den_lock. rewrite P2. reflexivity.
      * split; auto. intro t. cbn [tx_den]. unfold den_lock. now rewrite P.
      * intro t. cbn [tx_den]. unfold den_lock. now rewrite P.
    + destruct P as [Q P]. split; auto. intro t. cbn [tx_den]. unfold den_lock. now rewrite P.
    + intro t. cbn [tx_den]. unfold den_lock. now rewrite P.
Qed.

Lemma txd_loop_law : forall fuel s l, tx_good s -> (length l < fuel)%nat ->
  match txd_loop fuel s l with
  | (s', r, NeedsMore) => tx_good s' /\ (exists p, l = p ++ r /\ (l <> [] -> p <> [])) /\ forall t, tx_den s (l ++ t) = tx_den s' (r ++ t)
  | (s', r, Ready) => (exists p, l = p ++ r) /\ forall t, tx_den s (l ++ t) = of_fin (txd_fin s') (r ++ t)
  | (s', r, PErr e) => (exists p, l = p ++ r) /\ forall t, tx_den s (l ++ t) = Fail e
  | (_, _, PPanic) => forall t, tx_den s (l ++ t) = Boom
  end.
Proof using Lu Nu Li Ni Lo No Lw Nw.
  induction fuel as [|fuel IH]; intros s l G Hf; [lia|]. cbn [txd_loop].
  pose proof (txd_step_law s l G) as P. destruct (txd_step s l) as [[s' l']|[[s' r] x]]; [|exact P].
  destruct P as (G' & (p & -> & Hp) & T).
  assert (Hl : (length l' < fuel)%nat).
  { rewrite app_length in Hf. destruct p; [congruence|]. cbn in Hf. lia. }
  specialize (IH s' l' G' Hl). destruct (txd_loop fuel s' l') as [[s2 r] []].
  - destruct IH as (A1 & (q & -> & Hq) & A3). repeat split; auto.
    + exists (p ++ q). rewrite app_assoc. split; auto. intros _ H. apply app_eq_nil in H as [-> _]. congruence.
    + intro t. now rewrite T.
  - destruct IH as ((q & ->) & A3). split; [exists (p ++ q); now rewrite app_assoc|]. intro t. now rewrite T.
  - destruct IH as ((q & ->) & A3). split; [exists (p ++ q); now rewrite app_assoc|]. intro t. now rewrite T.
  - intro t. now rewrite T.
Qed.

Lemma tx_den_nil : forall s, tx_good s -> exists e, tx_den s [] = More e /\ txd_fin s = Ret (Err e).
Proof using Nu Ni No Nw.
  intros [d|v [] d|v|v ins sw d|v ins outs i d|v ins outs d|tx|] G; cbn [tx_good tx_den txd_fin] in *; try contradiction.
  - destruct (Nu d G) as [e He]. unfold den_version. rewrite He. cbn [obind]. eauto.
  - destruct (Ni d G) as [e He]. unfold den_ins2. rewrite He. cbn [obind]. eauto.
  - destruct (Ni d G) as [e He]. unfold den_ins1. rewrite He. cbn [obind]. eauto.
  - cbn. eauto.
  - destruct (No d G) as [e He]. unfold den_outs. rewrite He. cbn [obind]. eauto.
  - destruct G as [Hi G]. destruct (Nw d G) as [e He].
    replace (N.to_nat (lenN ins - i)) with (S (N.to_nat (lenN ins - i - 1))) by lia. cbn [den_wits].
    rewrite He. cbn [obind]. eauto.
  - destruct (Nu d G) as [e He]. unfold den_lock. rewrite He. cbn [obind]. eauto.
Qed.

Lemma obind_lim : forall A EA B E (D : decoder A EA) g den (fm ff : EA -> E) (Q : A -> bytes -> outcome B E) d l v r,
  lawful D g den -> g d -> (forall a, prefixy (Q a)) ->
  obind fm ff (den d l) Q = Done v r -> lim D d + lenN r <= lenN l.
Proof.
  intros A EA B E D g den fm ff Q d l v r L G HQ H. destruct (den d l) as [a r1| | |] eqn:Hd; try discriminate.
  cbn [obind] in H. apply (prefixy_shrink _ _ _ _ _ _ (HQ a)) in H.
  pose proof (law_lim _ _ _ L _ _ _ _ G Hd). lia.
Qed.

Lemma tx_lim_ok : forall s l v r, tx_good s -> tx_den s l = Done v r -> txd_lim s + lenN r <= lenN l.
Proof using Lu Li Lo Lw.
  intros [d|x [] d|x|x ins sw d|x ins outs i d|x ins outs d|tx|] l v r G H; cbn [tx_good txd_lim] in *; try contradiction.
  - eapply obind_lim in H; eauto. intro. apply den_ins1_pf, Ii.
  - eapply obind_lim in H; eauto. intro. apply den_outs_pf, Io.
  - eapply obind_lim in H; eauto. intros [|]; [apply den_flag_pf|apply den_outs_pf, Io].
  - cbn [tx_den] in H. destruct l as [|b l]; cbn [den_flag] in H; [discriminate|]. destr_if; [|discriminate].
    apply prefixy_shrink in H; [|apply den_ins2_pf, Ii]. rewrite lenN_cons. lia.
  - eapply obind_lim in H; eauto. intro. destruct (_ && _); [apply den_wits_pf; apply Iw|apply den_lock_pf; apply Iu].
  - destruct G as [Hi G]. cbn [tx_den] in H. replace (N.to_nat (lenN ins - i)) with (S (N.to_nat (lenN ins - i - 1))) in H by lia.
    cbn [den_wits] in H. eapply obind_lim in H; eauto. intro w.
    destruct (set_witness ins (N.to_nat i) w) as [ins'|]; [|constructor; intros; try discriminate; auto].
    destruct (i <? lenN ins' - 1); [apply den_wits_pf; apply Iw|].
    destruct (_ && _); [apply prefixy_fail|apply den_lock_pf; apply Iu].
  - eapply obind_lim in H; eauto. intro. apply prefixy_fin.
Qed.

Lemma tx_lawful : lawful tx_dec tx_good tx_den.
Proof using Lu Nu Li Ni Lo No Lw Nw.
  constructor; cbn [st init push fin lim tx_dec].
  - apply Iu.
  - intros s l G. apply txd_loop_law; auto. lia.
  - intros s G. destruct (tx_den_nil s G) as (e & -> & H). exact H.
  - intros s l v r G. apply pf_done. now apply tx_den_pf.
  - intros s l e t G. apply pf_fail. now apply tx_den_pf.
  - intros s l t G. apply pf_boom. now apply tx_den_pf.
  - apply tx_lim_ok.
  - intros s G H. exfalso.
    destruct s as [d|v [] d|v|v ins sw d|v ins outs i d|v ins outs d|tx|]; cbn [tx_good txd_lim] in *; try contradiction; try discriminate.
    + pose proof (nontrivial_lim _ _ _ Lu Nu d G). lia.
    + pose proof (nontrivial_lim _ _ _ Li Ni d G). lia.
    + pose proof (nontrivial_lim _ _ _ Li Ni d G). lia.
    + pose proof (nontrivial_lim _ _ _ Lo No d G). lia.
    + destruct G as [_ G]. pose proof (nontrivial_lim _ _ _ Lw Nw d G). lia.
    + pose proof (nontrivial_lim _ _ _ Lu Nu d G). lia.
Qed.
Lemma tx_nontrivial : nontrivial (D := tx_dec) tx_good tx_den.
Proof using Nu Ni No Nw. intros s G. destruct (tx_den_nil s G) as (e & -> & _). eauto. Qed.
End Tx.
