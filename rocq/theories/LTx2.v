(** Round trip and canonicity of transactions and blocks. *)
From Verif Require Import Base MDec LDec LDec2 LPrefix LCompact MWitness SWitness LWitness LWitDec MTx MAmount LCodec LTx.
Local Open Scope N_scope.

Definition wf_txin (i : txin) : Prop :=
  wf_outpoint (ti_prevout i) /\ is_bytevec MAX_VEC_SIZE (ti_script i) /\ ti_sequence i < U32 /\ wf_witness (ti_witness i).
Definition wf_tx (tx : transaction) : Prop :=
  tx_version tx < U32 /\ tx_lock_time tx < U32 /\
  is_vec wf_txin MAX_VEC_SIZE (tx_inputs tx) /\ is_vec wf_txout MAX_VEC_SIZE (tx_outputs tx) /\
  tx_check tx = Ok tx.

(** without the final check *)
Definition wf_tx0 (tx : transaction) : Prop :=
  tx_version tx < U32 /\ tx_lock_time tx < U32 /\ is_vec wf_txin MAX_VEC_SIZE (tx_inputs tx) /\ is_vec wf_txout MAX_VEC_SIZE (tx_outputs tx).

Definition setw (i : txin) (w : witness) : txin :=
  {| ti_prevout := ti_prevout i; ti_script := ti_script i; ti_sequence := ti_sequence i; ti_witness := w |}.
Definition strip (i : txin) : txin := setw i wit_new.

Lemma layout_nil : layout [] = wit_new.
Proof. reflexivity. Qed.
Lemma wf_empty : forall w, wf_witness w -> wit_is_empty w = true -> w = wit_new.
Proof.
  intros w (ls & -> & _) H. unfold wit_is_empty in H. cbn [layout wt_elements] in H.
  destruct ls; [reflexivity|]. rewrite lenN_cons in H. lia.
Qed.
Lemma wf_new : wf_witness wit_new.
Proof. exists []. repeat split; try constructor. discriminate. Qed.
Lemma setw_setw : forall i a b, setw (setw i a) b = setw i b.
Proof. reflexivity. Qed.
Lemma setw_self : forall i, setw i (ti_witness i) = i.
Proof. intros []. reflexivity. Qed.
Lemma txin_encode_setw : forall i w, txin_encode (setw i w) = txin_encode i.
Proof. reflexivity. Qed.
Lemma flat_map_strip : forall ins, flat_map txin_encode (map strip ins) = flat_map txin_encode ins.
Proof. induction ins; [reflexivity|]. cbn [map flat_map]. now rewrite IHins. Qed.
Lemma slice_strip : forall ins, slice_encode txin_encode (map strip ins) = slice_encode txin_encode ins.
Proof. intros. unfold slice_encode. rewrite flat_map_strip. unfold lenN. now rewrite map_length. Qed.
Lemma wf_strip : forall ins, Forall wf_txin ins -> Forall wf_txin0 (map strip ins).
Proof.
  induction ins; intro H; cbn; constructor; inv H; auto. destruct H2 as (W1 & W2 & W3 & W4). repeat split; auto; try apply W1; apply W2.
Qed.

Lemma set_witness_mid : forall a x b w, set_witness (a ++ x :: b) (length a) w = Ret (a ++ setw x w :: b).
Proof. induction a; intros; cbn; [reflexivity|]. now rewrite IHa. Qed.

Lemma existsb_all : forall ins, existsb (fun i => negb (wit_is_empty (ti_witness i))) ins = negb (forallb (fun i => wit_is_empty (ti_witness i)) ins).
Proof. induction ins; [reflexivity|]. cbn. rewrite IHins. now rewrite negb_andb. Qed.

Section Tx.
Context (gu : st u32_dec -> Prop) (du : st u32_dec -> bytes -> outcome N eof_err)
  (Lu : lawful u32_dec gu du) (Nu : nontrivial gu du)
  (RTu : roundtrips u32_dec du (le_bytes 4) (fun v => v < U32)) (CNu : canonical u32_dec du (le_bytes 4) (fun v => v < U32))
  (NBu : no_boom u32_dec du).
Context (gi : st ins_dec -> Prop) (di : st ins_dec -> bytes -> outcome (list txin) (vec_err txin_err))
  (Li : lawful ins_dec gi di) (Ni : nontrivial gi di)
  (RTi : roundtrips ins_dec di (slice_encode txin_encode) (is_vec wf_txin0 MAX_VEC_SIZE))
  (CNi : canonical ins_dec di (slice_encode txin_encode) (is_vec wf_txin0 MAX_VEC_SIZE)) (NBi : no_boom ins_dec di).
Context (go : st outs_dec -> Prop) (d_o : st outs_dec -> bytes -> outcome (list txout) (vec_err txout_err))
  (Lo : lawful outs_dec go d_o) (No : nontrivial go d_o)
  (RTo : roundtrips outs_dec d_o (slice_encode txout_encode) (is_vec wf_txout MAX_VEC_SIZE))
  (CNo : canonical outs_dec d_o (slice_encode txout_encode) (is_vec wf_txout MAX_VEC_SIZE)) (NBo : no_boom outs_dec d_o).
Context (gw : st witness_dec -> Prop) (dw : st witness_dec -> bytes -> outcome witness wd_err)
  (Lw : lawful witness_dec gw dw) (Nw : nontrivial gw dw)
  (RTw : roundtrips witness_dec dw wit_encode wf_witness) (CNw : canonical witness_dec dw wit_encode wf_witness)
  (NBw : no_boom witness_dec dw).

Notation tx_den := (tx_den du di d_o dw).
Notation den_wits := (den_wits du dw).
Notation den_lock := (den_lock du).
Notation den_outs := (den_outs du d_o dw).

Lemma lock_rt : forall v ins outs lt t, lt < U32 ->
  den_lock v ins outs (init u32_dec) (le_bytes 4 lt ++ t) =
  of_res (tx_check {| tx_version := v; tx_lock_time := lt; tx_inputs := ins; tx_outputs := outs |}) t.
Proof using RTu. intros. unfold LTx.den_lock. rewrite RTu by auto. reflexivity. Qed.

Definition all_empty (ins : list txin) : bool := forallb (fun i => wit_is_empty (ti_witness i)) ins.

Lemma wits_rt : forall todo done v outs t, todo <> [] -> Forall wf_txin todo ->
  den_wits (length todo) v (done ++ map strip todo) outs (lenN done) (init witness_dec)
    (flat_map (fun i => wit_encode (ti_witness i)) todo ++ t)
  = if all_empty (done ++ todo) then Fail TeNoWitnesses
    else den_lock v (done ++ todo) outs (init u32_dec) t.
Proof using RTw.
  induction todo as [|x todo IH]; intros done v outs t Hne W; [congruence|]. inv W.
  cbn [length map flat_map LTx.den_wits]. rewrite <- app_assoc, RTw by apply H1. cbn [obind].
  replace (N.to_nat (lenN done)) with (length done) by (unfold lenN; lia). rewrite set_witness_mid.
  replace (setw (strip x) (ti_witness x)) with x by (destruct x; reflexivity).
  assert (Hl : lenN (done ++ x :: map strip todo) = lenN done + 1 + lenN todo).
  { rewrite lenN_app, lenN_cons. unfold lenN. rewrite map_length. lia. }
  rewrite Hl. destruct todo as [|y todo].
  - cbn [map flat_map app]. replace (lenN done <? lenN done + 1 + lenN (@nil txin) - 1) with false by (rewrite lenN_nil; lia).
    replace (lenN done + 1 + lenN (@nil txin) =? 0) with false by lia. reflexivity.
  - replace (lenN done <? lenN done + 1 + lenN (y :: todo) - 1) with true by (rewrite lenN_cons; lia).
    specialize (IH (done ++ [x]) v outs t). rewrite <- !app_assoc in IH. cbn [app] in IH.
    replace (lenN (done ++ [x])) with (lenN done + 1) in IH by (rewrite lenN_app; reflexivity).
    apply IH; auto. discriminate.
Qed.

Lemma tx_rt0 : forall tx t, wf_tx0 tx -> tx_den (init tx_dec) (tx_encode tx ++ t) = of_res (tx_check tx) t.
Proof using RTu RTi RTo RTw.
  intros [v lt ins outs] t (W1 & W2 & [W3 W3'] & W4). cbn [tx_version tx_lock_time tx_inputs tx_outputs] in *.
  cbn [init tx_dec LTx.tx_den]. unfold LTx.den_version, tx_encode. cbn [tx_version tx_lock_time tx_inputs tx_outputs].
  rewrite <- !app_assoc. rewrite RTu by auto. cbn [obind]. unfold LTx.den_ins1.
  unfold uses_segwit. cbn [tx_inputs]. rewrite existsb_all. fold (all_empty ins).
  assert (I0 : forall r, di (init ins_dec) (0 :: r) = Done [] r).
  { intro r. change (0 :: r) with (slice_encode txin_encode [] ++ r). apply RTi. split; [discriminate|constructor]. }
  destruct ins as [|i ins].
  - cbn [all_empty forallb negb orb app flat_map]. rewrite I0. cbn [obind LTx.den_flag]. change (1 =? 1) with true. cbn iota.
    unfold den_ins2. rewrite RTi by (split; [discriminate|constructor]). cbn [obind]. unfold LTx.den_outs.
    rewrite RTo by auto. cbn [obind]. change (true && negb (lenN (@nil txin) =? 0)) with false. cbn iota.
    now rewrite lock_rt by auto.
  - rewrite orb_false_r. destruct (all_empty (i :: ins)) eqn:Hall; cbn [negb].
    + cbn [app]. assert (W0 : Forall wf_txin0 (i :: ins)).
      { clear - W3' Hall. unfold all_empty in Hall. induction W3'; [constructor|]. cbn [forallb] in Hall.
        apply andb_true_iff in Hall as [E1 E2]. constructor; auto. destruct H as (A1 & A2 & A3 & A4).
        split; [auto|split; [auto|split; [auto|]]]. now apply wf_empty. }
      rewrite RTi by (split; auto). cbn [obind]. unfold LTx.den_outs. rewrite RTo by auto. cbn [obind andb].
      now rewrite lock_rt by auto.
    + cbn [app]. rewrite I0. cbn [obind LTx.den_flag]. change (1 =? 1) with true. cbn iota. unfold den_ins2.
      rewrite <- slice_strip. rewrite RTi.
      2:{ split; [unfold lenN in *; now rewrite map_length|now apply wf_strip]. }
      cbn [obind]. unfold LTx.den_outs. rewrite RTo by auto. cbn [obind].
      replace (lenN (map strip (i :: ins)) =? 0) with false by (cbn [map]; rewrite lenN_cons; lia). cbn [negb andb].
      rewrite map_length. pose proof (wits_rt (i :: ins) [] v outs (le_bytes 4 lt ++ t)) as K.
      cbn [app] in K. change (lenN (@nil txin)) with 0 in K. rewrite K; auto; [|discriminate].
      now rewrite Hall, lock_rt by auto.
Qed.

Lemma tx_rt : forall tx t, wf_tx tx -> tx_den (init tx_dec) (tx_encode tx ++ t) = Done tx t.
Proof using RTu RTi RTo RTw.
  intros tx t (W1 & W2 & W3 & W4 & W5). rewrite tx_rt0 by (repeat split; auto; apply W3 || apply W4). now rewrite W5.
Qed.

(** the extended form with only empty witnesses *)
Lemma tx_rt_empty : forall v lt ins outs t, v < U32 -> ins <> [] -> (lenN ins <= 4000000 /\ Forall wf_txin ins) ->
  (lenN outs <= 4000000 /\ Forall wf_txout outs) -> all_empty ins = true ->
  tx_den (init tx_dec) (le_bytes 4 v ++ [0; 1] ++ slice_encode txin_encode ins ++ slice_encode txout_encode outs ++
    flat_map (fun i => wit_encode (ti_witness i)) ins ++ le_bytes 4 lt ++ t) = Fail TeNoWitnesses.
Proof using RTu RTi RTo RTw.
  intros v lt ins outs t W1 Hne [W3 W3'] W4 Hall.
  cbn [init tx_dec LTx.tx_den]. unfold LTx.den_version. rewrite RTu by auto. cbn [obind]. unfold LTx.den_ins1.
  assert (I0 : forall r, di (init ins_dec) (0 :: r) = Done [] r).
  { intro r. change (0 :: r) with (slice_encode txin_encode [] ++ r). apply RTi. split; [discriminate|constructor]. }
  cbn [app]. rewrite I0. cbn [obind LTx.den_flag]. change (1 =? 1) with true. cbn iota. unfold den_ins2.
  rewrite <- slice_strip. rewrite RTi.
  2:{ split; [unfold lenN in *; now rewrite map_length|now apply wf_strip]. }
  cbn [obind]. unfold LTx.den_outs. rewrite RTo by auto. cbn [obind].
  replace (lenN (map strip ins) =? 0) with false by (destruct ins; [congruence|cbn [map]; rewrite lenN_cons; lia]). cbn [negb andb].
  rewrite map_length. pose proof (wits_rt ins [] v outs (le_bytes 4 lt ++ t)) as K.
  cbn [app] in K. change (lenN (@nil txin)) with 0 in K. rewrite K; auto. now rewrite Hall.
Qed.
Lemma tx_rt_flag : forall v b t, v < U32 -> b <> 1 ->
  tx_den (init tx_dec) (le_bytes 4 v ++ 0 :: b :: t) = Fail (TeSegwitFlag b).
Proof using RTu RTi.
  intros v b t W1 Hb. cbn [init tx_dec LTx.tx_den]. unfold LTx.den_version. rewrite RTu by auto. cbn [obind]. unfold LTx.den_ins1.
  change (0 :: b :: t) with (slice_encode txin_encode [] ++ b :: t). rewrite RTi by (split; [discriminate|constructor]).
  cbn [obind LTx.den_flag]. destruct (N.eqb_spec b 1); [lia|reflexivity].
Qed.

Lemma lock_cn : forall v ins outs l tx r, bytes_ok l -> den_lock v ins outs (init u32_dec) l = Done tx r ->
  exists lt, lt < U32 /\ l = le_bytes 4 lt ++ r /\
    tx_check {| tx_version := v; tx_lock_time := lt; tx_inputs := ins; tx_outputs := outs |} = Ok tx.
Proof using CNu.
  intros v ins outs l tx r Hok H. unfold LTx.den_lock in H. destruct (du (init u32_dec) l) as [lt r1| | |] eqn:Hd; try discriminate.
  destruct (CNu _ _ _ Hok Hd) as [-> Hlt]. cbn [obind of_fin] in H.
  destruct (tx_check _) eqn:Hc; cbn [of_res] in H; inv H. eauto.
Qed.

Fixpoint setws (ins : list txin) (ws : list witness) : list txin :=
  match ins, ws with i :: ins', w :: ws' => setw i w :: setws ins' ws' | _, _ => [] end.

Lemma wits_cn : forall todo done v outs l tx r, bytes_ok l ->
  den_wits (length todo) v (done ++ todo) outs (lenN done) (init witness_dec) l = Done tx r ->
  exists ws r1, length ws = length todo /\ Forall wf_witness ws /\ l = flat_map wit_encode ws ++ r1 /\
    all_empty (done ++ setws todo ws) = false /\
    den_lock v (done ++ setws todo ws) outs (init u32_dec) r1 = Done tx r.
Proof using CNw.
  induction todo as [|x todo IH]; intros done v outs l tx r Hok H; cbn [length LTx.den_wits] in H; [discriminate|].
  destruct (dw (init witness_dec) l) as [w r1| | |] eqn:Hd; try discriminate.
  destruct (CNw _ _ _ Hok Hd) as [-> Ww]. apply bytes_ok_app in Hok as [_ Hr]. cbn [obind] in H.
  replace (N.to_nat (lenN done)) with (length done) in H by (unfold lenN; lia). rewrite set_witness_mid in H.
  assert (Hl : lenN (done ++ setw x w :: todo) = lenN done + 1 + lenN todo).
  { rewrite lenN_app, lenN_cons. lia. }
  rewrite Hl in H. destruct todo as [|y todo].
  - replace (lenN done <? lenN done + 1 + lenN (@nil txin) - 1) with false in H by (rewrite lenN_nil; lia).
    replace (lenN done + 1 + lenN (@nil txin) =? 0) with false in H by lia. cbn [negb andb] in H.
    destruct (forallb _ _) eqn:Hall in H; [discriminate|].
    exists [w], r1. cbn [setws length flat_map]. rewrite app_nil_r. repeat split; auto.
  - replace (lenN done <? lenN done + 1 + lenN (y :: todo) - 1) with true in H by (rewrite lenN_cons; lia).
    replace (done ++ setw x w :: y :: todo) with ((done ++ [setw x w]) ++ y :: todo) in H by (now rewrite <- app_assoc).
    replace (lenN done + 1) with (lenN (done ++ [setw x w])) in H by (rewrite lenN_app; reflexivity).
    destruct (IH _ _ _ _ _ _ Hr H) as (ws & r2 & E1 & E2 & -> & E3 & E4).
    exists (w :: ws), r2. rewrite <- app_assoc in E3, E4. cbn [app] in E3, E4.
    change (setws (x :: y :: todo) (w :: ws)) with (setw x w :: setws (y :: todo) ws).
    cbn [length flat_map]. rewrite <- app_assoc.
    split; [cbn [length] in E1; lia|]. split; [auto|]. auto.
Qed.

Lemma setws_length : forall ins ws, length ws = length ins -> length (setws ins ws) = length ins.
Proof. induction ins; destruct ws; cbn; intro H; try lia. f_equal. apply IHins. lia. Qed.
Lemma setws_enc : forall ins ws, length ws = length ins -> flat_map txin_encode (setws ins ws) = flat_map txin_encode ins.
Proof. induction ins; destruct ws; intro H; try discriminate; auto. cbn [setws flat_map]. rewrite IHins by (cbn in H; lia). reflexivity. Qed.
Lemma setws_wit : forall ins ws, length ws = length ins ->
  flat_map (fun i => wit_encode (ti_witness i)) (setws ins ws) = flat_map wit_encode ws.
Proof. induction ins; destruct ws; intro H; try discriminate; auto. cbn [setws flat_map]. rewrite IHins by (cbn in H; lia). reflexivity. Qed.
Lemma setws_wf : forall ins ws, length ws = length ins -> Forall wf_txin0 ins -> Forall wf_witness ws -> Forall wf_txin (setws ins ws).
Proof.
  induction ins; destruct ws; intros Hl H1 H2; try discriminate; cbn [setws]; constructor; inv H1; inv H2.
  - destruct H3 as (A1 & A2 & A3 & _). split; [auto|split; [auto|split; auto]].
  - apply IHins; auto.
Qed.
Lemma tx_check_ok : forall a b, tx_check a = Ok b -> a = b.
Proof.
  intros a b H. unfold tx_check in H. destruct (tx_outputs a); [discriminate|].
  repeat match type of H with match ?x with _ => _ end = _ => destruct x; try discriminate end. now inv H.
Qed.
Lemma wf_txin_of0 : forall i, wf_txin0 i -> wf_txin i /\ wit_is_empty (ti_witness i) = true.
Proof. intros i (A1 & A2 & A3 & A4). rewrite A4. split; [|reflexivity]. split; [auto|split; [auto|split; auto]]. rewrite A4. apply wf_new. Qed.

Lemma tx_cn : forall l tx r, bytes_ok l -> tx_den (init tx_dec) l = Done tx r -> l = tx_encode tx ++ r /\ wf_tx tx.
Proof using CNu CNi CNo CNw.
  intros l tx r Hok H. cbn [init tx_dec LTx.tx_den] in H. unfold LTx.den_version in H.
  destruct (du (init u32_dec) l) as [v r1| | |] eqn:Hv; try discriminate.
  destruct (CNu _ _ _ Hok Hv) as [-> Wv]. apply bytes_ok_app in Hok as [_ Hok]. cbn [obind] in H. unfold LTx.den_ins1 in H.
  destruct (di (init ins_dec) r1) as [ins r2| | |] eqn:Hi; try discriminate.
  destruct (CNi _ _ _ Hok Hi) as [-> [Wl Wi]]. apply bytes_ok_app in Hok as [_ Hok]. cbn [obind] in H.
  destruct ins as [|i ins].
  - destruct r2 as [|b r2]; cbn [LTx.den_flag] in H; [discriminate|]. destruct (b =? 1) eqn:Hb; [|discriminate].
    apply N.eqb_eq in Hb. subst b. unfold LTx.den_ins2 in H. apply bytes_ok_cons in Hok as [_ Hok].
    destruct (di (init ins_dec) r2) as [ins r3| | |] eqn:Hi2; try discriminate.
    destruct (CNi _ _ _ Hok Hi2) as [-> [Wl2 Wi2]]. apply bytes_ok_app in Hok as [_ Hok]. cbn [obind] in H.
    unfold LTx.den_outs in H.
    destruct (d_o (init outs_dec) r3) as [outs r4| | |] eqn:Ho; try discriminate.
    destruct (CNo _ _ _ Hok Ho) as [-> Wo]. apply bytes_ok_app in Hok as [_ Hok]. cbn [obind andb] in H.
    destruct ins as [|j ins].
    + change (negb (lenN (@nil txin) =? 0)) with false in H. cbn iota in H.
      apply lock_cn in H as (lt & Wlt & -> & Hc); auto. pose proof (tx_check_ok _ _ Hc) as <-. split.
      * unfold tx_encode, uses_segwit. cbn [tx_version tx_lock_time tx_inputs tx_outputs existsb orb flat_map].
        rewrite <- !app_assoc. reflexivity.
      * repeat split; cbn [tx_version tx_lock_time tx_inputs tx_outputs]; auto; apply Wo.
    + replace (negb (lenN (j :: ins) =? 0)) with true in H by (rewrite lenN_cons; lia).
      change (den_wits (length (j :: ins)) v ([] ++ j :: ins) outs (lenN (@nil txin)) (init witness_dec) r4 = Done tx r) in H.
      apply wits_cn in H as (ws & r5 & E1 & E2 & -> & E3 & E4); auto. cbn [app] in E3, E4.
      apply bytes_ok_app in Hok as [_ Hok].
      apply lock_cn in E4 as (lt & Wlt & -> & Hc); auto. pose proof (tx_check_ok _ _ Hc) as <-.
      set (ins' := setws (j :: ins) ws) in *.
      assert (Hlen : length ins' = length (j :: ins)) by (apply setws_length; auto). split.
      * unfold tx_encode, uses_segwit. cbn [tx_version tx_lock_time tx_inputs tx_outputs]. rewrite existsb_all.
        fold (all_empty ins'). rewrite E3. cbn [negb orb].
        replace (slice_encode txin_encode ins') with (slice_encode txin_encode (j :: ins)).
        2:{ unfold slice_encode, lenN. rewrite Hlen. unfold ins'. now rewrite setws_enc. }
        unfold ins' at 1. rewrite setws_wit by auto. rewrite <- !app_assoc. reflexivity.
      * split; [auto|split; [auto|split; [|split; [auto|auto]]]]. cbn [tx_inputs]. split.
        -- unfold lenN in *. now rewrite Hlen.
        -- apply setws_wf; auto.
  - unfold LTx.den_outs in H.
    destruct (d_o (init outs_dec) r2) as [outs r4| | |] eqn:Ho; try discriminate.
    destruct (CNo _ _ _ Hok Ho) as [-> Wo]. apply bytes_ok_app in Hok as [_ Hok]. cbn [obind andb] in H.
    apply lock_cn in H as (lt & Wlt & -> & Hc); auto. pose proof (tx_check_ok _ _ Hc) as <-. 
    assert (Hall : all_empty (i :: ins) = true).
    { unfold all_empty. apply forallb_forall. intros x Hx. rewrite Forall_forall in Wi. now apply wf_txin_of0, Wi. }
    split.
    + unfold tx_encode, uses_segwit. cbn [tx_version tx_lock_time tx_inputs tx_outputs]. rewrite existsb_all.
      fold (all_empty (i :: ins)). rewrite Hall. cbn [negb orb app]. rewrite <- !app_assoc. reflexivity.
    + split; [auto|split; [auto|split; [|split; [auto|auto]]]]. cbn [tx_inputs]. split; auto.
      eapply Forall_impl; [|exact Wi]. intros x Hx. now apply wf_txin_of0.
Qed.

Lemma lock_nb : forall v ins outs l, bytes_ok l -> lenN l <= U32_MAX -> den_lock v ins outs (init u32_dec) l <> Boom.
Proof using NBu.
  intros v ins outs l Hok Hl. unfold LTx.den_lock. specialize (NBu l Hok Hl).
  destruct (du (init u32_dec) l); cbn [obind]; try discriminate; auto. cbn [of_fin]. destruct (tx_check _); discriminate.
Qed.
Lemma wits_nb : forall todo done v outs l, todo <> [] -> bytes_ok l -> lenN l <= U32_MAX ->
  den_wits (length todo) v (done ++ todo) outs (lenN done) (init witness_dec) l <> Boom.
Proof using NBu NBw CNw.
  induction todo as [|x todo IH]; intros done v outs l Hne Hok Hlen; [congruence|]. cbn [length LTx.den_wits].
  pose proof (NBw l Hok Hlen) as NB. destruct (dw (init witness_dec) l) as [w r1| | |] eqn:Hd; cbn [obind]; try discriminate; auto.
  destruct (CNw _ _ _ Hok Hd) as [-> Ww]. apply bytes_ok_app in Hok as [_ Hr]. rewrite lenN_app in Hlen.
  replace (N.to_nat (lenN done)) with (length done) by (unfold lenN; lia). rewrite set_witness_mid.
  assert (Hl : lenN (done ++ setw x w :: todo) = lenN done + 1 + lenN todo).
  { rewrite lenN_app, lenN_cons. lia. }
  rewrite Hl. destruct todo as [|y todo].
  - replace (lenN done <? lenN done + 1 + lenN (@nil txin) - 1) with false by (rewrite lenN_nil; lia).
    destruct (_ && _); [discriminate|]. apply lock_nb; auto. lia.
  - replace (lenN done <? lenN done + 1 + lenN (y :: todo) - 1) with true by (rewrite lenN_cons; lia).
    replace (done ++ setw x w :: y :: todo) with ((done ++ [setw x w]) ++ y :: todo) by (now rewrite <- app_assoc).
    replace (lenN done + 1) with (lenN (done ++ [setw x w])) by (rewrite lenN_app; reflexivity).
    apply IH; auto; [discriminate|lia].
Qed.
Lemma outs_nb : forall v ins sw l, bytes_ok l -> lenN l <= U32_MAX -> den_outs v ins sw (init outs_dec) l <> Boom.
Proof using NBu NBo CNo NBw CNw.
  intros v ins sw l Hok Hl. unfold LTx.den_outs. specialize (NBo l Hok Hl).
  destruct (d_o (init outs_dec) l) as [outs r| | |] eqn:Hd; cbn [obind]; try discriminate; auto.
  destruct (CNo _ _ _ Hok Hd) as [-> _]. apply bytes_ok_app in Hok as [_ Hr]. rewrite lenN_app in Hl.
  destruct (sw && negb (lenN ins =? 0)) eqn:Hs.
  - change (den_wits (length ins) v ([] ++ ins) outs (lenN (@nil txin)) (init witness_dec) r <> Boom).
    apply wits_nb; auto; [|lia]. destruct ins; [|discriminate].
    apply andb_true_iff in Hs as [_ Hs]. discriminate.
  - apply lock_nb; auto. lia.
Qed.
Lemma tx_nb : no_boom tx_dec tx_den.
Proof using NBu NBi NBo NBw CNu CNi CNo CNw.
  intros l Hok Hl. cbn [init tx_dec LTx.tx_den]. unfold LTx.den_version.
  pose proof (NBu l Hok Hl) as B1. destruct (du (init u32_dec) l) as [v r1| | |] eqn:Hv; cbn [obind]; try discriminate; auto.
  destruct (CNu _ _ _ Hok Hv) as [-> _]. apply bytes_ok_app in Hok as [_ Hok]. rewrite lenN_app in Hl.
  unfold LTx.den_ins1. assert (Hl1 : lenN r1 <= U32_MAX) by lia. pose proof (NBi r1 Hok Hl1) as B2.
  destruct (di (init ins_dec) r1) as [ins r2| | |] eqn:Hi; cbn [obind]; try discriminate; auto.
  destruct (CNi _ _ _ Hok Hi) as [-> _]. apply bytes_ok_app in Hok as [_ Hok]. rewrite lenN_app in Hl1.
  destruct ins as [|i ins]; [|apply outs_nb; auto; lia].
  destruct r2 as [|b r2]; cbn [LTx.den_flag]; [discriminate|]. destruct (b =? 1); [|discriminate].
  unfold LTx.den_ins2. apply bytes_ok_cons in Hok as [_ Hok]. rewrite lenN_cons in Hl1.
  assert (Hl2 : lenN r2 <= U32_MAX) by lia. pose proof (NBi r2 Hok Hl2) as B3.
  destruct (di (init ins_dec) r2) as [ins r3| | |] eqn:Hi2; cbn [obind]; try discriminate; auto.
  destruct (CNi _ _ _ Hok Hi2) as [-> _]. apply bytes_ok_app in Hok as [_ Hok]. rewrite lenN_app in Hl2.
  apply outs_nb; auto. lia.
Qed.
End Tx.

Lemma tx_codec : codec tx_dec tx_encode wf_tx.
Proof.
  destruct u32_codec as (gu & du & Lu & Nu & RTu & CNu & NBu).
  destruct ins_codec as (gi & di & Li & Ni & RTi & CNi & NBi).
  destruct outs_codec as (go & d_o & Lo & No & RTo & CNo & NBo).
  destruct witness_codec as (gw & dw & Lw & Nw & RTw & CNw & NBw).
  exists (tx_good gu gi go gw), (tx_den du di d_o dw). split; [now apply tx_lawful|]. split; [now apply tx_nontrivial|].
  split; [|split].
  - intros tx t. now apply tx_rt.
  - intros l tx r. now apply tx_cn.
  - now apply tx_nb.
Qed.

Definition wf_header (h : header) : Prop :=
  h_version h < U32 /\ is_array 32 (h_prev h) /\ is_array 32 (h_merkle h) /\ h_time h < U32 /\ h_bits h < U32 /\ h_nonce h < U32.
Lemma dec6_codec : forall A EA B EB C EC D ED E EE F EF (DA : decoder A EA) (DB : decoder B EB) (DC : decoder C EC)
  (DD : decoder D ED) (DE : decoder E EE) (DF : decoder F EF) ea eb ec ed ee ef wa wb wc wd we wf,
  codec DA ea wa -> codec DB eb wb -> codec DC ec wc -> codec DD ed wd -> codec DE ee we -> codec DF ef wf ->
  codec (dec6 DA DB DC DD DE DF)
   (fun '(a, b, c, d, e, f) => ea a ++ eb b ++ ec c ++ ed d ++ ee e ++ ef f)
   (fun '(a, b, c, d, e, f) => wa a /\ wb b /\ wc c /\ wd d /\ we e /\ wf f).
Proof.
  intros. unfold dec6. eapply newtype_codec; [apply dec2_codec; apply dec3_codec; eassumption| |].
  - intros [[[[[a b] c] d] e] f] W. exists ((a, b, c), (d, e, f)). cbn [fst snd]. rewrite <- !app_assoc. tauto.
  - intros [[[a b] c] [[d e] f]] x W Hx. inv Hx. cbn [fst snd] in *. rewrite <- !app_assoc. tauto.
Qed.
Lemma header_codec : codec header_dec header_encode wf_header.
Proof.
  unfold header_dec. eapply newtype_codec.
  - eapply dec6_codec; [apply u32_codec|apply hash_codec|apply hash_codec|apply u32_codec|apply u32_codec|apply (array_codec 4); lia].
  - intros [v p m t b n] (W1 & W2 & W3 & W4 & W5 & W6). cbn [h_version h_prev h_merkle h_time h_bits h_nonce] in *.
    exists (v, p, m, t, b, le_bytes 4 n). cbn [fst snd]. rewrite le_val_bytes by auto. repeat split; auto; try apply W2; try apply W3.
    apply le_bytes_ok.
  - intros [[[[[v p] m] t] b] n] h (W1 & W2 & W3 & W4 & W5 & W6 & W7) Hh. inv Hh. split.
    + split; [auto|split; [auto|split; [auto|split; [auto|split; [auto|]]]]]. apply le_val_lt in W7. rewrite W6 in W7. exact W7.
    + unfold header_encode. cbn [h_version h_prev h_merkle h_time h_bits h_nonce]. rewrite (le_bytes_of_val 4) by auto. reflexivity.
Qed.

Definition wf_block (b : block) : Prop := wf_header (b_header b) /\ is_vec wf_tx MAX_VEC_SIZE (b_txs b).
Lemma block_codec : codec block_dec block_encode wf_block.
Proof.
  unfold block_dec. eapply newtype_codec; [apply dec2_codec; [apply header_codec|apply vec_codec; [reflexivity|apply tx_codec]]| |].
  - intros [h txs] [W1 W2]. exists (h, txs). auto.
  - intros [h txs] b [W1 W2] H. inv H. split; [split; auto|reflexivity].
Qed.
