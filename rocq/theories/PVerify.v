(** Property C59: transaction verification asks for every spent output in turn and relies on every verdict.
    Model: MVerify.v.  Specification: SVerify.v ([ask]: the closure's answers in order; [accepted]: an answer with a good verdict), SWire.v
    ([wire_tx]: the serialization; [tx_shape]).  libbitcoinconsensus is arbitrary. *)
From Verif Require Import Base MDec MWitness MTx SWire STx LWire LTxId LTxEx MEnc SEnc LEnc PEnc MVerify SVerify.
Local Open Scope N_scope.

Section Loop.
Context {CE : Type} (consensus : bytes -> N -> bytes -> N -> N -> result unit CE) {C : Type} (spent : C -> outpoint -> C * option txout).
Context (ser : bytes) (flags : N).
Definition fails (i : nat) (prev : outpoint) (a : option txout) (x : verify_error) : Prop :=
  match a, x with
  | None, UnknownSpentOutput o => o = prev
  | Some o, ScriptVerification e => verdict consensus ser flags i o = Err e
  | _, _ => False
  end.
Lemma loop_ok : forall inputs k c, match verify_loop consensus spent ser flags (N.of_nat k) inputs c with
  | (Ok _, c') => exists answers, ask spent c (map ti_prevout inputs) = (answers, c') /\ forall i a, nth_error answers i = Some a -> accepted consensus ser flags (k + i) a
  | (Err x, c') => exists i input answers a, nth_error inputs i = Some input /\ ask spent c (map ti_prevout (firstn (S i) inputs)) = (answers ++ [a], c') /\
      (forall j b, nth_error answers j = Some b -> accepted consensus ser flags (k + j) b) /\ fails (k + i) (ti_prevout input) a x
  end.
Proof using.
  induction inputs as [|t inputs IH]; intros k c; cbn [verify_loop].
  - exists []. split; [reflexivity|]. intros [|i] a H; discriminate.
  - destruct (spent c (ti_prevout t)) as [c1 [o|]] eqn:Es.
    + unfold verify_script_with_flags. destruct (consensus (to_script o) (to_amount o) ser (N.of_nat k) flags) as [[]|e] eqn:Ev.
      * replace (N.of_nat k + 1) with (N.of_nat (S k)) by lia. specialize (IH (S k) c1). destruct (verify_loop consensus spent ser flags (N.of_nat (S k)) inputs c1) as [[u|x] c'].
        -- destruct IH as (ans & Ea & H). exists (Some o :: ans). cbn [map ask]. rewrite Es, Ea. split; [reflexivity|]. intros [|i] a Ha; cbn [nth_error] in Ha.
           ++ injection Ha as <-. exists o. split; [reflexivity|]. unfold verdict. now rewrite Nat.add_0_r.
           ++ replace (k + S i)%nat with (S k + i)%nat by lia. now apply H.
        -- destruct IH as (i & input & ans & a & Hi & Ea & H & Hf). exists (S i), input, (Some o :: ans), a. split; [exact Hi|].
           change (firstn (S (S i)) (t :: inputs)) with (t :: firstn (S i) inputs). cbn [map ask]. rewrite Es, Ea. split; [reflexivity|]. split.
           ++ intros [|j] b Hb; cbn [nth_error] in Hb; [injection Hb as <-; exists o; split; [reflexivity|]; unfold verdict; now rewrite Nat.add_0_r|]. replace (k + S j)%nat with (S k + j)%nat by lia. now apply H.
           ++ replace (k + S i)%nat with (S k + i)%nat by lia. exact Hf.
      * exists 0%nat, t, [], (Some o). split; [reflexivity|]. cbn [firstn map ask]. rewrite Es. split; [reflexivity|]. split; [intros [|j] b Hb; discriminate|]. cbn [fails]. unfold verdict. now rewrite Nat.add_0_r.
    + exists 0%nat, t, [], None. split; [reflexivity|]. cbn [firstn map ask]. rewrite Es. split; [reflexivity|]. split; [intros [|j] b Hb; discriminate|reflexivity].
Qed.
End Loop.

(** The whole behaviour, for any verifier, any closure with any state and any flags.  [ws] are the witness stacks of the inputs. *)
Theorem C59_verify : forall CE (consensus : bytes -> N -> bytes -> N -> N -> result unit CE) C (spent : C -> outpoint -> C * option txout) tx ws c flags,
  tx_shape tx -> Forall2 stack_of (map ti_witness (tx_inputs tx)) ws ->
  exists n, forall fuel, (n <= fuel)%nat -> exists res c', verify_transaction_with_flags consensus spent fuel tx c flags = Some (Ret (res, c')) /\
  match res with
  | Ok _ => (* every output was asked for once, in order; every answer is an output and has a good verdict *)
      exists answers, ask spent c (prevouts tx) = (answers, c') /\ forall i a, nth_error answers i = Some a -> accepted consensus (wire_tx tx ws) flags i a
  | Err x => (* the input at [i] is the first without; nothing was asked for after it *)
      exists i input answers a, nth_error (tx_inputs tx) i = Some input /\ ask spent c (firstn (S i) (prevouts tx)) = (answers ++ [a], c') /\
      (forall j b, nth_error answers j = Some b -> accepted consensus (wire_tx tx ws) flags j b) /\
      match a, x with
      | None, UnknownSpentOutput o => o = ti_prevout input
      | Some o, ScriptVerification e => verdict consensus (wire_tx tx ws) flags i o = Err e
      | _, _ => False
      end
  end.
Proof.
  intros CE consensus C spent tx ws c flags T Hw. destruct (C04_transaction tx T) as (e & Ee & S & Ce & Ed). exists (steps e). intros fuel F.
  pose proof (drain_law fuel e S F) as Dr. rewrite Ce in Dr. unfold verify_transaction_with_flags. rewrite Ee, Dr. rewrite (wire_tx_eq tx ws Hw).
  pose proof (loop_ok consensus spent (wire_tx tx ws) flags (tx_inputs tx) 0 c) as H. change (N.of_nat 0) with 0 in H. destruct (verify_loop consensus spent (wire_tx tx ws) flags 0 (tx_inputs tx) c) as [res c'].
  exists res, c'. split; [reflexivity|]. unfold prevouts. destruct res as [u|x]; [exact H|]. destruct H as (i & input & ans & a & Hi & Ea & H & Hf). exists i, input, ans, a. split; [exact Hi|]. rewrite firstn_map. auto.
Qed.
Lemma ask_length : forall C (spent : C -> outpoint -> C * option txout) os c answers c', ask spent c os = (answers, c') -> length answers = length os.
Proof.
  induction os as [|o os IH]; intros c answers c' E; cbn [ask] in E; [now injection E as <- <-|]. destruct (spent c o) as [c1 a]. destruct (ask spent c1 os) as [an c2] eqn:Ea. injection E as <- <-. cbn [length]. now rewrite (IH _ _ _ Ea).
Qed.
Lemma ask_pure : forall (f : outpoint -> option txout) os, ask (fun (_ : unit) o => (tt, f o)) tt os = (map f os, tt).
Proof. induction os as [|o os IH]; cbn [ask map]; [reflexivity|]. now rewrite IH. Qed.
(** With a fixed set of outputs: success exactly when every input's output is in it and libbitcoinconsensus accepts that input. *)
Theorem C59_lookup : forall CE (consensus : bytes -> N -> bytes -> N -> N -> result unit CE) (utxos : outpoint -> option txout) tx ws flags,
  tx_shape tx -> Forall2 stack_of (map ti_witness (tx_inputs tx)) ws ->
  exists n, forall fuel, (n <= fuel)%nat ->
  (verify_transaction_with_flags consensus (fun _ o => (tt, utxos o)) fuel tx tt flags = Some (Ret (Ok tt, tt)) <->
   forall i input, nth_error (tx_inputs tx) i = Some input ->
     exists o, utxos (ti_prevout input) = Some o /\ consensus (to_script o) (to_amount o) (wire_tx tx ws) (N.of_nat i) flags = Ok tt).
Proof.
  intros CE consensus utxos tx ws flags T Hw. destruct (C59_verify CE consensus unit (fun _ o => (tt, utxos o)) tx ws tt flags T Hw) as (n & H). exists n. intros fuel F.
  destruct (H fuel F) as (res & [] & -> & K). unfold prevouts in K. destruct res as [[]|x].
  - destruct K as (ans & Ea & K). rewrite ask_pure in Ea. injection Ea as <-. split; [|reflexivity]. intros _ i input Hi.
    destruct (K i (utxos (ti_prevout input))) as (o & Eo & V); [now rewrite nth_error_map, nth_error_map, Hi|]. exists o. auto.
  - split; [discriminate|]. intro G. exfalso. destruct K as (i & input & ans & a & Hi & Ea & _ & Hf). destruct (G i input Hi) as (o & Eo & V). rewrite ask_pure in Ea. apply (f_equal fst) in Ea. cbn [fst] in Ea.
    assert (La : length ans = i). { apply (f_equal (@length (option txout))) in Ea. rewrite map_length, firstn_length, map_length, app_length in Ea. cbn [length] in Ea. assert (i < length (tx_inputs tx))%nat by (apply nth_error_Some; congruence). lia. }
    apply (f_equal (fun l => nth_error l i)) in Ea. rewrite nth_error_app2 in Ea by lia. rewrite La, Nat.sub_diag in Ea. change (nth_error [a] 0) with (Some a) in Ea. rewrite <- firstn_map, map_map in Ea.
    assert (Fs : forall (l : list (option txout)) j, nth_error (firstn (S j) l) j = nth_error l j) by (clear; induction l as [|y l IH]; intros [|j]; try reflexivity; cbn [firstn nth_error]; apply IH).
    rewrite Fs, nth_error_map, Hi in Ea. cbn [option_map] in Ea. injection Ea as <-. rewrite Eo in Hf. destruct x as [e|p]; [|contradiction]. unfold verdict in Hf. congruence.
Qed.
(** The shorthands use libbitcoinconsensus's flags for everything before taproot, for a transaction and for a single script. *)
Theorem C59_default : forall CE (consensus : bytes -> N -> bytes -> N -> N -> result unit CE) ALL C (spent : C -> outpoint -> C * option txout) fuel tx c script index amount ser,
  verify_transaction consensus ALL spent fuel tx c = verify_transaction_with_flags consensus spent fuel tx c ALL /\
  verify_script consensus ALL script index amount ser = consensus script amount ser index ALL.
Proof. split; reflexivity. Qed.
(** A closure that forgets the outputs it has given, as the documentation asks: verification fails when an output is spent twice. *)
Definition forgetful (found : list (outpoint * txout)) (o : outpoint) : list (outpoint * txout) * option txout :=
  match find (fun p => outpoint_eqb (fst p) o) found with
  | Some (_, out) => (filter (fun p => negb (outpoint_eqb (fst p) o)) found, Some out)
  | None => (found, None)
  end.
Lemma op_eqb_spec : forall a b, outpoint_eqb a b = true <-> a = b.
Proof. intros [a1 a2] [b1 b2]. unfold outpoint_eqb. cbn [op_txid op_vout]. rewrite andb_true_iff, N.eqb_eq, beqb_eq. split; [intros [-> ->]; reflexivity|intros [= -> ->]; auto]. Qed.
Definition holds (found : list (outpoint * txout)) (o : outpoint) : Prop := exists out, In (o, out) found.
Lemma forgetful_state : forall os found answers c', ask forgetful found os = (answers, c') -> (forall i a, nth_error answers i = Some a -> a <> None) ->
  forall p, holds c' p -> holds found p /\ ~ In p os.
Proof.
  induction os as [|o os IH]; intros found answers c' E H p Hp; cbn [ask] in E; [injection E as <- <-; auto|].
  destruct (forgetful found o) as [c1 a] eqn:Ef. destruct (ask forgetful c1 os) as [an c2] eqn:Ea. injection E as <- <-.
  destruct (IH c1 an c2 Ea (fun i => H (S i)) p Hp) as [[out H1] H2]. unfold forgetful in Ef. destruct (find (fun q => outpoint_eqb (fst q) o) found) as [[o' out']|]; [|injection Ef as <- <-; now specialize (H 0%nat None eq_refl)].
  injection Ef as <- <-. apply filter_In in H1 as [H1 H3]. cbn [fst] in H3. split; [now exists out|]. intros [<-|K]; [|contradiction]. rewrite (proj2 (op_eqb_spec o o) eq_refl) in H3. discriminate.
Qed.
Lemma forgetful_distinct : forall os found answers c', ask forgetful found os = (answers, c') -> (forall i a, nth_error answers i = Some a -> a <> None) -> NoDup os.
Proof.
  induction os as [|o os IH]; intros found answers c' E H; [constructor|]. cbn [ask] in E. destruct (forgetful found o) as [c1 a] eqn:Ef. destruct (ask forgetful c1 os) as [an c2] eqn:Ea. injection E as <- <-.
  constructor; [|exact (IH c1 an c2 Ea (fun i => H (S i)))]. intro K. apply in_split in K as (os1 & os2 & ->).
  assert (A1 : exists an1 c3, ask forgetful c1 os1 = (an1, c3)) by (destruct (ask forgetful c1 os1); eauto). destruct A1 as (an1 & c3 & A1).
  assert (AA : forall x y c an1 c3, ask forgetful c x = (an1, c3) -> ask forgetful c (x ++ y) = (an1 ++ fst (ask forgetful c3 y), snd (ask forgetful c3 y))).
  { clear. induction x as [|z x IH]; intros y c an1 c3 E; cbn [ask app] in *; [injection E as <- <-; now destruct (ask forgetful c y)|]. destruct (forgetful c z) as [c1 a]. destruct (ask forgetful c1 x) as [b d] eqn:Eb. injection E as <- <-. now rewrite (IH y c1 b d Eb). }
  rewrite (AA os1 (o :: os2) c1 an1 c3 A1) in Ea. injection Ea as Ea _. cbn [ask] in Ea. destruct (forgetful c3 o) as [c4 a'] eqn:Ef'. destruct (ask forgetful c4 os2) as [an2 c5]. cbn [fst] in Ea.
  assert (N1 : forall i b, nth_error an1 i = Some b -> b <> None). { intros i b Hb. apply (H (S i) b). cbn [nth_error]. rewrite <- Ea, nth_error_app1; [exact Hb|]. apply nth_error_Some. congruence. }
  assert (N2 : a' <> None). { apply (H (S (length an1)) a'). cbn [nth_error]. rewrite <- Ea, nth_error_app2, Nat.sub_diag by lia. reflexivity. }
  apply N2. unfold forgetful in Ef'. destruct (find (fun p => outpoint_eqb (fst p) o) c3) as [[o' out']|] eqn:Fi; [|now injection Ef' as <- <-]. exfalso.
  apply find_some in Fi as [Fi Eq]. cbn [fst] in Eq. apply op_eqb_spec in Eq. subst o'. destruct (forgetful_state os1 c1 an1 c3 A1 N1 o) as [[out1 Hh] _]; [now exists out'|].
  unfold forgetful in Ef. destruct (find (fun q => outpoint_eqb (fst q) o) found) as [[o1 out2]|]; [|injection Ef as <- <-; now specialize (H 0%nat None eq_refl)]. injection Ef as <- <-. apply filter_In in Hh as [_ Hh]. cbn [fst] in Hh. rewrite (proj2 (op_eqb_spec o o) eq_refl) in Hh. discriminate.
Qed.
Lemma stacks_exist : forall tx, tx_shape tx -> exists ws, Forall2 stack_of (map ti_witness (tx_inputs tx)) ws.
Proof.
  intros tx (_ & _ & [_ H] & _). induction H as [|i l Hi H IH]; [exists []; constructor|]. destruct Hi as (_ & _ & _ & ls & S & _). destruct IH as (ws & IH). exists (ls :: ws). constructor; assumption.
Qed.
Theorem C59_spent_once : forall CE (consensus : bytes -> N -> bytes -> N -> N -> result unit CE) found tx flags, tx_shape tx ->
  exists n, forall fuel, (n <= fuel)%nat -> forall left_, verify_transaction_with_flags consensus forgetful fuel tx found flags = Some (Ret (Ok tt, left_)) -> NoDup (prevouts tx).
Proof.
  intros CE consensus found tx flags T. destruct (stacks_exist tx T) as (ws & Hw). destruct (C59_verify CE consensus _ forgetful tx ws found flags T Hw) as (n & H). exists n. intros fuel F left_ E.
  destruct (H fuel F) as (res & c' & E' & K). rewrite E in E'. injection E' as <- <-. destruct K as (ans & Ea & K). apply (forgetful_distinct (prevouts tx) found ans left_ Ea). intros i a Ha -> . destruct (K i None Ha) as (o & Eo & _). discriminate.
Qed.
(** With a fixed set of outputs that is not noticed: the transaction below spends one output twice, and every script may accept. *)
Theorem C59_needs_forgetting : exists (consensus : bytes -> N -> bytes -> N -> N -> result unit unit) utxos tx fuel flags, tx_shape tx /\
  verify_transaction_with_flags consensus (fun _ o => (tt, utxos o)) fuel tx tt flags = Some (Ret (Ok tt, tt)) /\ ~ NoDup (prevouts tx).
Proof.
  exists (fun _ _ _ _ _ => Ok tt), (fun _ => Some ex_out), ex_dup, 200%nat, 0. split; [split; [reflexivity|]; split; [reflexivity|]; split; (split; [discriminate|]); repeat constructor; try apply ex_in1_ok; try apply ex_in2_ok; apply ex_out_ok|]. split; [vm_compute; reflexivity|].
  intro N. inversion N as [|x l H _]. apply H. cbn. auto.
Qed.

(** ** Examples *)
(** A verifier that accepts when the script's first byte is the input's index plus 106: of two inputs the second fails. *)
Definition toy_consensus (script : bytes) (amount : N) (tx : bytes) (index flags : N) : result unit N :=
  if hd 0 script =? index + 106 then if amount =? flags then Ok tt else Err 77 else Err (index + lenN tx).
Example C59_ex_ok : verify_transaction_with_flags toy_consensus (fun (n : N) _ => (n + 1, Some {| to_amount := 5; to_script := [106 + n] |})) 200 ex_tx 0 5 = Some (Ret (Ok tt, 2)).
Proof. vm_compute. reflexivity. Qed.
Example C59_ex_script : verify_transaction_with_flags toy_consensus (fun (n : N) _ => (n + 1, Some {| to_amount := 5; to_script := [106] |})) 200 ex_tx 0 5 =
  Some (Ret (Err (ScriptVerification (1 + lenN (tx_encode ex_tx))), 2)).
Proof. vm_compute. reflexivity. Qed.
Example C59_ex_unknown : verify_transaction_with_flags toy_consensus forgetful 200 ex_tx [(ti_prevout ex_in1, {| to_amount := 5; to_script := [106] |})] 5 =
  Some (Ret (Err (UnknownSpentOutput (ti_prevout ex_in2)), [])).
Proof. vm_compute. reflexivity. Qed.

Print Assumptions C59_verify.
Print Assumptions C59_lookup.
Print Assumptions C59_default.
Print Assumptions C59_spent_once.
Print Assumptions C59_needs_forgetting.
