(** Lemmas for C71: what the generators can draw. *)
From Verif Require Import Base MText MAmount MLock MWitness MTx MTxSize MPredict MAgent MPmt MTaproot MBip32 MSighash MDec MP2p MArb.
From Verif Require Import SWitness SWire SP2p LDec LWire LWitness LTx2.
Local Open Scope N_scope.

Lemma gbind_got : forall A B (m : gen A) (k : A -> gen B) b, gbind m k (Got b) <-> exists a, m (Got a) /\ k a (Got b).
Proof. intros. unfold gbind. split; [intros [H|[[_ H]|[_ H]]]; [exact H|discriminate|discriminate]|auto]. Qed.
Lemma gbind_panic : forall A B (m : gen A) (k : A -> gen B), gbind m k Panicked <-> (exists a, m (Got a) /\ k a Panicked) \/ m Panicked.
Proof. intros. unfold gbind. split; [intros [H|[[_ H]|[H _]]]; [auto|discriminate|auto]|intros [H|H]; auto]. Qed.
Lemma gret_got : forall A (a b : A), gret a (Got b) <-> b = a.
Proof. intros. unfold gret. split; [intro H; injection H; auto|now intros ->]. Qed.
Lemma gret_panic : forall A (a : A), gret a Panicked <-> False.
Proof. intros. unfold gret. split; [discriminate|tauto]. Qed.
Lemma gfail_got : forall A (a : A), gfail (Got a) <-> False.
Proof. intros. unfold gfail. split; [discriminate|tauto]. Qed.
Lemma gfail_panic : forall A, @gfail A Panicked <-> False.
Proof. intros. unfold gfail. split; [discriminate|tauto]. Qed.
Lemma lift_got : forall A (r : rust A) a, lift r (Got a) <-> r = Ret a.
Proof. intros A [x|] a; unfold lift; split; intro H; try discriminate; congruence. Qed.
Lemma lift_panic : forall A (r : rust A), lift r Panicked <-> r = Panic.
Proof. intros A [x|]; unfold lift; split; intro H; try discriminate; auto. Qed.
Lemma any_got : forall A (P : A -> Prop) a, any P (Got a) <-> P a.
Proof. intros. unfold any. split; [intros [H|(b & H & E)]; [discriminate|]; congruence|intro H; right; eauto]. Qed.
Lemma any_panic : forall A (P : A -> Prop), any P Panicked <-> False.
Proof. intros. unfold any. split; [intros [H|(b & H & E)]; discriminate|tauto]. Qed.
Lemma range_got : forall a b n, int_in_range a b (Got n) <-> a <= n <= b.
Proof.
  intros a b n. unfold int_in_range. destruct (N.leb_spec a b); [apply any_got|]. split; [discriminate|lia].
Qed.
Lemma range_panic : forall a b, int_in_range a b Panicked <-> b < a.
Proof. intros a b. unfold int_in_range. destruct (N.leb_spec a b); [rewrite any_panic; split; [tauto|lia]|]. tauto. Qed.
Lemma range_i_got : forall a b n, int_in_range_i a b (Got n) <-> (a <= n <= b)%Z.
Proof.
  intros a b n. unfold int_in_range_i. destruct (Z.leb_spec a b); [apply any_got|]. split; [discriminate|lia].
Qed.
Lemma range_i_panic : forall a b, int_in_range_i a b Panicked <-> (b < a)%Z.
Proof. intros a b. unfold int_in_range_i. destruct (Z.leb_spec a b); [rewrite any_panic; split; [tauto|lia]|]. tauto. Qed.
Lemma vec_got : forall A (g : gen A) l, arb_vec g (Got l) <-> Forall (fun a => g (Got a)) l.
Proof. intros. unfold arb_vec. split; [intros [(x & F & E)|[E|[_ E]]]; [|discriminate|discriminate]; congruence|left; eauto]. Qed.
Lemma vec_panic : forall A (g : gen A), arb_vec g Panicked <-> g Panicked.
Proof. intros. unfold arb_vec. split; [intros [(x & F & E)|[E|[F _]]]; [discriminate|discriminate|exact F]|auto]. Qed.
Lemma bytes_got : forall l, arb_bytes (Got l) <-> bytes_ok l.
Proof.
  intros l. unfold arb_bytes. rewrite vec_got. unfold bytes_ok. split; intro H; eapply Forall_impl; try exact H; intros a; unfold arb_u8; rewrite any_got; auto.
Qed.
Lemma bytes_panic : arb_bytes Panicked <-> False.
Proof. unfold arb_bytes. rewrite vec_panic. apply any_panic. Qed.

Ltac ginv := repeat match goal with
  | H : gbind _ _ (Got _) |- _ => rewrite gbind_got in H; let a := fresh "v" in let G := fresh "G" in let K := fresh "K" in destruct H as (a & G & K)
  | H : gbind _ _ Panicked |- _ => rewrite gbind_panic in H; let a := fresh "v" in let G := fresh "G" in let K := fresh "K" in destruct H as [(a & G & K)|H]
  | H : gret _ (Got _) |- _ => rewrite gret_got in H
  | H : gret _ Panicked |- _ => rewrite gret_panic in H; contradiction H
  | H : gfail (Got _) |- _ => rewrite gfail_got in H; contradiction H
  | H : gfail Panicked |- _ => rewrite gfail_panic in H; contradiction H
  | H : lift _ (Got _) |- _ => rewrite lift_got in H
  | H : lift _ Panicked |- _ => rewrite lift_panic in H
  | H : any _ (Got _) |- _ => rewrite any_got in H
  | H : any _ Panicked |- _ => rewrite any_panic in H; contradiction H
  | H : int_in_range _ _ (Got _) |- _ => rewrite range_got in H
  | H : int_in_range _ _ Panicked |- _ => rewrite range_panic in H
  | H : int_in_range_i _ _ (Got _) |- _ => rewrite range_i_got in H
  | H : int_in_range_i _ _ Panicked |- _ => rewrite range_i_panic in H
  | H : arb_bytes (Got _) |- _ => rewrite bytes_got in H
  | H : arb_bytes Panicked |- _ => rewrite bytes_panic in H; contradiction H
  | H : arb_vec _ (Got _) |- _ => rewrite vec_got in H
  | H : arb_vec _ Panicked |- _ => rewrite vec_panic in H
  | H : arb_u8 _ |- _ => unfold arb_u8 in H
  | H : arb_u16 _ |- _ => unfold arb_u16 in H
  | H : arb_u32 _ |- _ => unfold arb_u32 in H
  | H : arb_u64 _ |- _ => unfold arb_u64 in H
  | H : arb_bool _ |- _ => unfold arb_bool in H
  | H : arb_array _ _ |- _ => unfold arb_array in H
  | H : arb_segments _ |- _ => unfold arb_segments in H
  | H : arb_string _ |- _ => unfold arb_string in H
  end.
(** make a value, by its draws *)
Ltac gdraw v := apply gbind_got; exists v; split.
(** a number in a short range *)
Lemma le0 : forall n, n <= 0 -> n = 0.
Proof. lia. Qed.
Lemma le_step : forall n k, n <= N.succ k -> n <= k \/ n = N.succ k.
Proof. lia. Qed.
Lemma upto2 : forall n, 0 <= n <= 2 -> n = 0 \/ n = 1 \/ n = 2.
Proof. lia. Qed.
Lemma upto3 : forall n, 0 <= n <= 3 -> n = 0 \/ n = 1 \/ n = 2 \/ n = 3.
Proof. lia. Qed.
Lemma upto5 : forall n, 0 <= n <= 5 -> n = 0 \/ n = 1 \/ n = 2 \/ n = 3 \/ n = 4 \/ n = 5.
Proof. lia. Qed.
Lemma upto7 : forall n, 0 <= n <= 7 -> n = 0 \/ n = 1 \/ n = 2 \/ n = 3 \/ n = 4 \/ n = 5 \/ n = 6 \/ n = 7.
Proof. lia. Qed.
Lemma upto8 : forall n, 0 <= n <= 8 -> n = 0 \/ n = 1 \/ n = 2 \/ n = 3 \/ n = 4 \/ n = 5 \/ n = 6 \/ n = 7 \/ n = 8.
Proof. lia. Qed.

(** * units *)
Lemma amount_got : forall a, arb_amount (Got a) <-> (0 <= a <= 2100000000000000)%Z.
Proof.
  intros a. unfold arb_amount. split.
  - intro H. ginv. unfold amount_from_sat, AMOUNT_MAX in *. destruct (Z.ltb_spec (21000000 * 100000000) v); [discriminate|]. injection K as <-. lia.
  - intros H. gdraw a; [apply range_i_got; unfold AMOUNT_MAX; lia|]. apply lift_got. unfold amount_from_sat, AMOUNT_MAX.
    destruct (Z.ltb_spec (21000000 * 100000000) a); [lia|reflexivity].
Qed.
Lemma amount_panic : ~ arb_amount Panicked.
Proof.
  unfold arb_amount. intro H. ginv; unfold amount_from_sat, AMOUNT_MAX in *; [|lia]. destruct (Z.ltb_spec (21000000 * 100000000) v); [lia|discriminate].
Qed.
Lemma sequence_got : forall n, arb_sequence (Got n) <-> n < 2 ^ 32.
Proof.
  intros n. unfold arb_sequence. split.
  - intro H. ginv. apply upto8 in G. destruct G as [->|[->|[->|[->|[->|[->|[->|[->| ->]]]]]]]]; cbv beta iota in K; ginv; try (subst n; now vm_compute). exact K.
  - intro H. gdraw 8; [apply range_got; lia|]. now apply any_got.
Qed.
Lemma sequence_panic : ~ arb_sequence Panicked.
Proof.
  unfold arb_sequence. intro H. ginv; [|lia]. apply upto8 in G. destruct G as [->|[->|[->|[->|[->|[->|[->|[->| ->]]]]]]]]; cbv beta iota in K; ginv.
Qed.

(** * Transactions *)
Lemma witness_got : forall w, arb_witness (Got w) <-> exists ls, Forall bytes_ok ls /\ stack_of w ls.
Proof.
  intros w. unfold arb_witness. split.
  - intro H. ginv. exists v. split; [|exact K]. eapply Forall_impl; [|exact G]. intro a. apply bytes_got.
  - intros (ls & F & E). gdraw ls; [|now apply lift_got]. apply vec_got. eapply Forall_impl; [|exact F]. intro a. apply bytes_got.
Qed.
Lemma txin_got : forall i, arb_txin (Got i) <-> outpoint_ok (ti_prevout i) /\ bytes_ok (ti_script i) /\ is_u32 (ti_sequence i) /\
  exists ls, Forall bytes_ok ls /\ stack_of (ti_witness i) ls.
Proof.
  intros i. unfold arb_txin, arb_outpoint. split.
  - intro H. apply gbind_got in H as (o & H & K). ginv. subst i o. cbn [ti_prevout ti_script ti_sequence ti_witness]. split; [|split; [|split]].
    + unfold outpoint_ok, hash_ok. cbn [op_txid op_vout]. auto.
    + auto.
    + now apply sequence_got.
    + now apply witness_got.
  - destruct i as [[t v] s q w]. cbn [ti_prevout ti_script ti_sequence ti_witness]. intros ([Ht Hv] & Hs & Hq & Hw).
    gdraw {| op_txid := t; op_vout := v |}.
    { gdraw t; [now apply any_got|]. gdraw v; [now apply any_got|]. now apply gret_got. }
    gdraw s; [now apply bytes_got|]. gdraw q; [now apply sequence_got|]. gdraw w; [now apply witness_got|]. now apply gret_got.
Qed.
Lemma txout_got : forall o, arb_txout (Got o) <-> to_amount o <= 2100000000000000 /\ bytes_ok (to_script o).
Proof.
  intros o. unfold arb_txout. split.
  - intro H. apply gbind_got in H as (a & H & K). apply amount_got in H. ginv. subst o. cbn [to_amount to_script]. split; [lia|auto].
  - destruct o as [a s]. cbn [to_amount to_script]. intros [Ha Hs]. gdraw (Z.of_N a); [apply amount_got; lia|]. gdraw s; [now apply bytes_got|]. apply gret_got. now rewrite N2Z.id.
Qed.
Lemma txout_panic : ~ arb_txout Panicked.
Proof. unfold arb_txout. intro H. ginv. now apply amount_panic. Qed.
Lemma version_got : forall n, arb_version (Got n) <-> n < 2 ^ 32.
Proof.
  intros n. unfold arb_version. split.
  - intro H. ginv. apply upto3 in G. destruct G as [->|[->|[->| ->]]]; cbv beta iota in K; ginv; try (subst n; now vm_compute). exact K.
  - intro H. gdraw 3; [apply range_got; lia|]. now apply any_got.
Qed.
Lemma version_panic : ~ arb_version Panicked.
Proof. unfold arb_version. intro H. ginv; [|lia]. apply upto3 in G. destruct G as [->|[->|[->| ->]]]; cbv beta iota in K; ginv. Qed.

Lemma seen_in : forall o seen, existsb (outpoint_eqb o) seen = true <-> In o seen.
Proof.
  intros o seen. rewrite existsb_exists. split; [intros (x & I & E); apply outpoint_eqb_eq in E; now subst|]. intro I. exists o. split; [exact I|now apply outpoint_eqb_eq].
Qed.
Lemma retain_nodup : forall ins seen, NoDup (map ti_prevout (retain_new seen ins)) /\
  (forall o, In o (map ti_prevout (retain_new seen ins)) -> ~ In o seen).
Proof.
  induction ins as [|i ins IH]; intros seen; cbn [retain_new map]; [split; [constructor|intros o []]|].
  destruct (existsb (outpoint_eqb (ti_prevout i)) seen) eqn:E; [apply IH|]. destruct (IH (ti_prevout i :: seen)) as [N1 N2]. cbn [map]. split.
  - constructor; [|exact N1]. intro I. apply (N2 _ I). now left.
  - intros o [<-|I]; [|intro J; apply (N2 _ I); now right]. intro J. apply seen_in in J. congruence.
Qed.
Lemma retain_forall : forall (P : txin -> Prop) ins seen, Forall P ins -> Forall P (retain_new seen ins).
Proof.
  intros P. induction ins as [|i ins IH]; intros seen F; cbn [retain_new]; [constructor|]. inv F. destruct (existsb _ seen); [now apply IH|]. constructor; auto.
Qed.
Lemma retain_id : forall ins seen, NoDup (map ti_prevout ins) -> (forall o, In o (map ti_prevout ins) -> ~ In o seen) -> retain_new seen ins = ins.
Proof.
  induction ins as [|i ins IH]; intros seen ND D; cbn [retain_new map] in *; [reflexivity|]. inv ND.
  destruct (existsb (outpoint_eqb (ti_prevout i)) seen) eqn:E; [exfalso; apply seen_in in E; apply (D _ (or_introl eq_refl) E)|].
  f_equal. apply IH; [auto|]. intros o I [<-|J]; [contradiction|]. apply (D _ (or_intror I) J).
Qed.
Lemma null_eq : COINBASE_PREVOUT = null_outpoint.
Proof. reflexivity. Qed.
Lemma filter_nodup_map : forall (f : txin -> bool) ins, NoDup (map ti_prevout ins) -> NoDup (map ti_prevout (filter f ins)).
Proof.
  intros f. induction ins as [|i ins IH]; intro ND; cbn [filter map]; [constructor|]. inv ND. destruct (f i); [|now apply IH]. cbn [map]. constructor; [|now apply IH].
  intro I. apply H1. apply in_map_iff in I as (x & E & I). apply filter_In in I as [I _]. rewrite <- E. now apply in_map.
Qed.
Lemma drop_null_facts : forall ins, NoDup (map ti_prevout ins) -> NoDup (map ti_prevout (drop_null ins)) /\
  ((1 < length (drop_null ins))%nat -> ~ In null_outpoint (map ti_prevout (drop_null ins))).
Proof.
  intros ins ND. unfold drop_null. destruct (N.ltb_spec 1 (lenN ins)) as [H|H].
  - split; [now apply filter_nodup_map|]. intros _ I. apply in_map_iff in I as (x & E & I). apply filter_In in I as [_ I].
    rewrite E, null_eq in I. assert (outpoint_eqb null_outpoint null_outpoint = true) by now apply outpoint_eqb_eq. rewrite H0 in I. discriminate.
  - split; [exact ND|]. unfold lenN in H. lia.
Qed.
Lemma drop_null_forall : forall (P : txin -> Prop) ins, Forall P ins -> Forall P (drop_null ins).
Proof.
  intros P ins F. unfold drop_null. destruct (1 <? lenN ins); [|exact F]. rewrite Forall_forall in *. intros x I. apply filter_In in I as [I _]. auto.
Qed.
Lemma drop_null_id : forall ins, ((1 < length ins)%nat -> ~ In null_outpoint (map ti_prevout ins)) -> drop_null ins = ins.
Proof.
  intros ins H. unfold drop_null. destruct (N.ltb_spec 1 (lenN ins)) as [L|L]; [|reflexivity]. assert (K : ~ In null_outpoint (map ti_prevout ins)) by (apply H; unfold lenN in L; lia).
  clear H L. induction ins as [|i ins IH]; [reflexivity|]. cbn [filter]. destruct (outpoint_eqb (ti_prevout i) COINBASE_PREVOUT) eqn:E.
  - apply outpoint_eqb_eq in E. exfalso. apply K. left. now rewrite E, null_eq.
  - cbn [negb]. f_equal. apply IH. intro I. apply K. now right.
Qed.
Lemma fix_prevouts : forall ins, map ti_prevout (fix_coinbase ins) = map ti_prevout ins.
Proof. intros [|i [|j ins]]; try reflexivity. cbn [fix_coinbase]. destruct (_ && _); reflexivity. Qed.
Lemma fix_length : forall ins, length (fix_coinbase ins) = length ins.
Proof. intros ins. rewrite <- (map_length ti_prevout), fix_prevouts. apply map_length. Qed.
Lemma fix_rule : forall ins i, fix_coinbase ins = [i] -> ti_prevout i = null_outpoint -> 2 <= lenN (ti_script i) <= 100.
Proof.
  intros [|j [|k ins]] i E P; cbn [fix_coinbase] in E; try discriminate.
  destruct (outpoint_eqb (ti_prevout j) COINBASE_PREVOUT) eqn:Q; cbn [andb] in E.
  - destruct (N.ltb_spec (lenN (ti_script j)) 2); cbn [orb] in E; [injection E as <-; cbn [ti_script]; vm_compute; split; discriminate|].
    destruct (N.ltb_spec 100 (lenN (ti_script j))); injection E as <-; cbn [ti_script]; [vm_compute; split; discriminate|lia].
  - injection E as ->. rewrite P, <- null_eq in Q. assert (outpoint_eqb COINBASE_PREVOUT COINBASE_PREVOUT = true) by now apply outpoint_eqb_eq. congruence.
Qed.
Lemma fix_forall : forall ins, Forall (fun i => arb_txin (Got i)) ins -> Forall (fun i => arb_txin (Got i)) (fix_coinbase ins).
Proof.
  intros [|j [|k ins]] F; cbn [fix_coinbase]; auto. destruct (_ && _); [|exact F]. inv F. constructor; [|constructor]. apply txin_got in H1 as (A & B & C & D). apply txin_got.
  cbn [ti_prevout ti_script ti_sequence ti_witness]. split; [exact A|]. split; [|auto]. repeat constructor.
Qed.
Lemma fix_id : forall ins, (forall i, ins = [i] -> ti_prevout i = null_outpoint -> 2 <= lenN (ti_script i) <= 100) -> fix_coinbase ins = ins.
Proof.
  intros [|j [|k ins]] H; try reflexivity. cbn [fix_coinbase]. destruct (outpoint_eqb (ti_prevout j) COINBASE_PREVOUT) eqn:Q; [|reflexivity].
  apply outpoint_eqb_eq in Q. specialize (H j eq_refl Q). destruct (N.ltb_spec (lenN (ti_script j)) 2); [lia|]. destruct (N.ltb_spec 100 (lenN (ti_script j))); [lia|reflexivity].
Qed.
Definition total (outs : list txout) : N := fold_right (fun o acc => to_amount o + acc) 0 outs.
Lemma cap_spec : forall outs rem, rem <= 2100000000000000 -> exists r, cap_outputs rem outs = Ret r /\ total r <= rem /\
  map to_script r = map to_script outs /\ length r = length outs /\ (total outs <= rem -> r = outs).
Proof.
  induction outs as [|o outs IH]; intros rem L; cbn [cap_outputs]; [exists []; cbn [total fold_right]; repeat split; lia|].
  cbv zeta. unfold amount_from_sat, AMOUNT_MAX. pose proof (N.le_min_r (to_amount o) rem) as LM. destruct (Z.ltb_spec (21000000 * 100000000) (Z.of_N (N.min (to_amount o) rem))); [lia|].
  destruct (N.leb_spec (N.min (to_amount o) rem) rem); [|lia]. destruct (IH (rem - N.min (to_amount o) rem)) as (r & E & T & S1 & S2 & S3); [lia|]. rewrite E. cbn [rbind].
  eexists. split; [reflexivity|]. cbn [total fold_right map length to_amount to_script] in *. rewrite N2Z.id. fold (total r). fold (total outs). split; [lia|]. split; [now f_equal|]. split; [now f_equal|].
  intros TO. rewrite S3 by lia. replace (N.min (to_amount o) rem) with (to_amount o) by lia. now destruct o.
Qed.
Lemma witness_panic : arb_witness Panicked -> exists ls, Forall bytes_ok ls /\ 2 ^ 32 <= lenN (concat (map wire_bytes ls)).
Proof.
  unfold arb_witness. intro H. ginv. exists v. split; [eapply Forall_impl; [|exact G]; intro a; apply bytes_got|].
  rewrite from_slice_spec in K. destruct (fitsb (offs v 0)) eqn:E; [discriminate|]. clear K G.
  assert (A : forall ls c, fitsb (offs ls c) = false -> 2 ^ 32 <= c + lenN (concat (map wire_bytes ls))).
  { induction ls as [|e ls IH]; intros c F; cbn [offs fitsb] in F; [discriminate|]. cbn [map concat]. rewrite lenN_app.
    destruct (N.leb_spec c U32_MAX); cbn [andb] in F.
    - apply IH in F. unfold elem_bytes in F. rewrite <- wire_bytes_eq. unfold script_encode. lia.
    - unfold U32_MAX in *. lia. }
  apply (A v 0 E).
Qed.
