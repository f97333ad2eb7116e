(** Lemmas about ready-made spending forms. *)
From Coq Require Import String.
From Verif Require Import Base MDec LDec MText MWitness MWitness2 SWire SWitness SWitness2 LWitness LWitness2 MScript SScript LScript LScript3 LScript4 LScript5.
From Verif Require Import MSighash MTaproot STaproot LTaproot MBip32 MKey SKey MSig SSig LSig MAddress MForms SForms.
Local Open Scope list_scope.
Local Open Scope N_scope.

Lemma from_slice_total : forall ls, elements_size ls <= 2 ^ 32 -> exists w, from_slice ls = Ret w.
Proof.
  intros ls B. destruct (ops_total [OpFrom ls] wit_new [] eq_refl) as [w W].
  - intros [|k]; [vm_compute; discriminate|]. cbn [firstn]. rewrite firstn_nil. exact B.
  - exists w. cbn [wit_ops wit_op] in W. destruct (from_slice ls); [exact W|discriminate].
Qed.
Lemma elements_app : forall a b, elements_size (a ++ b) = elements_size a + elements_size b.
Proof. intros a b. unfold elements_size. now rewrite map_app, concat_app, lenN_app. Qed.
Lemma push_total : forall w ls e, stack_of w ls -> elements_size (ls ++ [e]) <= 2 ^ 32 -> exists w', push_slice w e = Ret w' /\ stack_of w' (ls ++ [e]).
Proof.
  intros w ls e S B. destruct (from_slice_total _ B) as [w' W]. exists w'. rewrite (push_stack _ _ _ S). split; exact W.
Qed.
Lemma element_len : forall e, elements_size [e] <= lenN e + 9.
Proof.
  intro e. rewrite elements_size_flat. unfold flat. cbn [flat_map]. rewrite app_nil_r, elem_bytes_len. assert (cs_encoded_size (lenN e) <= 9) by (unfold cs_encoded_size; destr_if; [lia|destr_if; [lia|destr_if; lia]]). lia.
Qed.
Lemma new_stack : stack_of wit_new []. Proof. reflexivity. Qed.
Lemma program_push : forall h, 2 <= lenN h <= 40 -> sb_push_slice [0] h = t_witness 0 h.
Proof. intros h L. rewrite push_plain by lia. reflexivity. Qed.
Lemma nested_ok : forall h, 2 <= lenN h <= 40 -> bytes_ok h ->
  exists i, nested_sig h = Ret i /\ encodes (PushBytes (t_witness 0 h)) i /\ shortest (PushBytes (t_witness 0 h)) i /\ redeem_script i = Ret (Some (t_witness 0 h)).
Proof.
  intros h L B. assert (LT : lenN (t_witness 0 h) = 2 + lenN h) by (unfold t_witness; rewrite lenN_app; reflexivity).
  assert (BT : bytes_ok (t_witness 0 h)) by (unfold t_witness; apply bytes_ok_app; split; [constructor; [reflexivity|constructor; [unfold byte_ok; lia|constructor]]|exact B]).
  assert (SP : special (t_witness 0 h) = false) by (destruct h as [|a h]; [rewrite lenN_nil in L; lia|reflexivity]).
  destruct (push_no_opt_enc [] (t_witness 0 h)) as (e & E & C & O & S); [rewrite LT; apply (N.le_lt_trans _ 42); [lia|reflexivity]|]. exists e.
  split; [|split; [exact C|split; [exact (S SP)|]]].
  2: { assert (EQ : e = sb_push_slice [] (t_witness 0 h)) by (rewrite push_slice_cases, SP, E; reflexivity). assert (L32 : lenN (t_witness 0 h) < 2 ^ 32) by (rewrite LT; apply (N.le_lt_trans _ 42); [lia|reflexivity]).
    destruct (redeem_spec e (O BT)) as (o & RO & RI). rewrite RO. f_equal. apply RI. exists []. cbn [app map]. rewrite EQ.
    pose proof (push_slice_built false [] [] (t_witness 0 h) (built_nil false) BT L32) as B0. unfold canon in B0. rewrite SP in B0. apply (built_reads false) in B0. exact (proj2 B0). }
  unfold nested_sig. change (sb_push_int_unchecked [] 0) with (Ret [0] : rust bytes). cbn [rbind]. rewrite program_push by exact L. unfold push_bytes_ok. replace (lenN (t_witness 0 h) <? 4294967296) with true by lia.
  rewrite push_slice_cases, SP, E. reflexivity.
Qed.
Lemma annex_none : forall ls e, (forall r, e <> 80 :: r) -> bip341_annex (ls ++ [e]) = None.
Proof.
  intros ls e H. unfold bip341_annex. rewrite rev_app_distr. cbn [rev app]. destruct e as [|b r]; [reflexivity|].
  destruct b as [|p]; [reflexivity|]. do 7 (destruct p as [p|p|]; try reflexivity). exfalso. now apply (H r).
Qed.
Lemma annex_some : forall ls x r, bip341_annex (ls ++ [x] ++ [80 :: r]) = Some (80 :: r).
Proof. intros ls x r. unfold bip341_annex. rewrite app_assoc, rev_app_distr. cbn [rev app]. rewrite rev_app_distr. reflexivity. Qed.
Lemma first_not_80 : forall v (o : bool), version_ok v -> N.lor (if o then 1 else 0) (lv_to_consensus v) <> 80 /\
  N.land (N.lor (if o then 1 else 0) (lv_to_consensus v)) 0xfe = version_byte v /\ N.testbit (N.lor (if o then 1 else 0 : N) (lv_to_consensus v)) 0 = o /\ N.lor (if o then 1 else 0) (lv_to_consensus v) < 256.
Proof.
  intros v o V. assert (A : forall b, b < 256 -> b mod 2 = 0 -> b <> 80 -> N.lor (if o then 1 else 0) b <> 80 /\ N.land (N.lor (if o then 1 else 0) b) 0xfe = b /\ N.testbit (N.lor (if o then 1 else 0 : N) b) 0 = o /\ N.lor (if o then 1 else 0) b < 256).
  { intros b L E NE. assert (K : forallb (fun b => negb (b mod 2 =? 0) || (b =? 80) || (negb (N.lor (if o then 1 else 0) b =? 80) && (N.land (N.lor (if o then 1 else 0) b) 0xfe =? b) && Bool.eqb (N.testbit (N.lor (if o then 1 else 0) b) 0) o && (N.lor (if o then 1 else 0) b <? 256))) (map N.of_nat (seq 0 256)) = true) by (destruct o; vm_compute; reflexivity).
    rewrite forallb_forall in K. specialize (K b). assert (I : In b (map N.of_nat (seq 0 256))) by (apply in_map_iff; exists (N.to_nat b); split; [apply N2Nat.id|apply in_seq; lia]). apply K in I.
    rewrite E in I. cbn [N.eqb negb orb] in I. apply Bool.orb_true_iff in I as [I|I]; [apply N.eqb_eq in I; contradiction|]. apply Bool.andb_true_iff in I as [I I4]. apply Bool.andb_true_iff in I as [I I3]. apply Bool.andb_true_iff in I as [I1 I2].
    apply Bool.negb_true_iff, N.eqb_neq in I1. apply N.eqb_eq in I2. apply Bool.eqb_prop in I3. apply N.ltb_lt in I4. auto. }
  destruct v as [|f]; cbn [lv_to_consensus version_byte version_ok] in *; [apply A; [reflexivity|reflexivity|discriminate]|]. apply A; intuition.
Qed.
Lemma annex_one : forall e, bip341_annex [e] = None.
Proof. intros [|b r]; [reflexivity|]. destruct b as [|q]; [reflexivity|]. do 7 (destruct q as [q|q|]; try reflexivity). Qed.
Lemma rest_some : forall ls x, bip341_annex ls = Some x -> bip341_rest ls = removelast ls.
Proof. intros ls x E. unfold bip341_rest. now rewrite E. Qed.
Lemma rest_none : forall ls, bip341_annex ls = None -> bip341_rest ls = ls.
Proof. intros ls E. unfold bip341_rest. now rewrite E. Qed.
Lemma rest_annex : forall (stack : list bytes) (s ctl : bytes) (annex : option bytes), (forall r, ctl <> 80 :: r) -> match annex with Some a => exists r, a = 80 :: r | None => True end ->
  let els := stack ++ s :: ctl :: match annex with Some a => [a] | None => [] end in bip341_rest els = stack ++ [s; ctl] /\ bip341_annex els = annex.
Proof.
  intros stack s ctl annex NX AN els. unfold els. clear els. destruct annex as [a|].
  - destruct AN as [r ->]. assert (A : bip341_annex (stack ++ [s; ctl; 80 :: r]) = Some (80 :: r)) by (pose proof (annex_some (stack ++ [s]) ctl r) as A; rewrite <- app_assoc in A; exact A). split; [|exact A].
    etransitivity; [exact (rest_some _ _ A)|]. pose proof (removelast_last (stack ++ [s; ctl]) (80 :: r)) as R. rewrite <- app_assoc in R. exact R.
  - assert (A : bip341_annex (stack ++ [s; ctl]) = None) by (pose proof (annex_none (stack ++ [s]) ctl NX) as A; rewrite <- app_assoc in A; exact A). split; [exact (rest_none _ A)|exact A].
Qed.
Lemma three_pushes : forall w (stack : list bytes) (s ctl : bytes) (annex : option bytes), stack_of w stack ->
  let els := stack ++ s :: ctl :: match annex with Some a => [a] | None => [] end in elements_size els <= 2 ^ 32 ->
  exists w1 w2 w3, push_slice w s = Ret w1 /\ push_slice w1 ctl = Ret w2 /\ match annex with Some a => push_slice w2 a | None => Ret w2 end = Ret w3 /\ stack_of w3 els.
Proof.
  intros w stack s ctl annex ST els SZ. set (tail := match annex with Some a => [a] | None => [] end) in *.
  assert (EQ : els = ((stack ++ [s]) ++ [ctl]) ++ tail) by (unfold els; rewrite <- !app_assoc; reflexivity). rewrite EQ in *. clear EQ els. rewrite elements_app in SZ. pose proof (elements_app (stack ++ [s]) [ctl]) as P.
  destruct (push_total w stack s ST) as (w1 & W1 & S1); [lia|]. destruct (push_total w1 _ ctl S1) as (w2 & W2 & S2); [lia|]. exists w1, w2. unfold tail in *. destruct annex as [a|].
  - destruct (push_total w2 _ a S2) as (w3 & W3 & S3); [rewrite elements_app; lia|]. exists w3. auto.
  - exists w2. rewrite app_nil_r. auto.
Qed.
Lemma three_sizes : forall a b c : bytes, elements_size [a; b; c] <= lenN a + lenN b + lenN c + 27.
Proof.
  intros a b c. assert (E : elements_size [a; b; c] = elements_size [a] + (elements_size [b] + elements_size [c])) by (rewrite <- !elements_app; reflexivity). rewrite E.
  pose proof (element_len a). pose proof (element_len b). pose proof (element_len c). lia.
Qed.
Lemma script_of_rest : forall (ls l : list bytes) (s c : bytes), bip341_rest ls = l ++ [s; c] -> bip341_script ls = Some (s, c).
Proof. intros ls l s c E. unfold bip341_script. rewrite E, rev_app_distr. reflexivity. Qed.
