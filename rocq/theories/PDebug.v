(** C50, continued: printing a partly consumed signature iterator. *)
From Coq Require Import String.
From Verif Require Import Base MDec MText MSighash MSig MDebug SText SSig LSig PSig.
Local Open Scope N_scope.

(** How many bytes a history takes from the back of a queue. *)
Fixpoint taken_back (q : bytes) (cs : list iter_call) : N :=
  match cs with
  | [] => 0
  | c :: cs => (match c with CBack => if lenN q =? 0 then 0 else 1 | _ => 0 end) + taken_back (snd (queue_step q c)) cs
  end.
(** the used part of the buffer: what the history has not taken from the back *)
Lemma run_kept : forall cs i q i' l, view i q -> iter_run i cs = Ret (l, i') ->
  ss_data (it_sig i') = ss_data (it_sig i) /\ ss_len (it_sig i') + taken_back q cs = ss_len (it_sig i).
Proof.
  induction cs as [|c cs IH]; intros i q i' l V R; cbn [iter_run taken_back] in *.
  - injection R as _ ->. split; [reflexivity|lia].
  - destruct (view_step i q c V) as (i1 & E & V1). rewrite E in R. cbn [rbind] in R. destruct (iter_run i1 cs) as [[l1 i2]|] eqn:R1; [|discriminate]. cbn [rbind] in R. injection R as _ <-.
    destruct (IH i1 _ i2 l1 V1 R1) as [D L]. rewrite D.
    assert (X : ss_data (it_sig i1) = ss_data (it_sig i) /\ ss_len (it_sig i1) + (match c with CBack => if lenN q =? 0 then 0 else 1 | _ => 0 end) = ss_len (it_sig i)).
    { destruct (view_bytes i q V) as (pre & B & LP). destruct c as [|n|]; cbn [iter_step] in E.
      - unfold iter_next in E. rewrite B in E. cbn [rbind] in E. destruct (nth_error _ _); injection E as _ <-; cbn [it_sig]; split; reflexivity || lia.
      - unfold iter_nth in E. rewrite (view_len i q V) in E. cbn [rbind] in E. destruct (lenN q <=? n); [injection E as _ <-; cbn [it_sig]; split; reflexivity || lia|].
        destruct (it_pos i + n <? 2 ^ 64); [|discriminate]. unfold iter_next in E. cbn [it_sig it_pos] in E. rewrite B in E. cbn [rbind] in E. destruct (nth_error _ _); injection E as _ <-; cbn [it_sig]; split; reflexivity || lia.
      - pose proof V as (p & post & DD & LPP & LL & _). unfold iter_next_back in E. destruct (N.eqb_spec (it_pos i) (ss_len (it_sig i))) as [Z|Z].
        + injection E as _ <-. destruct (N.eqb_spec (lenN q) 0); [split; reflexivity || lia|lia].
        + destruct (N.eqb_spec (ss_len (it_sig i)) 0); [discriminate|]. cbv zeta in E. rewrite B in E. cbn [rbind] in E. destruct (nth_error _ _); [|discriminate]. injection E as _ <-. cbn [it_sig ss_data ss_len].
          destruct (N.eqb_spec (lenN q) 0); [lia|]. split; [reflexivity|lia]. }
    destruct X as [X Y]. split; [exact X|]. lia.
Qed.

(** Printing an iterator shows the whole signature in hexadecimal, however much has been taken from the front, as long as 64 bytes or
    more have not been taken from the back; otherwise it panics. *)
Theorem C50_iterator_debug : forall s x cs l i, lenN (ts_sig s) = 64 -> ts_serialize s = Ret x -> iter_run (iter_new x) cs = Ret (l, i) ->
  (64 <= lenN (tap_bytes s) - taken_back (tap_bytes s) cs ->
     exists kept, kept = firstn (N.to_nat (lenN (tap_bytes s) - taken_back (tap_bytes s) cs)) (tap_bytes s) /\
     iter_debug i = Ret (lit "IntoIter { signature: " ++ hex_bytes false kept ++ lit ", pos: " ++ fmt_u (it_pos i) ++ lit " }")) /\
  (lenN (tap_bytes s) - taken_back (tap_bytes s) cs < 64 -> iter_debug i = Panic).
Proof.
  intros s x cs l i L E R. destruct (ts_ser_spec s L) as (x' & E' & B & LX & LD). assert (x' = x) as -> by congruence.
  assert (V : view (iter_new x) (tap_bytes s)) by (apply view_new; [exact B|rewrite LD; reflexivity|exact LX]).
  destruct (run_kept cs _ _ _ _ V R) as [D K]. cbn [iter_new it_sig] in D, K.
  assert (SB : ss_bytes (it_sig i) = Ret (firstn (N.to_nat (lenN (tap_bytes s) - taken_back (tap_bytes s) cs)) (tap_bytes s))).
  { unfold ss_bytes in *. rewrite D. destruct (N.leb_spec (ss_len x) (lenN (ss_data x))) as [Q|]; [|discriminate]. assert (T : takeN (ss_len x) (ss_data x) = tap_bytes s) by congruence.
    destruct (N.leb_spec (ss_len (it_sig i)) (lenN (ss_data x))); [|lia]. f_equal. assert (N1 : ss_len (it_sig i) = lenN (tap_bytes s) - taken_back (tap_bytes s) cs) by lia. rewrite <- N1. replace (ss_len (it_sig i)) with (N.min (ss_len (it_sig i)) (ss_len x)) at 1 by lia. rewrite <- T. unfold takeN. rewrite firstn_firstn. f_equal. lia. }
  unfold iter_debug, ss_debug, ts_fmt. rewrite SB. cbn [rbind]. set (n := lenN (tap_bytes s) - taken_back (tap_bytes s) cs) in *.
  assert (SL : ss_len (it_sig i) = n) by lia.
  assert (LN : lenN (firstn (N.to_nat n) (tap_bytes s)) = n) by (unfold lenN in *; rewrite firstn_length; lia).
  assert (M : lenN (tap_bytes s) <= 65) by (rewrite (tap_len s L); destruct (is_tdefault (ts_type s)); lia).
  rewrite SL, LN. change TAP_MAX_LEN with 65. split; intro Q.
  - eexists. split; [reflexivity|]. assert (n = 64 \/ n = 65) as [->| ->] by lia; reflexivity.
  - destruct (N.eqb_spec n 65); [lia|]. cbn [negb]. destruct (N.eqb_spec n (65 - 1)); [lia|reflexivity].
Qed.
(** "A value of a public type can be printed for debugging" fails: one call of next_back on a default-type signature is enough. *)
Theorem C50_iterator_debug_refuted : exists s x i b, lenN (ts_sig s) = 64 /\ ts_serialize s = Ret x /\ iter_next_back (iter_new x) = Ret (Some b, i) /\ iter_debug i = Panic.
Proof.
  exists (mk_tsig (repeat 7 64) TDefault). destruct (C50_taproot_write (mk_tsig (repeat 7 64) TDefault) eq_refl) as (x & E & _).
  exists x. destruct (C50_iterator (mk_tsig (repeat 7 64) TDefault) x [CBack] eq_refl E) as (i & R & _). pose proof (C50_iterator_debug (mk_tsig (repeat 7 64) TDefault) x [CBack] _ i eq_refl E R) as [_ P].
  cbn [iter_run iter_step] in R. destruct (iter_next_back (iter_new x)) as [[o j]|] eqn:Q; [|discriminate]. cbn [rbind] in R.
  exists i, 7. split; [reflexivity|]. split; [exact E|]. split.
  - assert (o = Some 7 /\ j = i) as [-> ->]. { split; [|congruence]. assert (Z : fst ([o], j) = [Some 7]) by (injection R as R1 _; cbn [fst]; rewrite R1; vm_compute; reflexivity). cbn [fst] in Z. congruence. } reflexivity.
  - apply P. vm_compute. reflexivity.
Qed.
Example C50_debug_ex : exists x i, ts_serialize (mk_tsig (repeat 10 64) TAll) = Ret x /\ iter_run (iter_new x) [CNext; CBack; CNth 2] = Ret ([Some 10; Some 1; Some 10], i) /\
  exists t, iter_debug i = Ret t /\ t = lit "IntoIter { signature: 0a0a0a0a0a0a0a0a0a0a0a0a0a0a0a0a0a0a0a0a0a0a0a0a0a0a0a0a0a0a0a0a0a0a0a0a0a0a0a0a0a0a0a0a0a0a0a0a0a0a0a0a0a0a0a0a0a0a0a0a0a0a0a0a, pos: 4 }".
Proof. do 2 eexists. split; [vm_compute; reflexivity|]. split; [vm_compute; reflexivity|]. eexists. split; vm_compute; reflexivity. Qed.
Print Assumptions C50_iterator_debug.
Print Assumptions C50_iterator_debug_refuted.
