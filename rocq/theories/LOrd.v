(** Lemmas for C66. *)
From Coq Require Import Sorted Permutation.
From Verif Require Import Base MDec MWitness MTx LWire MSig MTaproot LTaproot MOrd SOrd.
Local Open Scope N_scope.

Lemma then_field : forall A T (f : A -> T) (cmp : T -> T -> comparison) (rest : A -> A -> comparison),
  total_order cmp ->
  (forall x y, rest y x = CompOpp (rest x y)) -> (forall x y z, rest x y = Lt -> rest y z = Lt -> rest x z = Lt) ->
  (forall x y, rest x y = Eq -> forall z, rest x z = rest y z) ->
  let c := fun x y => then_cmp (cmp (f x) (f y)) (rest x y) in
  (forall x y, c x y = Eq <-> f x = f y /\ rest x y = Eq) /\
  (forall x y, c y x = CompOpp (c x y)) /\ (forall x y z, c x y = Lt -> c y z = Lt -> c x z = Lt) /\
  (forall x y, c x y = Eq -> forall z, c x z = c y z).
Proof.
  intros A T f cmp rest O R1 R2 R3 c. assert (K : forall x y, c x y = Eq <-> f x = f y /\ rest x y = Eq).
  { intros x y. unfold c, then_cmp. destruct (cmp (f x) (f y)) eqn:E.
    - apply (to_eq _ O) in E. tauto.
    - split; [easy|]. intros [H _]. apply (to_eq _ O) in H. congruence.
    - split; [easy|]. intros [H _]. apply (to_eq _ O) in H. congruence. }
  split; [exact K|]. split; [|split].
  - intros x y. unfold c, then_cmp. rewrite (to_opp _ O (f x) (f y)), (R1 x y). now destruct (cmp (f x) (f y)).
  - intros x y z. unfold c, then_cmp. intros H1 H2. destruct (cmp (f x) (f y)) eqn:XY; try easy.
    + apply (to_eq _ O) in XY. rewrite XY. destruct (cmp (f y) (f z)); try easy. eauto.
    + destruct (cmp (f y) (f z)) eqn:YZ; try easy; [apply (to_eq _ O) in YZ; rewrite <- YZ; now rewrite XY|]. now rewrite (to_trans _ O _ _ _ XY YZ).
  - intros x y E z. apply K in E as [E1 E2]. unfold c. rewrite E1. now rewrite (R3 x y E2 z).
Qed.

(** A total order from a list of fields that determine the value. *)
Lemma pull_order : forall A T (f : A -> T) (cmp : T -> T -> comparison), total_order cmp ->
  (forall x y, f x = f y -> x = y) -> total_order (fun x y => cmp (f x) (f y)).
Proof.
  intros A T f cmp O I. split.
  - intros x y. rewrite (to_eq _ O). split; [apply I|now intros ->].
  - intros x y. apply (to_opp _ O).
  - intros x y z. apply (to_trans _ O).
Qed.
Lemma pair_order : forall A B (ca : A -> A -> comparison) (cb : B -> B -> comparison), total_order ca -> total_order cb ->
  total_order (fun x y : A * B => then_cmp (ca (fst x) (fst y)) (cb (snd x) (snd y))).
Proof.
  intros A B ca cb OA OB.
  destruct (then_field (A * B) A fst ca (fun x y => cb (snd x) (snd y)) OA) as (K & O1 & O2 & _).
  - intros. apply (to_opp _ OB).
  - intros x y z. apply (to_trans _ OB).
  - intros x y E z. apply (to_eq _ OB) in E. now rewrite E.
  - split.
    + intros [a b] [a' b']. rewrite K. cbn [fst snd]. rewrite (to_eq _ OB). split; [now intros [-> ->]|now intros [= -> ->]].
    + exact O1.
    + exact O2.
Qed.
Lemma order_ext : forall A (c d : A -> A -> comparison), (forall x y, c x y = d x y) -> total_order c -> total_order d.
Proof.
  intros A c d E O. split.
  - intros x y. rewrite <- E. apply (to_eq _ O).
  - intros x y. rewrite <- !E. apply (to_opp _ O).
  - intros x y z. rewrite <- !E. apply (to_trans _ O).
Qed.
Lemma then_assoc : forall a b c, then_cmp (then_cmp a b) c = then_cmp a (then_cmp b c).
Proof. now intros [] b c. Qed.

Lemma bytes_order : total_order bytes_cmp.
Proof. apply lex_order, N_order. Qed.
Lemma outpoint_order : total_order outpoint_cmp.
Proof.
  apply (pull_order outpoint (bytes * N) (fun o => (op_txid o, op_vout o)) _ (pair_order _ _ _ _ bytes_order N_order)).
  intros [a b] [c d]; cbn. now intros [= -> ->].
Qed.
Lemma witness_order : total_order witness_cmp.
Proof.
  apply (pull_order witness (bytes * (N * N)) (fun o => (wt_content o, (wt_elements o, wt_start o))) _ (pair_order _ _ _ _ bytes_order (pair_order _ _ _ _ N_order N_order))).
  intros [a b e] [c d g]; cbn. now intros [= -> -> ->].
Qed.
Lemma txin_order : total_order txin_cmp.
Proof.
  apply (pull_order txin (outpoint * (bytes * (N * witness))) (fun o => (ti_prevout o, (ti_script o, (ti_sequence o, ti_witness o)))) _
    (pair_order _ _ _ _ outpoint_order (pair_order _ _ _ _ bytes_order (pair_order _ _ _ _ N_order witness_order)))).
  intros [a b e h] [c d g i]; cbn. now intros [= -> -> -> ->].
Qed.
Lemma txout_order : total_order txout_cmp.
Proof.
  apply (pull_order txout (N * bytes) (fun o => (to_amount o, to_script o)) _ (pair_order _ _ _ _ N_order bytes_order)).
  intros [a b] [c d]; cbn. now intros [= -> ->].
Qed.
Lemma tx_order : total_order tx_cmp.
Proof.
  eapply order_ext; [|apply (pull_order transaction (N * (N * (list txin * list txout))) (fun o => (tx_version o, (tx_lock_time o, (tx_inputs o, tx_outputs o)))) _
    (pair_order _ _ _ _ N_order (pair_order _ _ _ _ N_order (pair_order _ _ _ _ (lex_order _ _ txin_order) (lex_order _ _ txout_order)))))].
  - intros x y. unfold tx_cmp. now rewrite !then_assoc.
  - intros [a b e h] [c d g i]; cbn. now intros [= -> -> -> ->].
Qed.
Lemma leaf_order : total_order leaf_cmp.
Proof.
  pose proof (pair_order _ _ _ _ bytes_order lv_order) as P. split.
  - intros [s v|h] [s' v'|h']; cbn [leaf_cmp]; try easy.
    + pose proof (to_eq _ P (s, v) (s', v')) as K. cbn [fst snd] in K. unfold bytes_cmp in K. rewrite K. split; [now intros [= -> ->]|now intros [= -> ->]].
    + rewrite (to_eq _ hash_order). split; [now intros ->|now intros [= ->]].
  - intros [s v|h] [s' v'|h']; cbn [leaf_cmp]; try easy.
    + exact (to_opp _ P (s, v) (s', v')).
    + apply (to_opp _ hash_order).
  - intros [s v|h] [s' v'|h'] [s2 v2|h2]; cbn [leaf_cmp]; try easy.
    + exact (to_trans _ P (s, v) (s', v') (s2, v2)).
    + apply (to_trans _ hash_order).
Qed.
Lemma leaf_node_order : total_order leaf_node_cmp.
Proof.
  apply (pull_order leaf_node (tap_leaf * list bytes) (fun o => (ln_leaf o, ln_branch o)) _ (pair_order _ _ _ _ leaf_order branch_order)).
  intros [a b] [c d]; cbn. now intros [= -> ->].
Qed.
Lemma bool_order : total_order bool_cmp.
Proof. split; [now intros [] []|now intros [] []|now intros [] [] []]. Qed.
Lemma node_order : total_order node_cmp.
Proof.
  eapply order_ext; [|apply (pull_order node_info (bytes * (list leaf_node * bool)) (fun o => (ni_hash o, (ni_leaves o, ni_hidden o))) _
    (pair_order _ _ _ _ hash_order (pair_order _ _ _ _ (lex_order _ _ leaf_node_order) bool_order)))].
  - intros x y. unfold node_cmp, then_cmp. cbn [fst snd]. destruct (hash_cmp _ _); auto; now destruct (lex_cmp _ _ _).
  - intros [a b e] [c d g]; cbn. now intros [= -> -> ->].
Qed.

(** Equality *)
Lemma list_eqb_eq : forall A (e : A -> A -> bool), (forall x y, e x y = true <-> x = y) -> forall a b, list_eqb e a b = true <-> a = b.
Proof.
  intros A e E. induction a as [|x a IH]; intros [|y b]; cbn [list_eqb]; try easy. rewrite Bool.andb_true_iff, E, IH.
  split; [now intros [-> ->]|now intros [= -> ->]].
Qed.
Lemma witness_eqb_eq : forall a b, witness_eqb a b = true <-> a = b.
Proof.
  intros [a b e] [c d g]. unfold witness_eqb. cbn. rewrite !Bool.andb_true_iff, beqb_eq, !N.eqb_eq.
  split; [now intros [[-> ->] ->]|now intros [= -> -> ->]].
Qed.
Lemma txin_eqb_eq : forall a b, txin_eqb a b = true <-> a = b.
Proof.
  intros [a b e h] [c d g i]. unfold txin_eqb. cbn [ti_prevout ti_script ti_sequence ti_witness]. rewrite !Bool.andb_true_iff, beqb_eq, !N.eqb_eq, outpoint_eqb_eq, witness_eqb_eq.
  split; [now intros [[[-> ->] ->] ->]|now intros [= -> -> -> ->]].
Qed.
Lemma txout_eqb_eq : forall a b, txout_eqb a b = true <-> a = b.
Proof. intros [a b] [c d]. unfold txout_eqb. cbn. rewrite Bool.andb_true_iff, beqb_eq, N.eqb_eq. split; [now intros [-> ->]|now intros [= -> ->]]. Qed.
Lemma tx_eqb_eq : forall a b, tx_eqb a b = true <-> a = b.
Proof.
  intros [a b e h] [c d g i]. unfold tx_eqb. cbn [tx_version tx_lock_time tx_inputs tx_outputs].
  rewrite !Bool.andb_true_iff, !N.eqb_eq, (list_eqb_eq _ _ txin_eqb_eq), (list_eqb_eq _ _ txout_eqb_eq).
  split; [now intros [[[-> ->] ->] ->]|now intros [= -> -> -> ->]].
Qed.
Lemma header_eqb_eq : forall a b, header_eqb a b = true <-> a = b.
Proof.
  intros [a b e h k l] [c d g i m n]. unfold header_eqb. cbn [h_version h_prev h_merkle h_time h_bits h_nonce]. rewrite !Bool.andb_true_iff, !beqb_eq, !N.eqb_eq.
  split; [now intros [[[[[-> ->] ->] ->] ->] ->]|now intros [= -> -> -> -> -> ->]].
Qed.

(** The order spelled out *)
Lemma lex_dictionary : forall A (cmp : A -> A -> comparison) (less : A -> A -> Prop), total_order cmp ->
  (forall x y, cmp x y = Lt <-> less x y) -> forall a b, lex_cmp cmp a b = Lt <-> dictionary less a b.
Proof.
  intros A cmp less O L. induction a as [|x a IH]; intros [|y b]; cbn [lex_cmp].
  - split; [easy|]. intro H. inversion H.
  - split; [constructor|easy].
  - split; [easy|]. intro H. inversion H.
  - destruct (cmp x y) eqn:E.
    + apply (to_eq _ O) in E as ->. rewrite IH. split; [now constructor|]. intro H. inversion H; subst; auto.
      match goal with h : less y y |- _ => apply L in h end. assert (cmp y y = Eq) by now apply (to_eq _ O). congruence.
    + split; [|easy]. intros _. apply Here. now apply L.
    + split; [easy|]. intro H. inversion H; subst.
      * match goal with h : less x y |- _ => apply L in h; congruence end.
      * assert (cmp y y = Eq) by now apply (to_eq _ O). congruence.
Qed.
Lemma field_lt : forall A T (f : A -> T) (cmp : T -> T -> comparison) (less : T -> T -> Prop) (c : A -> A -> comparison) (rest : A -> A -> Prop), total_order cmp ->
  (forall x y, cmp x y = Lt <-> less x y) -> (forall x y, c x y = Lt <-> rest x y) ->
  forall x y, then_cmp (cmp (f x) (f y)) (c x y) = Lt <-> field f less rest x y.
Proof.
  intros A T f cmp less c rest O L R x y. unfold field, then_cmp. rewrite <- L, <- R.
  destruct (cmp (f x) (f y)) eqn:E.
  - apply (to_eq _ O) in E. split; [intro; right; auto|]. intros [H|[_ H]]; [easy|exact H].
  - split; [now left|easy].
  - split; [easy|]. intros [H|[H _]]; [easy|]. apply (to_eq _ O) in H. congruence.
Qed.
Lemma sorted_unique : forall A (cmp : A -> A -> comparison), total_order cmp ->
  forall l m, sorted cmp l -> sorted cmp m -> Permutation l m -> l = m.
Proof.
  intros A cmp O. induction l as [|x l IH]; intros m Hl Hm P.
  - now apply Permutation_nil in P.
  - destruct m as [|y m]; [now apply Permutation_sym, Permutation_nil in P|].
    inversion Hl as [|? ? Sl Fl]; subst. inversion Hm as [|? ? Sm Fm]; subst.
    assert (E : x = y).
    { assert (I : In x (y :: m)) by (eapply Permutation_in; [exact P|now left]).
      assert (J : In y (x :: l)) by (eapply Permutation_in; [apply Permutation_sym, P|now left]).
      destruct I as [I|I]; [now symmetry|]. destruct J as [J|J]; [exact J|].
      rewrite Forall_forall in Fl, Fm. specialize (Fl y J). specialize (Fm x I). cbv beta in Fl, Fm.
      rewrite (to_opp _ O x y) in Fm. destruct (cmp x y) eqn:E; cbn in Fm; try easy. now apply (to_eq _ O). }
    subst y. f_equal. apply IH; auto. now apply Permutation_cons_inv in P.
Qed.
