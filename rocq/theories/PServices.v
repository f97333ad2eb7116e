(** C33: the operators of service flags. *)
From Verif Require Import Base MP2p MServices PP2p.
Local Open Scope N_scope.

(** [a | b] has the services of both; [a ^ b] has those of [a] that [b] has not, which is the exclusive or exactly when [a] has
    all of [b]'s.  Adding and removing undo each other on flags that were absent, or present. *)
Theorem C33_service_operators : forall a b, a < 2 ^ 64 -> b < 2 ^ 64 ->
  (forall i, N.testbit (sf_bitor a b) i = N.testbit a i || N.testbit b i) /\
  (forall i, N.testbit (sf_bitxor a b) i = N.testbit a i && negb (N.testbit b i)) /\
  (sf_bitxor a b = N.lxor a b <-> sf_has a b = true) /\
  (sf_has (sf_bitor a b) a = true /\ sf_has (sf_bitor a b) b = true) /\
  (sf_has a b = true -> sf_bitor (sf_bitxor a b) b = a) /\
  ((forall i, N.testbit a i && N.testbit b i = false) -> sf_bitxor (sf_bitor a b) b = a).
Proof.
  intros a b A B. destruct (C33_services a b A B) as (P1 & P2 & P3 & L1 & L2). unfold sf_bitor, sf_bitxor.
  split; [exact P1|]. split; [exact P2|]. split; [|split; [|split]].
  - rewrite P3. split.
    + intros E i Hi. specialize (P2 i). rewrite E, N.lxor_spec, Hi in P2. destruct (N.testbit a i); [reflexivity|discriminate].
    + intros H. apply N.bits_inj. intros i. rewrite P2, N.lxor_spec. specialize (H i). destruct (N.testbit a i), (N.testbit b i); try reflexivity. now discriminate H.
  - destruct (C33_services _ a L1 A) as (_ & _ & Q & _). destruct (C33_services _ b L1 B) as (_ & _ & Q' & _). split; [apply Q|apply Q']; intros i Hi; rewrite P1, Hi; [reflexivity|apply orb_true_r].
  - intros H. destruct (C33_services _ b L2 B) as (Q & _). apply N.bits_inj. intros i. rewrite Q, P2. pose proof (proj1 P3 H i) as K.
    destruct (N.testbit a i), (N.testbit b i); try reflexivity. now discriminate K.
  - intros H. destruct (C33_services _ b L1 B) as (_ & Q & _). apply N.bits_inj. intros i. rewrite Q, P1. specialize (H i).
    destruct (N.testbit a i), (N.testbit b i); try reflexivity; discriminate.
Qed.
Print Assumptions C33_service_operators.
(** So [^] is not the exclusive or, and its order matters. *)
Theorem C33_xor_refuted : exists a b, a < 2 ^ 64 /\ b < 2 ^ 64 /\ sf_bitxor a b <> N.lxor a b /\ sf_bitxor a b <> sf_bitxor b a.
Proof. exists 0, 8. repeat split; vm_compute; discriminate. Qed.
Print Assumptions C33_xor_refuted.
Example C33_operators_ex : sf_has 9 8 = true /\ sf_bitxor 9 8 = 1 /\ sf_bitor 1 8 = 9.
Proof. repeat split; reflexivity. Qed.
