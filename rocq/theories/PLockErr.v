(** C20, C21: what the errors of lock times carry and say. *)
From Coq Require Import String.
From Verif Require Import Base MText LText MLock SLock PLock MLockErr PAgent.
Local Open Scope N_scope.

(** A relative lock asked in the wrong unit gives its own value; asked in its unit with a coin above the tip, the two heights or
    times, in the order of the arguments.  There is no other error. *)
Theorem C21_error_values : forall l tip mined e,
  (rel_is_satisfied_by_height l tip mined = Err e <->
     (exists n, l = RTime n /\ e = RIncompatible n) \/ (exists n m, l = RBlocks n /\ mined = Some m /\ tip < m /\ e = RSatisfaction (tip, m))) /\
  (rel_is_satisfied_by_time l tip mined = Err e <->
     (exists n, l = RBlocks n /\ e = RIncompatible n) \/ (exists n m, l = RTime n /\ mined = Some m /\ tip < m /\ e = RSatisfaction (tip, m))) /\
  (forall tip_h tip_t mined_h mined_t f, rel_is_satisfied_by l tip_h tip_t mined_h mined_t = Err f <->
     (exists n m, l = RBlocks n /\ mined_h = Some m /\ tip_h < m /\ f = RBlocksErr (tip_h, m)) \/
     (exists n m, l = RTime n /\ mined_t = Some m /\ tip_t < m /\ f = RTimeErr (tip_t, m))).
Proof.
  assert (B : forall n tip mined e, blocks_is_satisfied_by n tip mined = Err e <-> exists m, mined = Some m /\ tip < m /\ e = (tip, m)).
  { intros n tip mined e. unfold blocks_is_satisfied_by, checked_sub32. destruct mined as [m|]; [|split; [discriminate|intros (? & ? & _); discriminate]].
    destruct (N.leb_spec m tip); split; try discriminate.
    - intros (m' & A & L & _). assert (m' = m) by congruence. lia.
    - intro K. exists m. repeat split; auto. congruence.
    - intros (m' & A & _ & ->). congruence. }
  assert (T : forall n tip mined e, time_is_satisfied_by n tip mined = Err e <-> exists m, mined = Some m /\ tip < m /\ e = (tip, m)).
  { intros n tip mined e. unfold time_is_satisfied_by, checked_sub32. destruct mined as [m|]; [|split; [discriminate|intros (? & ? & _); discriminate]].
    destruct (N.leb_spec m tip); split; try discriminate.
    - intros (m' & A & L & _). assert (m' = m) by congruence. lia.
    - intro K. exists m. repeat split; auto. congruence.
    - intros (m' & A & _ & ->). congruence. }
  intros l tip mined e. split; [|split].
  - destruct l as [n|n]; cbn [rel_is_satisfied_by_height].
    + specialize (B n tip mined). destruct (blocks_is_satisfied_by n tip mined) as [b|x] eqn:E.
      * split; [discriminate|]. intros [(k & K & _)|(k & m & _ & M & L & _)]; [discriminate|]. assert (Q : @Ok bool (N * N) b = Err (tip, m)) by (apply B; eauto). discriminate Q.
      * destruct (proj1 (B x) eq_refl) as (m & M & L & ->). split.
        -- intro K. right. exists n, m. repeat split; auto. congruence.
        -- intros [(k & K & _)|(k & m' & _ & M' & _ & ->)]; [discriminate|]. congruence.
    + split; [intro K; left; exists n; split; congruence|]. intros [(k & K & ->)|(k & m & K & _)]; congruence.
  - destruct l as [n|n]; cbn [rel_is_satisfied_by_time].
    + split; [intro K; left; exists n; split; congruence|]. intros [(k & K & ->)|(k & m & K & _)]; congruence.
    + specialize (T n tip mined). destruct (time_is_satisfied_by n tip mined) as [b|x] eqn:E.
      * split; [discriminate|]. intros [(k & K & _)|(k & m & _ & M & L & _)]; [discriminate|]. assert (Q : @Ok bool (N * N) b = Err (tip, m)) by (apply T; eauto). discriminate Q.
      * destruct (proj1 (T x) eq_refl) as (m & M & L & ->). split.
        -- intro K. right. exists n, m. repeat split; auto. congruence.
        -- intros [(k & K & _)|(k & m' & _ & M' & _ & ->)]; [discriminate|]. congruence.
  - intros th tt mh mt f. destruct l as [n|n]; cbn [rel_is_satisfied_by].
    + specialize (B n th mh). destruct (blocks_is_satisfied_by n th mh) as [b|x] eqn:E.
      * split; [discriminate|]. intros [(k & m & _ & M & L & _)|(k & m & K & _)]; [|discriminate]. assert (Q : @Ok bool (N * N) b = Err (th, m)) by (apply B; eauto). discriminate Q.
      * destruct (proj1 (B x) eq_refl) as (m & M & L & ->). split.
        -- intro K. left. exists n, m. repeat split; auto. congruence.
        -- intros [(k & m' & _ & M' & _ & ->)|(k & m' & K & _)]; [|discriminate]. congruence.
    + specialize (T n tt mt). destruct (time_is_satisfied_by n tt mt) as [b|x] eqn:E.
      * split; [discriminate|]. intros [(k & m & K & _)|(k & m & _ & M & L & _)]; [discriminate|]. assert (Q : @Ok bool (N * N) b = Err (tt, m)) by (apply T; eauto). discriminate Q.
      * destruct (proj1 (T x) eq_refl) as (m & M & L & ->). split.
        -- intro K. right. exists n, m. repeat split; auto. congruence.
        -- intros [(k & m' & K & _)|(k & m' & _ & M' & _ & ->)]; [discriminate|]. congruence.
Qed.
Print Assumptions C21_error_values.

(** The message for a wrong unit names the kind of an absolute lock, its value and the value it was tried with.  The one for
    a relative lock names the other kind of lock, and gives a number of intervals of 512 seconds as a number of seconds. *)
Theorem C20_message : forall n l h t e, u32 n -> abs_from_consensus n = Ret l ->
  (abs_is_satisfied_by_height l h = Err e -> 500000000 <= n /\
     abs_incompatible_height_text e = lit "tried to satisfy a lock-by-time lock " ++ fmt_u n ++ lit " with height: " ++ fmt_u h) /\
  (abs_is_satisfied_by_time l t = Err e -> n < 500000000 /\
     abs_incompatible_time_text e = lit "tried to satisfy a lock-by-height lock " ++ fmt_u n ++ lit " with MTP: " ++ fmt_u t).
Proof.
  intros n l h t e Hn E. destruct (C20_satisfied n l h t Hn E) as (_ & A & B). rewrite A, B.
  destruct (N.ltb_spec n 500000000); split; intro K; try discriminate; (split; [assumption|]).
  - assert (e = (n, t)) as -> by congruence. reflexivity.
  - assert (e = (n, h)) as -> by congruence. reflexivity.
Qed.
Print Assumptions C20_message.
Theorem C21_message_refuted : forall n tip mined,
  (exists e, rel_is_satisfied_by_height (RTime n) tip mined = Err e /\
     exists number, rel_incompatible_height_text e = lit "tried to satisfy a lock-by-height locktime using seconds " ++ number /\
       (0 < n -> number <> fmt_u (to_seconds n))) /\
  (exists e rest, rel_is_satisfied_by_time (RBlocks n) tip mined = Err e /\
     rel_incompatible_time_text e = lit "tried to satisfy a lock-by-time locktime using blocks " ++ rest).
Proof.
  intros n tip mined. split.
  - exists (RIncompatible n). split; [reflexivity|]. exists (fmt_u n). split; [reflexivity|]. intros P K. apply fmt_u_inj in K. unfold to_seconds in K. lia.
  - exists (RIncompatible n), (fmt_u n). split; reflexivity.
Qed.
Print Assumptions C21_message_refuted.
(** A number of seconds is refused only if it is more than the 65535 intervals last, and the message says which. *)
Theorem C21_overflow_message : forall s e, u32 s -> secs_floor s = Err e \/ secs_ceil s = Err e ->
  to_seconds 65535 < s /\ overflow_text e = fmt_u s ++ lit " seconds is too large to be encoded to a 16 bit 512 second interval".
Proof.
  intros s e H [K|K].
  - unfold secs_floor, U16M in K. destruct (N.leb_spec (s / 512) (65536 - 1)); [discriminate|]. assert (e = s) as -> by congruence. split; [unfold to_seconds; lia|reflexivity].
  - unfold secs_ceil, U16M in K. destruct (N.leb_spec s ((65536 - 1) * 512)); [discriminate|]. assert (e = s) as -> by congruence. split; [unfold to_seconds; lia|reflexivity].
Qed.
Print Assumptions C21_overflow_message.
Example C21_message_ex : rel_is_satisfied_by_height (RBlocks 10) 99 (Some 100) = Err (RSatisfaction (99, 100)) /\
  rel_incompatible_height_text (RSatisfaction (99, 100)) = lit "is_satisfied_by arguments invalid (probably the wrong way around) chain_tip: 99 utxo_mined_at: 100" /\
  rel_incompatible_height_text (RIncompatible 70) = lit "tried to satisfy a lock-by-height locktime using seconds 70" /\
  secs_floor 33554432 = Err 33554432 /\ abs_from_consensus 500000007 = Ret (ASeconds 500000007) /\
  abs_is_satisfied_by_height (ASeconds 500000007) 3 = Err (500000007, 3).
Proof. vm_compute. auto 10. Qed.
