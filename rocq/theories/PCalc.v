(** C65: calculations written with the operators of amounts, fee rates and weights: property theorems. *)
From Verif Require Import Base MAmount SAmount SCalc MCalc LCalc.
From Coq Require Import Lia ZArith.
Local Open Scope Z_scope.

(** C65.  A calculation that ends in a NumOpResult, of any size, through any mixture of the overloads: it holds
    the exact value when every step fits its type, an error when a step fails, and it panics only as specified. *)
Theorem C65_result : forall t (e : calc true t), lits_ok e ->
  match exact e with
  | Value z => run e = Ret (Valid z) /\ in_range t z = true
  | Failed => exists op, run e = Ret (Error op)
  | Crashed => run e = Panic
  end.
Proof.
  intros t e W. pose proof (run_good _ _ e W) as G. apply Good_true in G. cbv beta iota in G.
  destruct G as [(z & -> & -> & H)|[(op & -> & -> & _)|(-> & ->)]]; [split; [reflexivity|assumption] | exists op; reflexivity | reflexivity].
Qed.
Print Assumptions C65_result.

(** C65.  A calculation that ends in a plain value. *)
Theorem C65_plain : forall t (e : calc false t), lits_ok e ->
  match exact e with
  | Value z => run e = Ret z /\ in_range t z = true
  | Failed => False
  | Crashed => run e = Panic
  end.
Proof.
  intros t e W. pose proof (run_good _ _ e W) as G. apply Good_false in G. cbv beta iota in G.
  destruct G as [(z & -> & -> & H)|(-> & ->)]; [split; [reflexivity|assumption] | reflexivity].
Qed.
Print Assumptions C65_plain.

(** Change left after paying for a transaction: (in1 + in2) - spend - (rate * (w1 + w2)); a fee with an
    overflowing step; a fee rate computed back from the fee. *)
Definition lit t z := Lit t z.
Definition change (in1 in2 spend r w1 w2 : Z) : calc true TA :=
  MSub false true true (MSub false true false (MAdd false false false (lit TA in1) (lit TA in2)) (lit TA spend))
    (Fee false false false (lit TR r) (QAdd true (lit TW w1) (lit TW w2))).
Example C65_ex :
  lits_ok (change 1000000 765432 1200000 5000000 400 161) /\
  exact (change 1000000 765432 1200000 5000000 400 161) = Value 564730 /\
  run (change 1000000 765432 1200000 5000000 400 161) = Ret (Valid 564730) /\
  exact (change 1000000 765432 1800000 5000000 400 161) = Failed /\
  run (change 1000000 765432 1800000 5000000 400 161) = Ret (Error OpSub) /\
  exact (change 1000000 765432 1200000 5000000 18446744073709551615 1) = Crashed /\
  lits_ok (DivW true false (change 1000000 765432 1200000 5000000 400 161) (lit TW 561)) /\
  exact (DivW true false (change 1000000 765432 1200000 5000000 400 161) (lit TW 561)) = Value 4026592000.
Proof. repeat split; reflexivity. Qed.

(** C65.  The operation an error reports is the operator of a step of the calculation that failed. *)
Theorem C65_operation : forall t (e : calc true t) op, lits_ok e -> run e = Ret (Error op) ->
  match op with
  | OpAdd => In Plus (failing e)
  | OpSub => In Minus (failing e)
  | OpMul => In Times (failing e)
  | OpDiv => In Over (failing e)
  | OpRem => In Modulo (failing e)
  | OpNeg => False
  end.
Proof.
  intros t e op W H. pose proof (run_good _ _ e W) as G. apply Good_true in G. cbv beta iota in G. rewrite H in G.
  destruct G as [(z & _ & [=] & _)|[(op' & _ & E & (s & Hs & Hi) & _)|(_ & [=])]].
  assert (Q : op' = op) by (injection E; auto). subst op'.
  destruct op; cbn [sign_of] in Hs; try discriminate; injection Hs as <-; exact Hi.
Qed.
Print Assumptions C65_operation.

(** C65.  An error that calls itself a division by zero comes from one. *)
Theorem C65_div_by_zero : forall t (e : calc true t) op, lits_ok e -> run e = Ret (Error op) ->
  is_div_by_zero op = true -> divides_by_zero e.
Proof.
  intros t e op W H Hd. pose proof (run_good _ _ e W) as G. apply Good_true in G. cbv beta iota in G. rewrite H in G.
  destruct G as [(z & _ & [=] & _)|[(op' & _ & E & _ & Hp)|(_ & [=])]].
  assert (Q : op' = op) by (injection E; auto). subst op'. exact (Hp Hd).
Qed.
Print Assumptions C65_div_by_zero.

(** 1000 sat over a weight of zero, as a result; the same added to another result. *)
Definition over_zero : calc true TW := DivR false false (lit TA 1000) (lit TR 0).
Definition over_zero_amount : calc true TA := MDiv false false (lit TA 1000) (lit TU 0).
Example C65_div_ex : lits_ok over_zero /\ run over_zero = Ret (Error OpDiv) /\ is_div_by_zero OpDiv = true.
Proof. repeat split; reflexivity. Qed.

(** C65, refuted: the operation reported need not be the one that caused the error.  The only step of this
    calculation without an exact result is a division by zero, and the error says overflow in an addition. *)
Theorem C65_cause_refuted : exists e : calc true TA, lits_ok e /\ divides_by_zero e /\
  exact over_zero_amount = Failed /\ e = MAdd false true true over_zero_amount (Into TA (lit TA 5)) /\
  run e = Ret (Error OpAdd) /\ is_overflow OpAdd = true /\ is_div_by_zero OpAdd = false.
Proof.
  exists (MAdd false true true over_zero_amount (Into TA (lit TA 5))).
  repeat split; try reflexivity. cbn. unfold is_zero. auto.
Qed.
Print Assumptions C65_cause_refuted.

Lemma guarded_exact : forall a t (e : calc a t), guarded false e = true -> exact e <> Crashed.
Proof.
  intros a t e.
  induction e; cbn [guarded exact]; intros G; rewrite ?Bool.andb_true_iff in G; try discriminate;
    repeat match goal with H : _ /\ _ |- _ => destruct H end; try discriminate;
    repeat match goal with IH : guarded false ?e = true -> _, G : guarded false ?e = true |- _ => specialize (IH G) end;
    unfold with1, with2, fit;
    repeat match goal with |- context [exact ?e] => destruct (exact e) end; try congruence;
    repeat match goal with |- context [if ?c then _ else _] => destruct c end; congruence.
Qed.

(** C65.  A calculation that unwraps nothing and adds, subtracts or scales no plain weights or fee rates never
    panics: overflow and division by zero always come back as errors. *)
Theorem C65_no_panic : forall a t (e : calc a t), lits_ok e -> guarded false e = true -> run e <> Panic.
Proof.
  intros a t e W G. pose proof (guarded_exact _ _ e G) as N. pose proof (run_good _ _ e W) as R.
  revert R N. generalize (exact e) (run e). intros o r R N. apply Good_case in R.
  destruct a; cbv beta iota in R.
  - destruct R as [(z & _ & -> & _)|[(op & _ & -> & _)|(-> & _)]]; [discriminate..|congruence].
  - destruct R as [(z & _ & -> & _)|(-> & _)]; [discriminate|congruence].
Qed.
Print Assumptions C65_no_panic.

Example C65_no_panic_ex :
  let e := MAddTo false true (Fee false true true (lit TR 18446744073709551615) (Into TW (lit TW 18446744073709551615)))
             (MMul false false true (lit TA 2100000000000000) (lit TU 18446744073709551615)) in
  lits_ok e /\ guarded false e = true /\ run e = Ret (Error OpAdd).
Proof. repeat split; reflexivity. Qed.

(** C65, refuted: keeping to results is not enough when weights or fee rates are accumulated in one, since
    += on a NumOpResult of those types overflows as a plain integer does. *)
Theorem C65_accumulate_refuted : exists e : calc true TW, lits_ok e /\ guarded true e = true /\ run e = Panic.
Proof.
  exists (QAddTo true false (Into TW (lit TW 18446744073709551615)) (lit TW 1)). repeat split; reflexivity.
Qed.
Print Assumptions C65_accumulate_refuted.

(** C65.  Every operation that can fail is in exactly one of the two classes: the divisions and remainders (which fail only on a zero divisor), and the others. *)
Theorem C65_kinds : forall op, (is_div_by_zero op = true <-> op = OpDiv \/ op = OpRem) /\ (is_overflow op = true <-> op = OpAdd \/ op = OpSub \/ op = OpMul \/ op = OpNeg) /\
  is_overflow op = negb (is_div_by_zero op).
Proof. intros []; cbn; repeat split; intros; try discriminate; auto; repeat match goal with H : _ \/ _ |- _ => destruct H end; discriminate. Qed.
Print Assumptions C65_kinds.
