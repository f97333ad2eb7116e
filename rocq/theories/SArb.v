(** Specification for C71: what a fuzzing generator should do.  [g (Got v)]: some fuzzer input makes the generator give [v];
    [g Panicked]: some input makes it panic. *)
From Verif Require Import Base MWitness MTx MArb SWire.
Local Open Scope N_scope.

Definition panic_free {A} (g : gen A) : Prop := ~ g Panicked.
(** the values it gives are exactly those *)
Definition makes {A} (g : gen A) (P : A -> Prop) : Prop := forall v, g (Got v) <-> P v.
(** the limits of the transaction decoder on counts and lengths *)
Definition sizes (tx : transaction) : Prop :=
  lenN (tx_inputs tx) <= 4000000 /\ lenN (tx_outputs tx) <= 4000000 /\
  Forall (fun o => lenN (to_script o) <= 4000000) (tx_outputs tx) /\
  Forall (fun i => lenN (ti_script i) <= 4000000 /\
    forall ls, stack_of (ti_witness i) ls -> lenN ls <= 4000000 /\ Forall (fun e => lenN e <= 4000000) ls) (tx_inputs tx).
