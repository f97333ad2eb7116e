(** Specification for transaction verification: a closure asked for one output after the other, and what it takes to accept one input. *)
From Verif Require Import Base MTx SWire.
Local Open Scope N_scope.

Section Spec.
Context {CE : Type} (consensus : bytes -> N -> bytes -> N -> N -> result unit CE).
Context {C : Type} (spent : C -> outpoint -> C * option txout).
(** The answers of the closure, asked in this order, and its state after the last. *)
Fixpoint ask (c : C) (os : list outpoint) : list (option txout) * C :=
  match os with
  | [] => ([], c)
  | o :: os' => let '(c1, a) := spent c o in let '(answers, c2) := ask c1 os' in (a :: answers, c2)
  end.
(** What libbitcoinconsensus says about the input at position [i] of the transaction with these bytes, spending [o]. *)
Definition verdict (serialized : bytes) (flags : N) (i : nat) (o : txout) : result unit CE :=
  consensus (to_script o) (to_amount o) serialized (N.of_nat i) flags.
Definition accepted (serialized : bytes) (flags : N) (i : nat) (answer : option txout) : Prop :=
  exists o, answer = Some o /\ verdict serialized flags i o = Ok tt.
Definition prevouts (tx : transaction) : list outpoint := map ti_prevout (tx_inputs tx).
End Spec.
