(** Transaction verification: bitcoin/src/consensus_validation.rs.  libbitcoinconsensus and its error type are parameters (external C++
    code): [consensus script amount tx index flags] is bitcoinconsensus::verify_with_flags with no spent outputs given; so is the flag
    constant VERIFY_ALL_PRE_TAPROOT of that crate.  The closure [spent] is FnMut: a function of its own state. *)
From Verif Require Import Base MDec MTx MEnc.
Local Open Scope N_scope.

Section Verify.
Context {CE : Type} (consensus : bytes -> N -> bytes -> N -> N -> result unit CE) (VERIFY_ALL_PRE_TAPROOT : N).
(** consensus_validation.rs:56-72; also ScriptPubKeyExt::verify_with_flags :146-154 *)
Definition verify_script_with_flags (script : bytes) (index amount : N) (spending_tx : bytes) (flags : N) : result unit CE :=
  consensus script amount spending_tx index flags.
(** consensus_validation.rs:31-44; also ScriptPubKeyExt::verify :128-135 *)
Definition verify_script (script : bytes) (index amount : N) (spending_tx : bytes) : result unit CE :=
  verify_script_with_flags script index amount spending_tx VERIFY_ALL_PRE_TAPROOT.

(** TxVerifyError, consensus_validation.rs:249-256 *)
Inductive verify_error := ScriptVerification (e : CE) | UnknownSpentOutput (o : outpoint).

Section Closure.
Context {C : Type} (spent : C -> outpoint -> C * option txout).
(** consensus_validation.rs:103-115, the loop *)
Fixpoint verify_loop (serialized_tx : bytes) (flags : N) (idx : N) (inputs : list txin) (c : C) : result unit verify_error * C :=
  match inputs with
  | [] => (Ok tt, c)
  | input :: inputs' =>
      let '(c', answer) := spent c (ti_prevout input) in
      match answer with
      | Some output =>
          match verify_script_with_flags (to_script output) idx (to_amount output) serialized_tx flags with
          | Ok _ => verify_loop serialized_tx flags (idx + 1) inputs' c'
          | Err e => (Err (ScriptVerification e), c')
          end
      | None => (Err (UnknownSpentOutput (ti_prevout input)), c')
      end
  end.
(** consensus_validation.rs:92-117; also TransactionExt::verify_with_flags :190-196.  [None]: out of fuel for the encoder. *)
Definition verify_transaction_with_flags (fuel : nat) (tx : transaction) (c : C) (flags : N) : option (rust (result unit verify_error * C)) :=
  match tx_encoder tx with
  | Panic => Some Panic
  | Ret e =>
      match drain_to_vec fuel e with
      | None => None
      | Some Panic => Some Panic
      | Some (Ret serialized_tx) => Some (Ret (verify_loop serialized_tx flags 0 (tx_inputs tx) c))
      end
  end.
(** consensus_validation.rs:82-87; also TransactionExt::verify :183-188 *)
Definition verify_transaction (fuel : nat) (tx : transaction) (c : C) : option (rust (result unit verify_error * C)) :=
  verify_transaction_with_flags fuel tx c VERIFY_ALL_PRE_TAPROOT.
End Closure.
End Verify.
Arguments ScriptVerification {CE} e. Arguments UnknownSpentOutput {CE} o.
