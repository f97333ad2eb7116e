(** Spending and creating outputs: the effective value of an output and outputs at the dust limit. *)
From Verif Require Import Base MAmount MDec MWitness MTx MTxSize MScript.
Local Open Scope N_scope.

(** effective_value bitcoin/src/blockdata/transaction.rs:596-605 *)
Definition effective_value (fee_rate : Z) (p : iwp) (value : Z) : rust Z :=
  rbind (iwp_total_weight p) (fun weight => amount_signed_sub value (feerate_to_fee fee_rate (Z.of_N weight))).
(** TxOutExt::minimal_non_dust, minimal_non_dust_custom transaction.rs:199-219 *)
Definition txout_minimal_non_dust (s : bytes) : rust txout :=
  rbind (minimal_non_dust s) (fun a => Ret {| to_amount := Z.to_N a; to_script := s |}).
Definition txout_minimal_non_dust_custom (s : bytes) (rate : Z) : option txout :=
  match minimal_non_dust_custom s rate with Some a => Some {| to_amount := Z.to_N a; to_script := s |} | None => None end.
