(** Bitcoin Core's dust threshold (GetDustThreshold): the fee, at the dust relay rate in satoshi per
    1000 vbytes, for the output and an input that spends it.  Outputs starting with OP_RETURN cost
    nothing to spend. *)
From Verif Require Import Base MTx SWire MScript SScript.
Local Open Scope N_scope.

Inductive spend_size (o : txout) : N -> Prop :=
| spend_unspendable : (exists t, to_script o = 106 :: t) -> spend_size o 0
| spend_witness : (exists v p, program_ok v p /\ to_script o = t_witness v p) ->
    spend_size o (lenN (wire_txout o) + (32 + 4 + 1 + 107 / 4 + 4))
| spend_legacy : ~ (exists t, to_script o = 106 :: t) -> ~ (exists v p, program_ok v p /\ to_script o = t_witness v p) ->
    spend_size o (lenN (wire_txout o) + (32 + 4 + 1 + 107 + 4)).
Definition dust_threshold (rate_per_kvb size : N) : N := rate_per_kvb * size / 1000.
