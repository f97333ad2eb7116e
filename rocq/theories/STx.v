(** Specification side of transaction decoding errors and transaction identity. *)
From Verif Require Import Base MWitness MTx SWire.
Local Open Scope N_scope.

(** What each structural error of the transaction decoder says about the transaction. *)
Inductive violates (tx : transaction) : txd_err -> Prop :=
| V_no_outputs : tx_outputs tx = [] -> violates tx TeNoOutputs
| V_null : forall i inp, (1 < length (tx_inputs tx))%nat -> nth_error (tx_inputs tx) (N.to_nat i) = Some inp ->
    ti_prevout inp = null_outpoint -> violates tx (TeNullPrevout i)
| V_small : forall inp, tx_inputs tx = [inp] -> ti_prevout inp = null_outpoint -> lenN (ti_script inp) < 2 ->
    violates tx (TeCoinbaseSmall (lenN (ti_script inp)))
| V_large : forall inp, tx_inputs tx = [inp] -> ti_prevout inp = null_outpoint -> 100 < lenN (ti_script inp) ->
    violates tx (TeCoinbaseLarge (lenN (ti_script inp)))
| V_dup : forall i j a b, i <> j -> nth_error (tx_inputs tx) i = Some a -> nth_error (tx_inputs tx) j = Some b ->
    ti_prevout a = ti_prevout b -> violates tx (TeDuplicate (ti_prevout a))
| V_sum : forall v, 2100000000000000 < v <= total_out tx -> violates tx (TeSumTooLarge v).

(** The two transactions differ at most in their witnesses. *)
Definition same_but_witness (a b : transaction) : Prop :=
  tx_version a = tx_version b /\ tx_lock_time a = tx_lock_time b /\ tx_outputs a = tx_outputs b /\
  Forall2 (fun i j => ti_prevout i = ti_prevout j /\ ti_script i = ti_script j /\ ti_sequence i = ti_sequence j)
          (tx_inputs a) (tx_inputs b).
(** ... at most in their witnesses and input scripts. *)
Definition same_but_scripts (a b : transaction) : Prop :=
  tx_version a = tx_version b /\ tx_lock_time a = tx_lock_time b /\ tx_outputs a = tx_outputs b /\
  Forall2 (fun i j => ti_prevout i = ti_prevout j /\ ti_sequence i = ti_sequence j) (tx_inputs a) (tx_inputs b).

Definition witnesses_ok (tx : transaction) : Prop := Forall (fun i => witness_ok (ti_witness i)) (tx_inputs tx).
Definition no_witness (tx : transaction) : Prop := Forall (fun i => stack_of (ti_witness i) []) (tx_inputs tx).
