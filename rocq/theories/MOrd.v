(** Model of the comparison operators of transactions, blocks, witnesses, serialized signatures and script
    trees.  Slices, vectors and byte arrays compare lexicographically (core); derived orders compare the fields
    one after the other.  [core::hash::Hash] is not modelled, except for which value NodeInfo feeds it. *)
From Verif Require Import Base MDec MWitness MTx MSig MTaproot.
Local Open Scope N_scope.

Definition bytes_cmp (a b : bytes) : comparison := lex_cmp N.compare a b.
Fixpoint list_eqb {A} (eqb : A -> A -> bool) (a b : list A) : bool :=
  match a, b with [], [] => true | x :: a', y :: b' => eqb x y && list_eqb eqb a' b' | _, _ => false end.

(** primitives/src/transaction.rs:928 derived Ord: txid, then vout *)
Definition outpoint_cmp (a b : outpoint) : comparison :=
  then_cmp (bytes_cmp (op_txid a) (op_txid b)) (N.compare (op_vout a) (op_vout b)).
(** primitives/src/witness.rs:57 derived Ord and Eq: content, number of elements, start of the indices *)
Definition witness_cmp (a b : witness) : comparison :=
  then_cmp (bytes_cmp (wt_content a) (wt_content b)) (then_cmp (N.compare (wt_elements a) (wt_elements b)) (N.compare (wt_start a) (wt_start b))).
Definition witness_eqb (a b : witness) : bool :=
  beqb (wt_content a) (wt_content b) && (wt_elements a =? wt_elements b) && (wt_start a =? wt_start b).
(** transaction.rs:763 derived Ord and Eq: previous_output, script_sig, sequence, witness *)
Definition txin_cmp (a b : txin) : comparison :=
  then_cmp (outpoint_cmp (ti_prevout a) (ti_prevout b)) (then_cmp (bytes_cmp (ti_script a) (ti_script b))
    (then_cmp (N.compare (ti_sequence a) (ti_sequence b)) (witness_cmp (ti_witness a) (ti_witness b)))).
Definition txin_eqb (a b : txin) : bool :=
  outpoint_eqb (ti_prevout a) (ti_prevout b) && beqb (ti_script a) (ti_script b) &&
  (ti_sequence a =? ti_sequence b) && witness_eqb (ti_witness a) (ti_witness b).
(** transaction.rs:868 derived: amount, script_pubkey *)
Definition txout_cmp (a b : txout) : comparison :=
  then_cmp (N.compare (to_amount a) (to_amount b)) (bytes_cmp (to_script a) (to_script b)).
Definition txout_eqb (a b : txout) : bool := (to_amount a =? to_amount b) && beqb (to_script a) (to_script b).
(** transaction.rs:232-240; the lock times are compared as their consensus numbers *)
Definition tx_cmp (a b : transaction) : comparison :=
  then_cmp (then_cmp (then_cmp (N.compare (tx_version a) (tx_version b)) (N.compare (tx_lock_time a) (tx_lock_time b)))
    (lex_cmp txin_cmp (tx_inputs a) (tx_inputs b))) (lex_cmp txout_cmp (tx_outputs a) (tx_outputs b)).
(** transaction.rs:125 derived Eq *)
Definition tx_eqb (a b : transaction) : bool :=
  (tx_version a =? tx_version b) && (tx_lock_time a =? tx_lock_time b) &&
  list_eqb txin_eqb (tx_inputs a) (tx_inputs b) && list_eqb txout_eqb (tx_outputs a) (tx_outputs b).
(** transaction.rs:228 *)
Definition tx_partial_cmp (a b : transaction) : option comparison := Some (tx_cmp a b).

(** primitives/src/block.rs:470 derived Eq of Header *)
Definition header_eqb (a b : header) : bool :=
  (h_version a =? h_version b) && beqb (h_prev a) (h_prev b) && beqb (h_merkle a) (h_merkle b) &&
  (h_time a =? h_time b) && (h_bits a =? h_bits b) && (h_nonce a =? h_nonce b).
(** block.rs:256-260: the cached witness root and the checked marker are left out *)
Record cached_block := mk_cb { cb_block : block; cb_root : option bytes }.
Definition block_eqb (a b : cached_block) : bool :=
  header_eqb (b_header (cb_block a)) (b_header (cb_block b)) &&
  list_eqb tx_eqb (b_txs (cb_block a)) (b_txs (cb_block b)).

(** crypto/src/ecdsa.rs:220-257 and crypto/src/taproot.rs:266-303: through [Deref] to the bytes in use *)
Definition ser_eqb (a b : serialized) : rust bool :=
  rbind (ss_bytes a) (fun x => rbind (ss_bytes b) (fun y => Ret (beqb x y))).
Definition ser_cmp (a b : serialized) : rust comparison :=
  rbind (ss_bytes a) (fun x => rbind (ss_bytes b) (fun y => Ret (bytes_cmp x y))).
(** ecdsa.rs:225-233, 245-257: against a slice *)
Definition ser_eqb_slice (a : serialized) (y : bytes) : rust bool := rbind (ss_bytes a) (fun x => Ret (beqb x y)).
Definition ser_cmp_slice (a : serialized) (y : bytes) : rust comparison := rbind (ss_bytes a) (fun x => Ret (bytes_cmp x y)).

(** bitcoin/src/taproot/mod.rs:726-728 (Eq of NodeInfo) and :730-732 (what it feeds a hasher); the order is
    [node_cmp] of MTaproot.  TapTree :578 derives both. *)
Definition node_eqb (a b : node_info) : bool := beqb (ni_hash a) (ni_hash b).
Definition node_hash_input (a : node_info) : bytes := ni_hash a.
