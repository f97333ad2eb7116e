(** Specification of block validity as far as a block alone decides it. *)
From Verif Require Import Base MWitness MTx SWire SMerkle.
Local Open Scope N_scope.

Section Block.
(** double SHA-256 *)
Context (H : bytes -> bytes).
Definition node (a b : bytes) : bytes := H (a ++ b).
Definition txid_of (tx : transaction) : bytes := H (wire_legacy tx).
Definition wtxid_is (tx : transaction) (id : bytes) : Prop :=
  exists ws, Forall2 stack_of (map ti_witness (tx_inputs tx)) ws /\ id = H (wire_tx tx ws).
Definition coinbase_tx (tx : transaction) : Prop := exists i, tx_inputs tx = [i] /\ ti_prevout i = null_outpoint.
(** [r] is the root over the ids and no level has equal siblings. *)
Definition tree (ids : list bytes) (r : bytes) : Prop := merkle_root node ids r /\ ~ equal_siblings node ids.

(** BIP 141: an output commits when its script starts with OP_RETURN, a push of 36 bytes and the tag
    0xaa21a9ed, and has at least 38 bytes; the last such output counts. *)
Definition commits (o : txout) (c : bytes) : Prop :=
  exists rest, to_script o = [0x6a; 0x24; 0xaa; 0x21; 0xa9; 0xed] ++ c ++ rest /\ lenN c = 32.
Definition commitment (outs : list txout) (c : bytes) : Prop :=
  exists p o q, outs = p ++ o :: q /\ commits o c /\ Forall (fun o' => forall c', ~ commits o' c') q.
Definition no_commitment (outs : list txout) : Prop := Forall (fun o => forall c, ~ commits o c) outs.
(** The leaves of the witness tree: zeros for the coinbase, the wtxids of the others. *)
Definition witness_leaves (txs : list transaction) (leaves : list bytes) : Prop :=
  exists cb rest ids, txs = cb :: rest /\ leaves = repeat 0 32 :: ids /\ Forall2 wtxid_is rest ids.
Definition coinbase_stack (txs : list transaction) (s : list bytes) : Prop :=
  exists cb rest i more, txs = cb :: rest /\ tx_inputs cb = i :: more /\ stack_of (ti_witness i) s.

(** The witness data is committed to; [wr] is the witness root that is reported. *)
Definition witness_rule (txs : list transaction) (wr : option bytes) : Prop :=
  exists cb rest, txs = cb :: rest /\
  ((exists c reserved leaves r, commitment (tx_outputs cb) c /\ coinbase_stack txs [reserved] /\ lenN reserved = 32 /\
      witness_leaves txs leaves /\ tree leaves r /\ c = H (r ++ reserved) /\ wr = Some r) \/
   (no_commitment (tx_outputs cb) /\
      Forall (fun tx => Forall (fun i => stack_of (ti_witness i) []) (tx_inputs tx)) txs /\ wr = None)).
Definition coinbase_rule (txs : list transaction) : Prop := exists cb rest, txs = cb :: rest /\ coinbase_tx cb.
Definition root_rule (b : block) : Prop := tree (map txid_of (b_txs b)) (h_merkle (b_header b)).

(** The messages hashed while validating [b]. *)
Inductive message (b : block) : bytes -> Prop :=
| msg_tx : forall tx, In tx (b_txs b) -> message b (wire_legacy tx)
| msg_wtx : forall tx ws, In tx (b_txs b) -> Forall2 stack_of (map ti_witness (tx_inputs tx)) ws -> message b (wire_tx tx ws)
| msg_node : forall x y, hashed node (map txid_of (b_txs b)) x y -> message b (x ++ y)
| msg_wnode : forall leaves x y, witness_leaves (b_txs b) leaves -> hashed node leaves x y -> message b (x ++ y)
| msg_commit : forall leaves r reserved, witness_leaves (b_txs b) leaves -> merkle_root node leaves r ->
    coinbase_stack (b_txs b) [reserved] -> message b (r ++ reserved).
End Block.
