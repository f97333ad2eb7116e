(** Specification of the Bitcoin wire format, written from the protocol documentation and without
    the model's encoders.  Only the record types of values are shared with the model. *)
From Verif Require Import Base MWitness MTx.
Local Open Scope N_scope.

Definition is_u8 (v : N) : Prop := v < 2 ^ 8.
Definition is_u32 (v : N) : Prop := v < 2 ^ 32.
Definition is_u64 (v : N) : Prop := v < 2 ^ 64.

(** CompactSize, also called VarInt. *)
Definition wire_compact (v : N) : bytes :=
  if v <? 253 then [v]
  else if v <? 2 ^ 16 then 253 :: le_bytes 2 v
  else if v <? 2 ^ 32 then 254 :: le_bytes 4 v
  else 255 :: le_bytes 8 v.

(** A byte string or a list of items with its length in front. *)
Definition wire_bytes (b : bytes) : bytes := wire_compact (lenN b) ++ b.
Definition wire_list {A} (item : A -> bytes) (xs : list A) : bytes :=
  wire_compact (lenN xs) ++ concat (map item xs).

Definition wire_outpoint (o : outpoint) : bytes := op_txid o ++ le_bytes 4 (op_vout o).
Definition wire_txin (i : txin) : bytes :=
  wire_outpoint (ti_prevout i) ++ wire_bytes (ti_script i) ++ le_bytes 4 (ti_sequence i).
Definition wire_txout (o : txout) : bytes := le_bytes 8 (to_amount o) ++ wire_bytes (to_script o).
Definition wire_stack (ls : list bytes) : bytes := wire_list wire_bytes ls.

(** The serialization without witnesses. *)
Definition wire_legacy (tx : transaction) : bytes :=
  le_bytes 4 (tx_version tx) ++ wire_list wire_txin (tx_inputs tx) ++
  wire_list wire_txout (tx_outputs tx) ++ le_bytes 4 (tx_lock_time tx).
(** BIP144, for a transaction whose inputs have the witness stacks [ws]. *)
Definition wire_segwit (tx : transaction) (ws : list (list bytes)) : bytes :=
  le_bytes 4 (tx_version tx) ++ [0; 1] ++ wire_list wire_txin (tx_inputs tx) ++
  wire_list wire_txout (tx_outputs tx) ++ concat (map wire_stack ws) ++ le_bytes 4 (tx_lock_time tx).
(** The extended form is used when some stack is not empty, and, to tell the number of inputs 0
    from the marker byte, when there are no inputs. *)
Definition wire_tx (tx : transaction) (ws : list (list bytes)) : bytes :=
  if forallb (fun s => match s with [] => true | _ => false end) ws
     && negb (match tx_inputs tx with [] => true | _ => false end)
  then wire_legacy tx else wire_segwit tx ws.

Definition wire_header (h : header) : bytes :=
  le_bytes 4 (h_version h) ++ h_prev h ++ h_merkle h ++ le_bytes 4 (h_time h) ++
  le_bytes 4 (h_bits h) ++ le_bytes 4 (h_nonce h).

(** *** Values within the limits of the decoders *)
Definition MAX_LEN : N := 4000000.
Definition hash_ok (h : bytes) : Prop := lenN h = 32 /\ bytes_ok h.
Definition script_ok (s : bytes) : Prop := lenN s <= MAX_LEN /\ bytes_ok s.
Definition outpoint_ok (o : outpoint) : Prop := hash_ok (op_txid o) /\ is_u32 (op_vout o).
Definition txout_ok (o : txout) : Prop := to_amount o <= 2100000000000000 /\ script_ok (to_script o).
(** [w] is the witness with elements [ls] *)
Definition stack_of (w : witness) (ls : list bytes) : Prop := from_slice ls = Ret w.
Definition stack_ok (ls : list bytes) : Prop := lenN ls <= MAX_LEN /\ Forall script_ok ls.
Definition witness_ok (w : witness) : Prop := exists ls, stack_of w ls /\ stack_ok ls.
Definition txin_ok (i : txin) : Prop :=
  outpoint_ok (ti_prevout i) /\ script_ok (ti_script i) /\ is_u32 (ti_sequence i) /\ witness_ok (ti_witness i).
Definition list_ok {A} (ok : A -> Prop) (xs : list A) : Prop := lenN xs <= MAX_LEN /\ Forall ok xs.
(** the shape of a transaction *)
Definition tx_shape (tx : transaction) : Prop :=
  is_u32 (tx_version tx) /\ is_u32 (tx_lock_time tx) /\
  list_ok txin_ok (tx_inputs tx) /\ list_ok txout_ok (tx_outputs tx).
Definition header_ok (h : header) : Prop :=
  is_u32 (h_version h) /\ hash_ok (h_prev h) /\ hash_ok (h_merkle h) /\
  is_u32 (h_time h) /\ is_u32 (h_bits h) /\ is_u32 (h_nonce h).

(** *** The structural rules every decoded transaction obeys *)
Definition null_outpoint : outpoint := {| op_txid := repeat 0 32; op_vout := 2 ^ 32 - 1 |}.
Definition total_out (tx : transaction) : N := fold_right (fun o acc => to_amount o + acc) 0 (tx_outputs tx).
Record tx_rules (tx : transaction) : Prop := {
  rule_outputs : tx_outputs tx <> [];
  rule_null : (1 < length (tx_inputs tx))%nat -> ~ In null_outpoint (map ti_prevout (tx_inputs tx));
  rule_coinbase : forall i, tx_inputs tx = [i] -> ti_prevout i = null_outpoint -> 2 <= lenN (ti_script i) <= 100;
  rule_distinct : NoDup (map ti_prevout (tx_inputs tx));
  rule_supply : total_out tx <= 2100000000000000 }.
Definition tx_ok (tx : transaction) : Prop := tx_shape tx /\ tx_rules tx.
Definition block_ok (b : block) : Prop := header_ok (b_header b) /\ list_ok tx_ok (b_txs b).
