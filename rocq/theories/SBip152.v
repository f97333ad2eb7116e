(** Specification of compact blocks (BIP152). *)
From Coq Require Import Sorting.Sorted.
From Verif Require Import Base MDec MWitness MTx SWire SSip MBip152.
Local Open Scope N_scope.

(** The absolute positions that a list of differences denotes: each counts from the position after the one before it. *)
Fixpoint positions (next : N) (ds : list N) : list N :=
  match ds with [] => [] | d :: ds' => next + d :: positions (next + d + 1) ds' end.
(** the position after the last *)
Fixpoint after (next : N) (ds : list N) : N := match ds with [] => next | d :: ds' => after (next + d + 1) ds' end.
Definition increasing (l : list N) : Prop := StronglySorted N.lt l.

(** The transactions whose position (counted from [i]) satisfies [f], with it. *)
Fixpoint placed {A} (f : N -> bool) (i : N) (l : list A) : list (N * A) :=
  match l with [] => [] | x :: l' => (if f i then [(i, x)] else []) ++ placed f (i + 1) l' end.

(** Wire formats *)
Definition wire_prefilled (p : prefilled) : bytes := wire_compact (pf_idx p) ++ tx_encode (pf_tx p).
Definition prefilled_ok (p : prefilled) : Prop := pf_idx p < 2 ^ 16 /\ tx_ok (pf_tx p).
Definition short_ok (s : bytes) : Prop := lenN s = 6 /\ bytes_ok s.
Definition wire_cb (c : compact_block) : bytes :=
  wire_header (cb_header c) ++ le_bytes 8 (cb_nonce c) ++ wire_list (fun s => s) (cb_short_ids c) ++ wire_list wire_prefilled (cb_prefilled c).
Definition cb_ok (c : compact_block) : Prop :=
  header_ok (cb_header c) /\ is_u64 (cb_nonce c) /\ Forall short_ok (cb_short_ids c) /\ Forall prefilled_ok (cb_prefilled c) /\
  lenN (cb_short_ids c) + lenN (cb_prefilled c) < 2 ^ 16.
Definition wire_request (r : request) : bytes := rq_hash r ++ wire_list wire_compact (rq_offsets r).
Definition request_ok (r : request) : Prop := hash_ok (rq_hash r) /\ list_ok (fun o => o <= MAX_LEN) (rq_offsets r).
Definition wire_block_txs (t : block_txs) : bytes := bt_hash t ++ wire_list tx_encode (bt_txs t).
Definition block_txs_ok (t : block_txs) : Prop := hash_ok (bt_hash t) /\ list_ok tx_ok (bt_txs t).

(** Short ids: SipHash-2-4 of the transaction's id, cut to 6 bytes; the keys are the first two little-endian words of
    SHA256(header || nonce). *)
Definition short_id (sha256 : bytes -> bytes) (h : header) (nonce : N) (id : bytes) : bytes :=
  let d := sha256 (wire_header h ++ le_bytes 8 nonce) in
  firstn 6 (le_bytes 8 (SipHash 2 4 (le_val (firstn 8 d)) (le_val (firstn 8 (skipn 8 d))) id)).
(** The transaction without its witnesses. *)
Definition stripped (a b : transaction) : Prop :=
  tx_version b = tx_version a /\ tx_lock_time b = tx_lock_time a /\ tx_outputs b = tx_outputs a /\
  Forall2 (fun i j => ti_prevout j = ti_prevout i /\ ti_script j = ti_script i /\ ti_sequence j = ti_sequence i /\ stack_of (ti_witness j) []) (tx_inputs a) (tx_inputs b).
