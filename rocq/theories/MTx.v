(** Model of primitives/src/transaction.rs (types, encoding, TransactionDecoder, transaction ids)
    and of the codecs of the unit types it contains. *)
From Verif Require Import Base MDec MWitness MAmount.
Local Open Scope N_scope.

(** consensus_encoding/src/decode/decoders.rs:30 *)
Definition MAX_VEC_SIZE : N := 4000000.

(** transaction.rs:929-944.  A [Txid] is its 32 bytes. *)
Record outpoint := { op_txid : bytes; op_vout : N }.
Definition COINBASE_PREVOUT : outpoint := {| op_txid := repeat 0 32; op_vout := U32_MAX |}.
(** transaction.rs:928 derived PartialEq *)
Definition outpoint_eqb (a b : outpoint) : bool :=
  beqb (op_txid a) (op_txid b) && (op_vout a =? op_vout b).

(** transaction.rs:763-784; [script_sig] is its bytes, [sequence] its u32. *)
Record txin := { ti_prevout : outpoint; ti_script : bytes; ti_sequence : N; ti_witness : witness }.
(** transaction.rs:868-875; [amount] in satoshi. *)
Record txout := { to_amount : N; to_script : bytes }.
(** transaction.rs:125-141; [version] its u32; [lock_time] its consensus u32 (the bijection with
    the [LockTime] enum is the subject of C20). *)
Record transaction := { tx_version : N; tx_lock_time : N; tx_inputs : list txin; tx_outputs : list txout }.

(** ** Encoding: the bytes produced (the encoder machines are in MEnc.v) *)
(** primitives/src/script/borrowed.rs: ScriptEncoder = CompactSizeEncoder then BytesEncoder *)
Definition script_encode (s : bytes) : bytes := cs_encode (lenN s) ++ s.
(** transaction.rs:1001-1006 *)
Definition outpoint_encode (o : outpoint) : bytes := op_txid o ++ le_bytes 4 (op_vout o).
(** transaction.rs:813-819, units/src/sequence.rs *)
Definition txin_encode (i : txin) : bytes :=
  outpoint_encode (ti_prevout i) ++ script_encode (ti_script i) ++ le_bytes 4 (ti_sequence i).
(** transaction.rs:884-886, units/src/amount/unsigned.rs:605-609 *)
Definition txout_encode (o : txout) : bytes := le_bytes 8 (to_amount o) ++ script_encode (to_script o).

(** transaction.rs:204-211 *)
Definition uses_segwit (tx : transaction) : bool :=
  existsb (fun i => negb (wit_is_empty (ti_witness i))) (tx_inputs tx)
  || match tx_inputs tx with [] => true | _ => false end.

(** PrefixedSliceEncoder: encode/encoders.rs *)
Definition slice_encode {A} (enc : A -> bytes) (xs : list A) : bytes :=
  cs_encode (lenN xs) ++ flat_map enc xs.

(** transaction.rs:378-398 *)
Definition tx_encode (tx : transaction) : bytes :=
  let sw := uses_segwit tx in
  le_bytes 4 (tx_version tx) ++
  (if sw then [0; 1] else []) ++
  slice_encode txin_encode (tx_inputs tx) ++
  slice_encode txout_encode (tx_outputs tx) ++
  (if sw then flat_map (fun i => wit_encode (ti_witness i)) (tx_inputs tx) else []) ++
  le_bytes 4 (tx_lock_time tx).

(** ** Transaction ids *)
(** transaction.rs:355-362: the witness loop of hash_transaction goes through the iterator. *)
Fixpoint hash_witnesses (ins : list txin) : rust bytes :=
  match ins with
  | [] => Ret []
  | i :: ins' =>
      rbind (wit_to_vec (ti_witness i)) (fun es =>
      rbind (hash_witnesses ins') (fun rest =>
      Ret (cs_encode (wt_elements (ti_witness i)) ++ flat_map (fun e => cs_encode (lenN e) ++ e) es ++ rest)))
  end.

(** transaction.rs:314-369: the bytes fed to the hash engine. *)
Definition hash_preimage (tx : transaction) (segwit : bool) : rust bytes :=
  rbind (if segwit then hash_witnesses (tx_inputs tx) else Ret []) (fun wits =>
  Ret (le_bytes 4 (tx_version tx) ++
       (if segwit then [0] ++ [1] else []) ++
       cs_encode (lenN (tx_inputs tx)) ++
       flat_map (fun i => op_txid (ti_prevout i) ++ le_bytes 4 (op_vout (ti_prevout i)) ++
                          cs_encode (lenN (ti_script i)) ++ ti_script i ++
                          le_bytes 4 (ti_sequence i)) (tx_inputs tx) ++
       cs_encode (lenN (tx_outputs tx)) ++
       flat_map (fun o => le_bytes 8 (to_amount o) ++ cs_encode (lenN (to_script o)) ++ to_script o)
                (tx_outputs tx) ++
       wits ++
       le_bytes 4 (tx_lock_time tx))).

Section Ids.
(** the double SHA256 engine, as a function of the concatenated input (see C27) *)
Context (H : bytes -> bytes).
(** transaction.rs:184-187 *)
Definition compute_txid (tx : transaction) : rust bytes :=
  rbind (hash_preimage tx false) (fun m => Ret (H m)).
(** transaction.rs:196-199 *)
Definition compute_wtxid (tx : transaction) : rust bytes :=
  rbind (hash_preimage tx (uses_segwit tx)) (fun m => Ret (H m)).
(** transaction.rs:159-175 *)
Definition compute_ntxid (tx : transaction) : rust bytes :=
  compute_txid {| tx_version := tx_version tx; tx_lock_time := tx_lock_time tx;
                  tx_inputs := map (fun i => {| ti_prevout := ti_prevout i; ti_script := [];
                                                ti_sequence := ti_sequence i; ti_witness := wit_new |})
                                   (tx_inputs tx);
                  tx_outputs := tx_outputs tx |}.
End Ids.

(** transaction.rs:220-222 *)
Definition is_coinbase (tx : transaction) : bool :=
  match tx_inputs tx with
  | [i] => outpoint_eqb (ti_prevout i) COINBASE_PREVOUT
  | _ => false
  end.

(** ** Decoders of the components *)
(** Version (transaction.rs:1248-1262), Sequence (units/src/sequence.rs:275-289), LockTime
    (units/src/locktime/absolute/mod.rs:430-443), BlockTime (units/src/time.rs:144-157),
    CompactTarget (units/src/pow.rs:338-351), BlockHeight (units/src/block.rs:231-245), block
    Version (block.rs:752-765, i32 kept as its u32 bit pattern): ArrayDecoder<4> then from_le_bytes. *)
Definition u32_dec : decoder N eof_err := newtype_dec (array_dec 4) (fun e => e) (fun b => Ok (le_val b)).
(** BlockHash, TxMerkleNode, ... (hash_types/*.rs): ArrayDecoder<32> *)
Definition hash_dec : decoder bytes eof_err := newtype_dec (array_dec 32) (fun e => e) (fun b => Ok b).
(** transaction.rs:1019-1037 *)
Definition outpoint_dec : decoder outpoint eof_err :=
  newtype_dec (array_dec 36) (fun e => e)
    (fun b => Ok {| op_txid := takeN 32 b; op_vout := le_val (dropN 32 b) |}).
(** primitives/src/script/owned.rs:322-351 ScriptBufDecoder *)
Definition script_dec : decoder bytes bv_err := newtype_dec (bytevec_dec MAX_VEC_SIZE) (fun e => e) (fun b => Ok b).
(** units/src/amount/unsigned.rs:624-641 *)
Inductive amt_err := AmtEof (e : eof_err) | AmtOutOfRange.
Definition amount_dec : decoder N amt_err :=
  newtype_dec (array_dec 8) AmtEof
    (fun b => match amount_from_sat (Z.of_N (le_val b)) with Ok a => Ok (Z.to_N a) | Err _ => Err AmtOutOfRange end).

(** transaction.rs:832-855 *)
Definition txin_err := err3 eof_err bv_err eof_err.
Definition txin_dec : decoder txin txin_err :=
  newtype_dec (dec3 outpoint_dec script_dec u32_dec) (fun e => e)
    (fun '(o, s, q) => Ok {| ti_prevout := o; ti_script := s; ti_sequence := q; ti_witness := wit_new |}).
(** transaction.rs:902-921 *)
Definition txout_err := err2 amt_err bv_err.
Definition txout_dec : decoder txout txout_err :=
  newtype_dec (dec2 amount_dec script_dec) (fun e => e)
    (fun '(a, s) => Ok {| to_amount := a; to_script := s |}).

Definition ins_dec := vec_dec txin_dec MAX_VEC_SIZE.
Definition outs_dec := vec_dec txout_dec MAX_VEC_SIZE.

(** ** TransactionDecoder: transaction.rs:425-684 *)
Inductive txd_err :=
| TeVersion (e : eof_err) | TeInputs (e : vec_err txin_err) | TeOutputs (e : vec_err txout_err)
| TeWitness (e : wd_err) | TeLockTime (e : eof_err)
| TeSegwitFlag (b : N) | TeNoWitnesses
| TeEarlyVersion | TeEarlyInputs | TeEarlyFlag | TeEarlyOutputs | TeEarlyWitnesses | TeEarlyLockTime
| TeNoOutputs | TeNullPrevout (index : N) | TeCoinbaseSmall (len : N) | TeCoinbaseLarge (len : N)
| TeDuplicate (o : outpoint) | TeSumTooLarge (v : N).

Inductive txd_state :=
| TsVersion (d : st u32_dec)
| TsInputs (version : N) (second_attempt : bool) (d : st ins_dec)
| TsSegwitFlag (version : N)
| TsOutputs (version : N) (ins : list txin) (segwit : bool) (d : st outs_dec)
| TsWitnesses (version : N) (ins : list txin) (outs : list txout) (iteration : N) (d : st witness_dec)
| TsLockTime (version : N) (ins : list txin) (outs : list txout) (d : st u32_dec)
| TsDone (tx : transaction)
| TsErrored.

(** [inputs[i].witness = w]; indexing out of range panics *)
Fixpoint set_witness (ins : list txin) (i : nat) (w : witness) : rust (list txin) :=
  match ins, i with
  | [], _ => Panic
  | x :: ins', O => Ret ({| ti_prevout := ti_prevout x; ti_script := ti_script x;
                            ti_sequence := ti_sequence x; ti_witness := w |} :: ins')
  | x :: ins', S i' => rbind (set_witness ins' i' w) (fun r => Ret (x :: r))
  end.

(** One turn of the loop, transaction.rs:455-571.  [inl]: the loop goes on with this state and
    these bytes; [inr]: [push_bytes] returns. *)
Definition txd_step (s : txd_state) (l : bytes)
  : (txd_state * bytes) + (txd_state * bytes * pstatus txd_err) :=
  match s with
  | TsVersion d =>
      match push u32_dec d l with
      | (d', l', NeedsMore) => inr (TsVersion d', l', NeedsMore)
      | (d', l', PErr e) => inr (TsVersion d', l', PErr (TeVersion e))
      | (d', l', PPanic) => inr (TsVersion d', l', PPanic)
      | (d', l', Ready) =>
          match fin u32_dec d' with
          | Panic => inr (TsErrored, l', PPanic)
          | Ret (Err e) => inr (TsErrored, l', PErr (TeVersion e))
          | Ret (Ok v) => inl (TsInputs v false (init ins_dec), l')
          end
      end
  | TsInputs v second d =>
      match push ins_dec d l with
      | (d', l', NeedsMore) => inr (TsInputs v second d', l', NeedsMore)
      | (d', l', PErr e) => inr (TsInputs v second d', l', PErr (TeInputs e))
      | (d', l', PPanic) => inr (TsInputs v second d', l', PPanic)
      | (d', l', Ready) =>
          match fin ins_dec d' with
          | Panic => inr (TsErrored, l', PPanic)
          | Ret (Err e) => inr (TsErrored, l', PErr (TeInputs e))
          | Ret (Ok ins) =>
              if second then inl (TsOutputs v ins true (init outs_dec), l')
              else match ins with
                   | [] => inl (TsSegwitFlag v, l')
                   | _ => inl (TsOutputs v ins false (init outs_dec), l')
                   end
          end
      end
  | TsSegwitFlag v =>
      match l with
      | [] => inr (s, l, NeedsMore)
      | b :: l' => if b =? 1 then inl (TsInputs v true (init ins_dec), l')
                   else inr (TsErrored, l', PErr (TeSegwitFlag b))
      end
  | TsOutputs v ins sw d =>
      match push outs_dec d l with
      | (d', l', NeedsMore) => inr (TsOutputs v ins sw d', l', NeedsMore)
      | (d', l', PErr e) => inr (TsOutputs v ins sw d', l', PErr (TeOutputs e))
      | (d', l', PPanic) => inr (TsOutputs v ins sw d', l', PPanic)
      | (d', l', Ready) =>
          match fin outs_dec d' with
          | Panic => inr (TsErrored, l', PPanic)
          | Ret (Err e) => inr (TsErrored, l', PErr (TeOutputs e))
          | Ret (Ok outs) =>
              if sw && negb (lenN ins =? 0) then inl (TsWitnesses v ins outs 0 (init witness_dec), l')
              else inl (TsLockTime v ins outs (init u32_dec), l')
          end
      end
  | TsWitnesses v ins outs i d =>
      match push witness_dec d l with
      | (d', l', NeedsMore) => inr (TsWitnesses v ins outs i d', l', NeedsMore)
      | (d', l', PErr e) => inr (TsWitnesses v ins outs i d', l', PErr (TeWitness e))
      | (d', l', PPanic) => inr (TsWitnesses v ins outs i d', l', PPanic)
      | (d', l', Ready) =>
          match fin witness_dec d' with
          | Panic => inr (TsErrored, l', PPanic)
          | Ret (Err e) => inr (TsErrored, l', PErr (TeWitness e))
          | Ret (Ok w) =>
              match set_witness ins (N.to_nat i) w with
              | Panic => inr (TsErrored, l', PPanic)
              | Ret ins' =>
                  if i <? lenN ins' - 1 then inl (TsWitnesses v ins' outs (i + 1) (init witness_dec), l')
                  else if negb (lenN ins' =? 0) && forallb (fun i => wit_is_empty (ti_witness i)) ins'
                  then inr (TsErrored, l', PErr TeNoWitnesses)
                  else inl (TsLockTime v ins' outs (init u32_dec), l')
              end
          end
      end
  | TsLockTime v ins outs d =>
      match push u32_dec d l with
      | (d', l', NeedsMore) => inr (TsLockTime v ins outs d', l', NeedsMore)
      | (d', l', PErr e) => inr (TsLockTime v ins outs d', l', PErr (TeLockTime e))
      | (d', l', PPanic) => inr (TsLockTime v ins outs d', l', PPanic)
      | (d', l', Ready) =>
          match fin u32_dec d' with
          | Panic => inr (TsErrored, l', PPanic)
          | Ret (Err e) => inr (TsErrored, l', PErr (TeLockTime e))
          | Ret (Ok lt) =>
              inr (TsDone {| tx_version := v; tx_lock_time := lt; tx_inputs := ins; tx_outputs := outs |},
                   l', Ready)
          end
      end
  | TsDone tx => inr (s, l, Ready)
  | TsErrored => inr (s, l, PPanic)
  end.

(** Each turn that goes on moves to a later state or consumes a byte, so 10 + length turns suffice. *)
Fixpoint txd_loop (fuel : nat) (s : txd_state) (l : bytes) : txd_state * bytes * pstatus txd_err :=
  match fuel with
  | O => (s, l, PPanic)
  | S fuel' => match txd_step s l with inl (s', l') => txd_loop fuel' s' l' | inr r => r end
  end.
Definition txd_push (s : txd_state) (l : bytes) := txd_loop (10 + length l) s l.

(** [sort_unstable] on outpoints (derived Ord: txid bytes then vout).  Sorting by a total order has
    one result whatever the algorithm; insertion sort here. *)
Fixpoint bytes_leb (a b : bytes) : bool :=
  match a, b with
  | [], _ => true
  | _ :: _, [] => false
  | x :: a', y :: b' => (x <? y) || ((x =? y) && bytes_leb a' b')
  end.
Definition outpoint_leb (a b : outpoint) : bool :=
  if beqb (op_txid a) (op_txid b) then op_vout a <=? op_vout b else bytes_leb (op_txid a) (op_txid b).
Fixpoint insert_op (x : outpoint) (l : list outpoint) : list outpoint :=
  match l with
  | [] => [x]
  | y :: l' => if outpoint_leb x y then x :: l else y :: insert_op x l'
  end.
Definition sort_ops (l : list outpoint) : list outpoint := fold_right insert_op [] l.
(** transaction.rs:613-617: the first equal adjacent pair *)
Fixpoint first_dup (l : list outpoint) : option outpoint :=
  match l with
  | a :: (b :: _) as l' => if outpoint_eqb a b then Some a else first_dup l'
  | _ => None
  end.

(** transaction.rs:594-598 *)
Fixpoint null_prevout_at (ins : list txin) (index : N) : option N :=
  match ins with
  | [] => None
  | i :: ins' => if outpoint_eqb (ti_prevout i) COINBASE_PREVOUT then Some index
                 else null_prevout_at ins' (index + 1)
  end.

(** transaction.rs:621-627: saturating sum with early exit *)
Definition U64_MAX_ : N := 18446744073709551615.
Definition MAX_MONEY : N := Z.to_N AMOUNT_MAX.
Fixpoint sum_too_large (outs : list txout) (total : N) : option N :=
  match outs with
  | [] => None
  | o :: outs' => let t := N.min (total + to_amount o) U64_MAX_ in
                  if MAX_MONEY <? t then Some t else sum_too_large outs' t
  end.

(** transaction.rs:587-629 *)
Definition tx_check (tx : transaction) : result transaction txd_err :=
  match tx_outputs tx with
  | [] => Err TeNoOutputs
  | _ =>
  match (if 1 <? lenN (tx_inputs tx) then null_prevout_at (tx_inputs tx) 0 else None) with
  | Some i => Err (TeNullPrevout i)
  | None =>
  match (match tx_inputs tx with
         | i :: _ => if is_coinbase tx then
                       if lenN (ti_script i) <? 2 then Some (TeCoinbaseSmall (lenN (ti_script i)))
                       else if 100 <? lenN (ti_script i) then Some (TeCoinbaseLarge (lenN (ti_script i)))
                       else None
                     else None
         | [] => None
         end) with
  | Some e => Err e
  | None =>
  match first_dup (sort_ops (map ti_prevout (tx_inputs tx))) with
  | Some o => Err (TeDuplicate o)
  | None =>
  match sum_too_large (tx_outputs tx) 0 with
  | Some v => Err (TeSumTooLarge v)
  | None => Ok tx
  end end end end end.

(** transaction.rs:575-632 *)
Definition txd_fin (s : txd_state) : rust (result transaction txd_err) :=
  match s with
  | TsVersion _ => Ret (Err TeEarlyVersion)
  | TsInputs _ _ _ => Ret (Err TeEarlyInputs)
  | TsSegwitFlag _ => Ret (Err TeEarlyFlag)
  | TsOutputs _ _ _ _ => Ret (Err TeEarlyOutputs)
  | TsWitnesses _ _ _ _ _ => Ret (Err TeEarlyWitnesses)
  | TsLockTime _ _ _ _ => Ret (Err TeEarlyLockTime)
  | TsDone tx => Ret (tx_check tx)
  | TsErrored => Panic
  end.

(** transaction.rs:635-650 *)
Definition txd_lim (s : txd_state) : N :=
  match s with
  | TsVersion d => lim u32_dec d
  | TsInputs _ _ d => lim ins_dec d
  | TsSegwitFlag _ => 1
  | TsOutputs _ _ _ d => lim outs_dec d
  | TsWitnesses _ _ _ _ d => lim witness_dec d
  | TsLockTime _ _ _ d => lim u32_dec d
  | TsDone _ => 0
  | TsErrored => 0
  end.

Definition tx_dec : decoder transaction txd_err :=
  {| st := txd_state; init := TsVersion (init u32_dec); push := txd_push; fin := txd_fin; lim := txd_lim |}.

(** ** Blocks: primitives/src/block.rs *)
(** block.rs:469-483 *)
Record header := { h_version : N; h_prev : bytes; h_merkle : bytes; h_time : N; h_bits : N; h_nonce : N }.
(** block.rs:543-552 *)
Definition header_encode (h : header) : bytes :=
  le_bytes 4 (h_version h) ++ h_prev h ++ h_merkle h ++ le_bytes 4 (h_time h) ++
  le_bytes 4 (h_bits h) ++ le_bytes 4 (h_nonce h).
(** block.rs:574-624; the error renaming of [from_inner] is one to one *)
Definition header_err := err6 eof_err eof_err eof_err eof_err eof_err eof_err.
Definition header_dec : decoder header header_err :=
  newtype_dec (dec6 u32_dec hash_dec hash_dec u32_dec u32_dec (array_dec 4)) (fun e => e)
    (fun '(v, p, m, t, b, n) =>
       Ok {| h_version := v; h_prev := p; h_merkle := m; h_time := t; h_bits := b; h_nonce := le_val n |}).

(** block.rs:84-97 (Unchecked: no witness root) *)
Record block := { b_header : header; b_txs : list transaction }.
(** block.rs:354-359 *)
Definition block_encode (b : block) : bytes := header_encode (b_header b) ++ slice_encode tx_encode (b_txs b).
(** block.rs:377-394 *)
Definition block_err := err2 header_err (vec_err txd_err).
Definition block_dec : decoder block block_err :=
  newtype_dec (dec2 header_dec (vec_dec tx_dec MAX_VEC_SIZE)) (fun e => e)
    (fun '(h, txs) => Ok {| b_header := h; b_txs := txs |}).
