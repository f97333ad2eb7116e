(** Compact blocks: p2p/src/bip152.rs.  usize has 64 bits; overflow checks are on.  Formatting of short ids and the
    error texts are not modelled. *)
From Verif Require Import Base MDec MWitness MTx MSip.
Local Open Scope N_scope.

(** bip152.rs:35-49 *)
Record prefilled := mk_pf { pf_idx : N; pf_tx : transaction }.
(** bip152.rs:67-72 *)
Definition prefilled_encode (p : prefilled) : bytes := cs_encode (pf_idx p) ++ tx_encode (pf_tx p).
(** bip152.rs:632-637 *)
Inductive prefilled_err := PfDecoder (e : err2 cs_err txd_err) | PfInvalidIndex (n : N).
(** bip152.rs:75-98 *)
Definition prefilled_dec : decoder prefilled prefilled_err :=
  newtype_dec (dec2 (cs_dec MAX_VEC_SIZE) tx_dec) PfDecoder
    (fun '(cs, tx) => if cs <? 65536 then Ok (mk_pf cs tx) else Err (PfInvalidIndex cs)).

(** bip152.rs:183-208 *)
Definition short_id_dec : decoder bytes eof_err := newtype_dec (array_dec 6) (fun e => e) (fun b => Ok b).

Section Hash.
(** the SHA256 engine, as a function of the concatenated input (see C27), and the double one *)
Context (sha256 sha256d : bytes -> bytes).
(** bip152.rs:123-138 *)
Definition calculate_siphash_keys (h : header) (nonce : N) : N * N :=
  let d := sha256 (header_encode h ++ le_bytes 8 nonce) in
  (le_val (takeN 8 d), le_val (takeN 8 (dropN 8 d))).
(** bip152.rs:141-150 *)
Definition with_siphash_keys (id : bytes) (keys : N * N) : rust bytes :=
  rbind (hash_with_keys (fst keys) (snd keys) id) (fun h => Ret (takeN 6 h)).

(** bip152.rs:216-227 *)
Record compact_block := mk_cb { cb_header : header; cb_nonce : N; cb_short_ids : list bytes; cb_prefilled : list prefilled }.
(** bip152.rs:340: the witness of each input is cleared *)
Definition clear_witnesses (tx : transaction) : transaction :=
  {| tx_version := tx_version tx; tx_lock_time := tx_lock_time tx;
     tx_inputs := map (fun i => {| ti_prevout := ti_prevout i; ti_script := ti_script i; ti_sequence := ti_sequence i;
                                   ti_witness := wit_clear (ti_witness i) |}) (tx_inputs tx);
     tx_outputs := tx_outputs tx |}.
(** bip152.rs:321-360: the loop from transaction [idx] on; gives the prefilled transactions, the short ids and what is
    left of [prefill].  The version is 1 or 2. *)
Fixpoint cb_loop (version : N) (keys : N * N) (txs : list transaction) (idx : N) (prefill : list N) (last_prefill : N)
  : rust (list prefilled * list bytes * list N) :=
  match txs with
  | [] => Ret ([], [], prefill)
  | tx :: txs' =>
      let '(hit, prefill) := match prefill with p :: rest => if p =? idx then (true, rest) else (idx =? 0, prefill) | [] => (idx =? 0, prefill) end in
      if hit then
        if idx <? last_prefill then Panic else
        rbind (cb_loop version keys txs' (idx + 1) prefill (idx + 1)) (fun '(ps, ids, rem) =>
        Ret (mk_pf ((idx - last_prefill) mod 65536) (if version =? 1 then clear_witnesses tx else tx) :: ps, ids, rem))
      else
        rbind (if version =? 1 then compute_txid sha256d tx else compute_wtxid sha256d tx) (fun id =>
        rbind (with_siphash_keys id keys) (fun short =>
        rbind (cb_loop version keys txs' (idx + 1) prefill last_prefill) (fun '(ps, ids, rem) =>
        Ret (ps, short :: ids, rem))))
  end.
(** bip152.rs:599-604 *)
Inductive cb_err := UnknownVersion | InvalidPrefill.
(** bip152.rs:306-373; the capacity [len - prefill.len()] overflows for a longer [prefill] *)
Definition from_block (b : block) (nonce version : N) (prefill : list N) : rust (result compact_block cb_err) :=
  if negb (version =? 1) && negb (version =? 2) then Ret (Err UnknownVersion) else
  let keys := calculate_siphash_keys (b_header b) nonce in
  if lenN (b_txs b) <? lenN prefill then Panic else
  rbind (cb_loop version keys (b_txs b) 0 prefill 0) (fun '(ps, ids, rem) =>
  Ret (match rem with
       | _ :: _ => Err InvalidPrefill
       | [] => Ok (mk_cb (b_header b) nonce ids ps)
       end)).
End Hash.

(** bip152.rs:250-257 *)
Definition cb_encode (c : compact_block) : bytes :=
  header_encode (cb_header c) ++ le_bytes 8 (cb_nonce c) ++ slice_encode (fun s => s) (cb_short_ids c) ++ slice_encode prefilled_encode (cb_prefilled c).
(** bip152.rs:689-694 *)
Inductive cb_dec_err := CbDecoder (e : err4 header_err eof_err (vec_err eof_err) (vec_err prefilled_err)) | CbIndexOverflow.
(** bip152.rs:260-289; the sum of the lengths of two vectors in memory does not overflow *)
Definition cb_dec : decoder compact_block cb_dec_err :=
  newtype_dec (dec4 header_dec (array_dec 8) (vec_dec short_id_dec MAX_VEC_SIZE) (vec_dec prefilled_dec MAX_VEC_SIZE)) CbDecoder
    (fun '(h, n, ids, ps) => if 65535 <? lenN ids + lenN ps then Err CbIndexOverflow else Ok (mk_cb h (le_val n) ids ps)).

(** bip152.rs:409-414 *)
Record request := mk_rq { rq_hash : bytes; rq_offsets : list N }.
(** bip152.rs:421-425, 436-440 *)
Fixpoint offsets_of (last_idx : N) (indexes : list N) : rust (list N) :=
  match indexes with
  | [] => Ret []
  | idx :: rest =>
      if idx <? last_idx then Panic else
      if USIZE <=? idx + 1 then Panic else
      rbind (offsets_of (idx + 1) rest) (fun os => Ret (idx - last_idx :: os))
  end.
(** bip152.rs:434-442 *)
Definition from_indices_unchecked (h : bytes) (indexes : list N) : rust request :=
  rbind (offsets_of 0 indexes) (fun os => Ret (mk_rq h os)).
(** sort_unstable, as an insertion sort *)
Fixpoint insert_n (x : N) (l : list N) : list N :=
  match l with
  | [] => [x]
  | y :: l' => if x <=? y then x :: l else y :: insert_n x l'
  end.
Definition sort_n (l : list N) : list N := fold_right insert_n [] l.
(** bip152.rs:418-427 *)
Definition from_unsorted_indices (h : bytes) (indexes : list N) : rust request :=
  rbind (offsets_of 0 (sort_n indexes)) (fun os => Ret (mk_rq h os)).
(** bip152.rs:449-463: the loop from [last_cs] on *)
Fixpoint indices_from (last_cs : N) (offsets : list N) : result (list N) N :=
  match offsets with
  | [] => Ok []
  | o :: rest =>
      if last_cs + o <? USIZE then
        let next := last_cs + o in
        if next + 1 <? USIZE then match indices_from (next + 1) rest with Ok l => Ok (next :: l) | Err e => Err e end
        else Err next
      else Err last_cs
  end.
Definition indices (r : request) : result (list N) N := indices_from 0 (rq_offsets r).
(** bip152.rs:480-486 *)
Definition request_encode (r : request) : bytes := rq_hash r ++ slice_encode cs_encode (rq_offsets r).
(** bip152.rs:387-404 *)
Definition offset_dec : decoder N cs_err := newtype_dec (cs_dec MAX_VEC_SIZE) (fun e => e) (fun n => Ok n).
(** bip152.rs:488-505 *)
Definition request_dec : decoder request (err2 eof_err (vec_err cs_err)) :=
  newtype_dec (dec2 hash_dec (vec_dec offset_dec MAX_VEC_SIZE)) (fun e => e) (fun '(h, os) => Ok (mk_rq h os)).

(** bip152.rs:510-515 *)
Record block_txs := mk_bt { bt_hash : bytes; bt_txs : list transaction }.
(** bip152.rs:534-539 *)
Definition block_txs_encode (t : block_txs) : bytes := bt_hash t ++ slice_encode tx_encode (bt_txs t).
(** bip152.rs:542-559 *)
Definition block_txs_dec : decoder block_txs (err2 eof_err (vec_err txd_err)) :=
  newtype_dec (dec2 hash_dec (vec_dec tx_dec MAX_VEC_SIZE)) (fun e => e) (fun '(h, ts) => Ok (mk_bt h ts)).
(** bip152.rs:577-582 *)
Fixpoint pick_txs (txs : list transaction) (idxs : list N) : result (list transaction) N :=
  match idxs with
  | [] => Ok []
  | i :: rest =>
      match nth_error txs (N.to_nat i) with
      | None => Err i
      | Some tx => match pick_txs txs rest with Ok l => Ok (tx :: l) | Err e => Err e end
      end
  end.
(** bip152.rs:568-586 *)
Definition from_request (r : request) (b : block) : result block_txs N :=
  match indices r with
  | Err e => Err e
  | Ok idxs => match pick_txs (b_txs b) idxs with Ok l => Ok (mk_bt (rq_hash r) l) | Err e => Err e end
  end.
