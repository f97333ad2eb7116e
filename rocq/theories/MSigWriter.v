(** The signing data written to any writer: bitcoin/src/crypto/sighash.rs:353-481, 562-615, 687-789.  MSighash.v has the same functions
    writing to a hash engine.  [f] is fuel for the loops of the io crate; None means it ran out. *)
From Verif Require Import Base MDec MWitness MTx MEnc MIo MIoDrive MText MScript MSighash.
Local Open Scope N_scope.

(** SigningDataError :1277-1290 *)
Inductive data_err (E : Type) := DIo (k : kind) | DSighash (e : E).
Arguments DIo {E} k. Arguments DSighash {E} e.

Section Writer.
  Variable H : bytes -> bytes.
  Variable W : writer.
  Variable f : nat.
  (** a part of the function: it may fill the caches, writes, and may fail *)
  Definition wstep (E : Type) : Type := cache -> wstate W -> option (rust (cache * result unit (data_err E) * wstate W)).
  (** the [?] operator *)
  Definition wthen {E} (a b : wstep E) : wstep E := fun c w =>
    match a c w with
    | Some (Ret (c1, Ok _, w1)) => b c1 w1
    | r => r
    end.
  Definition wskip {E} : wstep E := fun c w => Some (Ret (c, Ok tt, w)).
  Definition wfail {E} (e : E) : wstep E := fun c w => Some (Ret (c, Err (DSighash e), w)).
  (** From<io::Error> :1310-1312 *)
  Definition io_step {E} (r : option (rust (result unit kind * wstate W))) (c : cache) : option (rust (cache * result unit (data_err E) * wstate W)) :=
    match r with
    | None => None
    | Some Panic => Some Panic
    | Some (Ret (Ok _, w)) => Some (Ret (c, Ok tt, w))
    | Some (Ret (Err k, w)) => Some (Ret (c, Err (DIo k), w))
    end.
  (** writer.write_all(..)? *)
  Definition wput {E} (b : bytes) : wstep E := fun c w => io_step (write_all W f w b) c.
  (** io::encode_to_writer(..)?, io::drain_to_writer(..)? *)
  Definition wenc {E} (e : rust enc) : wstep E := fun c w => io_step (encode_to_writer W f f e w) c.
  Definition wcommon {E} (g : common_cache -> bytes) : wstep E := fun c w => let '(c, cc) := get_common H c in wput (g cc) c w.
  Definition wsegwit {E} (g : segwit_cache -> bytes) : wstep E := fun c w => let '(c, cc) := get_segwit H c in wput (g cc) c w.
  Definition wtaproot (p : prevouts) (g : taproot_cache -> bytes) : wstep tap_err := fun c w =>
    match get_all p with Err e => wfail e c w | Ok os => let '(c, tp) := get_taproot H c os in wput (g tp) c w end.
  Notation "a ;; b" := (wthen a b) (at level 61, right associativity).
  (** encoder() of versions, lock times, sequences, amounts: four or eight bytes *)
  Definition wle {E} (n : nat) (v : N) : wstep E := wenc (Ret (EBytes (le_bytes n v))).

  (** taproot_encode_signing_data_to :353-481 *)
  Definition tap_to (i : N) (p : prevouts) (annex : option bytes) (leaf : option (bytes * N)) (ty : tap_type) : wstep tap_err := fun c =>
    let tx := sc_tx c in
    (if negb (check_all p tx) then wfail EPrevoutsSize else
     let '(sighash, acp) := tap_split ty in
     wput [0] ;; wput [tap_u8 ty] ;; wle 4 (tx_version tx) ;; wle 4 (tx_lock_time tx) ;;
     (if negb acp then wcommon cm_prevouts ;; wtaproot p tp_amounts ;; wtaproot p tp_scripts ;; wcommon cm_sequences else wskip) ;;
     (if negb (tap_single_or_none sighash) then wcommon cm_outputs else wskip) ;;
     wput [N.lor (match annex with Some _ => 1 | None => 0 end) (match leaf with Some _ => 2 | None => 0 end)] ;;
     (if acp then
        match tap_tx_in tx i with Err e => wfail e | Ok txin =>
        match prevouts_get p i with Err e => wfail e | Ok o =>
          wenc (Ret (outpoint_encoder (ti_prevout txin))) ;; wle 8 (to_amount o) ;; wenc (Ret (script_encoder (to_script o))) ;; wle 4 (ti_sequence txin)
        end end
      else wput (le_bytes 4 (i mod 2 ^ 32))) ;;
     (match annex with Some a => wput (H (cs_encode (lenN a) ++ a)) | None => wskip end) ;;
     (match sighash with
      | TSingle => match getN (tx_outputs tx) i with Some o => wput (H (txout_encode o)) | None => wfail (ESingleMissing i (lenN (tx_outputs tx))) end
      | _ => wskip
      end) ;;
     (match leaf with Some (h, pos) => wput h ;; wput [0] ;; wput (le_bytes 4 pos) | None => wskip end)) c.
  (** segwit_v0_encode_signing_data_to :562-615 *)
  Definition segwit_to (i : N) (script_code : bytes) (amount : N) (ty : ecdsa_type) : wstep (N * N) := fun c =>
    let tx := sc_tx c in
    let '(sighash, acp) := ecdsa_split ty in
    (wle 4 (tx_version tx) ;;
     (if negb acp then wsegwit sg_prevouts else wput zero_hash) ;;
     (if negb acp && negb (ecdsa_single_or_none sighash) then wsegwit sg_sequences else wput zero_hash) ;;
     (match tx_in tx i with Err e => wfail e | Ok txin =>
        wenc (Ret (outpoint_encoder (ti_prevout txin))) ;; wenc (Ret (script_encoder script_code)) ;; wle 8 amount ;; wle 4 (ti_sequence txin) end) ;;
     (if negb (ecdsa_single_or_none sighash) then wsegwit sg_outputs
      else match (if is_single sighash && (i <? lenN (tx_outputs tx)) then getN (tx_outputs tx) i else None) with
           | Some o => wput (Hd H (txout_encode o))
           | None => wput zero_hash
           end) ;;
     wle 4 (tx_lock_time tx) ;; wput (le_bytes 4 (ecdsa_u32 ty))) c.
  (** legacy_encode_signing_data_to :687-789; the result None is SighashSingleBug *)
  Fixpoint legacy_inputs_to (n i : N) (spk : bytes) (keep : bool) (ins : list txin) : wstep (N * N) :=
    match ins with
    | [] => wskip
    | x :: ins' =>
        wenc (Ret (outpoint_encoder (ti_prevout x))) ;; wenc (Ret (script_encoder (if n =? i then spk else []))) ;;
        wle 4 (if negb (n =? i) && negb keep then 0 else ti_sequence x) ;; legacy_inputs_to (n + 1) i spk keep ins'
    end.
  Fixpoint blanks_to (n : nat) : wstep (N * N) :=
    match n with O => wskip | S k => wput [255; 255; 255; 255; 255; 255; 255; 255; 0] ;; blanks_to k end.
  Definition wpanic {E} : wstep E := fun _ _ => Some Panic.
  Definition legacy_inner_to (tx : transaction) (i : N) (spk : bytes) (ty : N) : wstep (N * N) :=
    let '(sighash, acp) := ecdsa_split (from_consensus ty) in
    wle 4 (tx_version tx) ;;
    (if acp then
       match index (tx_inputs tx) i with Panic => wpanic | Ret x =>
         wenc (Ret (EBytes (cs_encode 1))) ;; wenc (Ret (outpoint_encoder (ti_prevout x))) ;; wenc (Ret (script_encoder spk)) ;; wle 4 (ti_sequence x) end
     else wenc (Ret (EBytes (cs_encode (lenN (tx_inputs tx))))) ;; legacy_inputs_to 0 i spk (negb (ecdsa_single_or_none sighash)) (tx_inputs tx)) ;;
    (match sighash with
     | EAll => wenc (prefixed_slice (map txout_encoder (tx_outputs tx)))
     | ESingle =>
         if 1 <=? lenN (tx_outputs tx) then
           let count := N.min i (lenN (tx_outputs tx) - 1) in
           wenc (Ret (EBytes (cs_encode (count + 1)))) ;; blanks_to (N.to_nat count) ;;
           match index (tx_outputs tx) count with Panic => wpanic | Ret o => wenc (Ret (txout_encoder o)) end
         else wpanic
     | ENone => wenc (Ret (EBytes (cs_encode 0)))
     | _ => wpanic
     end) ;;
    wle 4 (tx_lock_time tx) ;; wput (le_bytes 4 ty).
  Definition legacy_to (tx : transaction) (i : N) (spk : bytes) (ty : N) (w : wstate W) : option (rust (option (result unit (data_err (N * N))) * wstate W)) :=
    match tx_in tx i with
    | Err e => Some (Ret (Some (Err (DSighash e)), w))
    | Ok _ =>
        if invalid_single ty i (lenN (tx_outputs tx)) then Some (Ret (None, w))
        else match legacy_inner_to tx i spk ty (cache_new tx) w with
             | None => None
             | Some Panic => Some Panic
             | Some (Ret (_, r, w')) => Some (Ret (Some r, w'))
             end
    end.
  (** is_sighash_single_bug :991-997 *)
  Definition is_single_bug {E} (r : option (result unit E)) : result bool E :=
    match r with None => Ok true | Some (Ok _) => Ok false | Some (Err e) => Err e end.
End Writer.
