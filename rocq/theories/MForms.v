(** Ready-made spending forms: bitcoin/src/blockdata/witness.rs:29-72 (p2wpkh, p2wsh, p2tr_key_spend, push_p2tr_script_spend,
    push_ecdsa_signature), bitcoin/src/blockdata/script/owned.rs:132-148 (p2sh_p2wpkh, p2sh_p2wsh), script/borrowed.rs:144-298 (to_p2sh,
    to_p2wsh, tapscript_leaf_hash, to_p2tr, p2pk_public_key, is_standard_op_return, is_provably_unspendable), script/builder.rs:92-132
    (push_key, push_x_only_key, push_lock_time, push_relative_lock_time, push_sequence) and bitcoin/src/policy.rs:50-53.
    Hashes and curves are parameters.  [AsRef<[u8]>] arguments are their bytes. *)
From Coq Require Import String.
From Verif Require Import Base MDec MWitness MWitness2 MScript MSighash MTaproot MBip32 MKey MSig MAddress.
Local Open Scope list_scope.
Local Open Scope N_scope.

Section Forms.
  Variable hash160 : bytes -> bytes.
  Variable sha256 : bytes -> bytes.
  Variable K : kcurve.
  Variable E : ecurve.
  Variable T : curve.

  (** witness.rs:70-72: push of the serialized signature (its deref to bytes) *)
  Definition push_ecdsa_signature (w : witness) (s : esig E) : rust witness :=
    rbind (es_serialize E s) (fun x => rbind (ss_bytes x) (fun b => push_slice w b)).
  (** witness.rs:29-34 *)
  Definition w_p2wpkh (s : esig E) (k : full K) : rust witness :=
    rbind (es_serialize E s) (fun x => rbind (ss_bytes x) (fun b =>
    rbind (push_slice wit_new b) (fun w => push_slice w (fk_to_bytes K k)))).
  (** witness.rs:45-49; [collect] is primitives/src/witness.rs:662-667, through [from_slice] *)
  Definition w_p2wsh (satisfaction : list bytes) (script : bytes) : rust witness :=
    rbind (from_slice satisfaction) (fun w => push_slice w script).
  (** witness.rs:52-56 *)
  Definition w_p2tr_key_spend (s : tsig) : rust witness :=
    rbind (ts_serialize s) (fun x => rbind (ss_bytes x) (fun b => push_slice wit_new b)).
  (** taproot/mod.rs:1076-1084: the ArrayVec has room for 33 + 32 * 128 bytes, more is a panic *)
  Definition encode_to_arrayvec (c : control_block T) : rust bytes :=
    let b := cb_serialize T c in if lenN b <=? CONTROL_BASE_SIZE + NODE_SIZE * MAX_NODE_COUNT then Ret b else Panic.
  (** witness.rs:59-65 *)
  Definition push_p2tr_script_spend (w : witness) (script : bytes) (c : control_block T) (annex : option bytes) : rust witness :=
    rbind (push_slice w script) (fun w =>
    rbind (encode_to_arrayvec c) (fun b =>
    rbind (push_slice w b) (fun w =>
    match annex with Some a => push_slice w a | None => Ret w end))).

  (** Builder::new().push_int_unchecked(0).push_slice(h), then <&PushBytes>::try_from(..).expect(..): owned.rs:133-134, 146-147 *)
  Definition nested_sig (h : bytes) : rust bytes :=
    rbind (sb_push_int_unchecked [] 0) (fun s =>
    let redeem := sb_push_slice s h in
    if push_bytes_ok redeem then Ret (sb_push_slice [] redeem) else Panic).
  (** owned.rs:132-135; wpubkey_hash of a full key: crypto/src/key.rs *)
  Definition p2sh_p2wpkh (k : full K) : rust bytes := nested_sig (fk_pubkey_hash hash160 K k).
  (** owned.rs:144-148 *)
  Definition p2sh_p2wsh (script : bytes) : rust (result bytes N) :=
    match wscript_hash sha256 script with Err e => Ret (Err e) | Ok h => rbind (nested_sig h) (fun s => Ret (Ok s)) end.

  (** borrowed.rs:144-148 *)
  Definition to_p2sh (s : bytes) : result bytes N := match script_hash hash160 s with Ok h => Ok (new_p2sh h) | Err e => Err e end.
  (** borrowed.rs:178-180 *)
  Definition to_p2wsh (s : bytes) : rust (result bytes N) :=
    match wscript_hash sha256 s with Ok h => rbind (new_p2wsh h) (fun p => Ret (Ok p)) | Err e => Ret (Err e) end.
  (** borrowed.rs:189-191 *)
  Definition tapscript_leaf_hash (s : bytes) : bytes := MTaproot.from_script sha256 s MTaproot.TapScript.
  (** addresses/src/lib.rs:199-207 *)
  Definition new_p2tr (k : xonly T) (root : option bytes) : rust bytes :=
    rbind (tap_tweak sha256 T k root) (fun out => new_p2tr_tweaked (xonly_ser out)).
  (** borrowed.rs:195-203 *)
  Definition to_p2tr (s : bytes) (k : xonly T) : rust bytes := new_p2tr k (Some (tapscript_leaf_hash s)).
  (** borrowed.rs:221-223 *)
  Definition p2pk_public_key (s : bytes) : rust (option (legacy K)) :=
    match p2pk_pubkey_bytes s with
    | None => Ret None
    | Some b => rbind (lk_from_slice K b) (fun r => Ret (match r with Ok k => Some k | Err _ => None end))
    end.

  (** builder.rs:92-98 *)
  Definition push_key (s : bytes) (k : legacy K) : bytes :=
    if lk_compressed K k then sb_push_slice s (kc_ser33 K (lk_point K k)) else sb_push_slice s (kc_ser65 K (lk_point K k)).
  (** builder.rs:101-103 *)
  Definition push_x_only_key (s : bytes) (k : xonly T) : bytes := sb_push_slice s (xonly_ser k).
End Forms.

(** builder.rs:106-132: push_lock_time, push_relative_lock_time and push_sequence all push [to_consensus_u32().into()], an i64 *)
Definition push_consensus_u32 (s : bytes) (v : N) : rust bytes := sb_push_int_unchecked s (Z.of_N v).

(** borrowed.rs:278; MAX_OP_RETURN_RELAY policy.rs:47 *)
Definition MAX_OP_RETURN_RELAY : N := 83.
Definition is_standard_op_return (s : bytes) : bool := is_op_return s && (lenN s <=? MAX_OP_RETURN_RELAY).
(** borrowed.rs:286-298 *)
Definition is_provably_unspendable (s : bytes) : rust bool :=
  match s with
  | b :: _ => rbind (classify b Legacy) (fun c => Ret (match c with ClReturn | ClIllegal => true | _ => false end))
  | [] => Ret false
  end.

(** policy.rs:50-53 on i64: overflow is a panic, division truncates *)
Definition i64_ok (z : Z) : bool := ((- 2 ^ 63 <=? z) && (z <? 2 ^ 63))%Z.
Definition i64_ret (z : Z) : rust Z := if i64_ok z then Ret z else Panic.
Definition get_virtual_tx_size (weight n_sigops : Z) : rust Z :=
  rbind (i64_ret (n_sigops * 20)) (fun m =>
  rbind (i64_ret (Z.max weight m + 4)) (fun a =>
  rbind (i64_ret (a - 1)) (fun b => Ret (Z.quot b 4)))).
