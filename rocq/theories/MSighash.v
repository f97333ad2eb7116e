(** Model of bitcoin/src/crypto/sighash.rs and crypto/src/sighash.rs: the data signed by legacy, segwit v0 and taproot
    signatures, their hashes and the [SighashCache].  The writer is a hash engine or a vector, which never fails: it is
    modelled by the bytes written.  SHA-256 is the parameter [H] (its engine is the subject of C27; the tagged engine
    starts from the midstate of the tag, also C27).  Signing itself is not modelled. *)
From Coq Require Import String.
From Verif Require Import Base MDec MWitness MTx MScript MText.
Local Open Scope N_scope.

(** * Sighash types: crypto/src/sighash.rs *)
(** :24-42 *)
Inductive tap_type := TDefault | TAll | TNone | TSingle | TAllAcp | TNoneAcp | TSingleAcp.
(** the discriminants :24-42, written by [sighash_type as u8] *)
Definition tap_u8 (t : tap_type) : N :=
  match t with TDefault => 0x00 | TAll => 0x01 | TNone => 0x02 | TSingle => 0x03 | TAllAcp => 0x81 | TNoneAcp => 0x82 | TSingleAcp => 0x83 end.
(** :106-122, to_u32 :221 *)
Inductive ecdsa_type := EAll | ENone | ESingle | EAllAcp | ENoneAcp | ESingleAcp.
Definition ecdsa_u32 (t : ecdsa_type) : N :=
  match t with EAll => 0x01 | ENone => 0x02 | ESingle => 0x03 | EAllAcp => 0x81 | ENoneAcp => 0x82 | ESingleAcp => 0x83 end.
(** TapSighashType::from_consensus_u8 :87-98 *)
Definition tap_from_consensus_u8 (n : N) : result tap_type N :=
  if n =? 0x00 then Ok TDefault else if n =? 0x01 then Ok TAll else if n =? 0x02 then Ok TNone else if n =? 0x03 then Ok TSingle
  else if n =? 0x81 then Ok TAllAcp else if n =? 0x82 then Ok TNoneAcp else if n =? 0x83 then Ok TSingleAcp else Err n.
(** is_single :166 *)
Definition is_single (t : ecdsa_type) : bool := match t with ESingle | ESingleAcp => true | _ => false end.
(** from_consensus :178-196 *)
Definition from_consensus (n : N) : ecdsa_type :=
  let m := N.land n (N.lor 0x1f 0x80) in
  if m =? 0x01 then EAll else if m =? 0x02 then ENone else if m =? 0x03 then ESingle
  else if m =? 0x81 then EAllAcp else if m =? 0x82 then ENoneAcp else if m =? 0x83 then ESingleAcp
  else if N.land m 0x80 =? 0x80 then EAllAcp else EAll.
(** from_standard :204-215 *)
Definition from_standard (n : N) : result ecdsa_type N :=
  if n =? 0x01 then Ok EAll else if n =? 0x02 then Ok ENone else if n =? 0x03 then Ok ESingle
  else if n =? 0x81 then Ok EAllAcp else if n =? 0x82 then Ok ENoneAcp else if n =? 0x83 then Ok ESingleAcp else Err n.
(** From<EcdsaSighashType> for TapSighashType :224-236 *)
Definition tap_of_ecdsa (t : ecdsa_type) : tap_type :=
  match t with EAll => TAll | ENone => TNone | ESingle => TSingle | EAllAcp => TAllAcp | ENoneAcp => TNoneAcp | ESingleAcp => TSingleAcp end.
(** Display :46-60, :126-139 *)
Definition tap_display (t : tap_type) : str :=
  match t with
  | TDefault => lit "SIGHASH_DEFAULT" | TAll => lit "SIGHASH_ALL" | TNone => lit "SIGHASH_NONE" | TSingle => lit "SIGHASH_SINGLE"
  | TAllAcp => lit "SIGHASH_ALL|SIGHASH_ANYONECANPAY" | TNoneAcp => lit "SIGHASH_NONE|SIGHASH_ANYONECANPAY" | TSingleAcp => lit "SIGHASH_SINGLE|SIGHASH_ANYONECANPAY"
  end.
Definition ecdsa_display (t : ecdsa_type) : str :=
  match t with
  | EAll => lit "SIGHASH_ALL" | ENone => lit "SIGHASH_NONE" | ESingle => lit "SIGHASH_SINGLE"
  | EAllAcp => lit "SIGHASH_ALL|SIGHASH_ANYONECANPAY" | ENoneAcp => lit "SIGHASH_NONE|SIGHASH_ANYONECANPAY" | ESingleAcp => lit "SIGHASH_SINGLE|SIGHASH_ANYONECANPAY"
  end.
(** FromStr :62-78, :141-156; the error carries the text *)
Definition tap_from_str (s : str) : result tap_type str :=
  if str_eqb s (lit "SIGHASH_DEFAULT") then Ok TDefault else if str_eqb s (lit "SIGHASH_ALL") then Ok TAll
  else if str_eqb s (lit "SIGHASH_NONE") then Ok TNone else if str_eqb s (lit "SIGHASH_SINGLE") then Ok TSingle
  else if str_eqb s (lit "SIGHASH_ALL|SIGHASH_ANYONECANPAY") then Ok TAllAcp else if str_eqb s (lit "SIGHASH_NONE|SIGHASH_ANYONECANPAY") then Ok TNoneAcp
  else if str_eqb s (lit "SIGHASH_SINGLE|SIGHASH_ANYONECANPAY") then Ok TSingleAcp else Err s.
Definition ecdsa_from_str (s : str) : result ecdsa_type str :=
  if str_eqb s (lit "SIGHASH_ALL") then Ok EAll
  else if str_eqb s (lit "SIGHASH_NONE") then Ok ENone else if str_eqb s (lit "SIGHASH_SINGLE") then Ok ESingle
  else if str_eqb s (lit "SIGHASH_ALL|SIGHASH_ANYONECANPAY") then Ok EAllAcp else if str_eqb s (lit "SIGHASH_NONE|SIGHASH_ANYONECANPAY") then Ok ENoneAcp
  else if str_eqb s (lit "SIGHASH_SINGLE|SIGHASH_ANYONECANPAY") then Ok ESingleAcp else Err s.
(** split_anyonecanpay_flag, bitcoin sighash.rs:300-329 *)
Definition ecdsa_split (t : ecdsa_type) : ecdsa_type * bool :=
  match t with EAll => (EAll, false) | ENone => (ENone, false) | ESingle => (ESingle, false) | EAllAcp => (EAll, true) | ENoneAcp => (ENone, true) | ESingleAcp => (ESingle, true) end.
Definition tap_split (t : tap_type) : tap_type * bool :=
  match t with
  | TDefault => (TDefault, false) | TAll => (TAll, false) | TNone => (TNone, false) | TSingle => (TSingle, false)
  | TAllAcp => (TAll, true) | TNoneAcp => (TNone, true) | TSingleAcp => (TSingle, true)
  end.

(** * bitcoin/src/crypto/sighash.rs *)
(** Prevouts :204-215 *)
Inductive prevouts := POne (index : N) (o : txout) | PAll (os : list txout).
(** TaprootError :1114-1129 with the errors it wraps *)
Inductive tap_err := EInputsIndex (index len : N) | ESingleMissing (index len : N) | EPrevoutsSize | EOneIndex | EAllIndex | EPrevoutsKind.
(** the caches :158-199 *)
Record common_cache := mk_common { cm_prevouts : bytes; cm_sequences : bytes; cm_outputs : bytes }.
Record segwit_cache := mk_segwit { sg_prevouts : bytes; sg_sequences : bytes; sg_outputs : bytes }.
Record taproot_cache := mk_taproot { tp_amounts : bytes; tp_scripts : bytes }.
Record cache := mk_cache { sc_tx : transaction; sc_common : option common_cache; sc_segwit : option segwit_cache; sc_taproot : option taproot_cache }.
(** new :337-339 *)
Definition cache_new (tx : transaction) : cache := mk_cache tx None None None.

(** check_all :232-239 *)
Definition check_all (p : prevouts) (tx : transaction) : bool :=
  match p with PAll os => lenN os =? lenN (tx_inputs tx) | POne _ _ => true end.
(** get_all :241-246 *)
Definition get_all (p : prevouts) : result (list txout) tap_err := match p with PAll os => Ok os | POne _ _ => Err EPrevoutsKind end.
(** get :248-261 *)
Definition getN {A} (l : list A) (i : N) : option A := if i <? lenN l then nth_error l (N.to_nat i) else None.
Definition prevouts_get (p : prevouts) (i : N) : result txout tap_err :=
  match p with
  | POne index o => if i =? index then Ok o else Err EOneIndex
  | PAll os => match getN os i with Some o => Ok o | None => Err EAllIndex end
  end.
(** tx_in, blockdata/transaction.rs:431-435; the error is the index and the number of inputs *)
Definition tx_in (tx : transaction) (i : N) : result txin (N * N) :=
  match getN (tx_inputs tx) i with Some x => Ok x | None => Err (i, lenN (tx_inputs tx)) end.
(** Annex::new :930-936: the error is the wrong prefix, or nothing for an empty annex *)
Definition annex_new (a : bytes) : result bytes (option N) :=
  match a with b :: _ => if b =? 0x50 then Ok a else Err (Some b) | [] => Err None end.

Section Hash.
  Variable H : bytes -> bytes.
  (** sha256t engine of a tag: hashes/src/sha256t/mod.rs *)
  Definition tag_hash (tag m : bytes) : bytes := H (H tag ++ H tag ++ m).
  Definition TAP_SIGHASH : bytes := lit "TapSighash".
  Definition TAP_LEAF : bytes := lit "TapLeaf".
  (** sha256d: hashes/src/sha256d, and hash_again: hashes/src/sha256/mod.rs *)
  Definition Hd (m : bytes) : bytes := H (H m).
  (** ScriptPath::leaf_hash :274-283 *)
  Definition leaf_hash (version : N) (script : bytes) : bytes := tag_hash TAP_LEAF ([version] ++ script_encode script).

  (** common_cache :828-855 *)
  Definition compute_common (tx : transaction) : common_cache :=
    mk_common (H (flat_map (fun i => outpoint_encode (ti_prevout i)) (tx_inputs tx)))
              (H (flat_map (fun i => le_bytes 4 (ti_sequence i)) (tx_inputs tx)))
              (H (flat_map txout_encode (tx_outputs tx))).
  Definition get_common (c : cache) : cache * common_cache :=
    match sc_common c with
    | Some cc => (c, cc)
    | None => let cc := compute_common (sc_tx c) in (mk_cache (sc_tx c) (Some cc) (sc_segwit c) (sc_taproot c), cc)
    end.
  (** segwit_cache :857-868 *)
  Definition get_segwit (c : cache) : cache * segwit_cache :=
    match sc_segwit c with
    | Some sg => (c, sg)
    | None =>
        let '(c, cc) := get_common c in
        let sg := mk_segwit (H (cm_prevouts cc)) (H (cm_sequences cc)) (H (cm_outputs cc)) in
        (mk_cache (sc_tx c) (sc_common c) (Some sg) (sc_taproot c), sg)
    end.
  (** taproot_cache :870-886: the prevouts of the first call are the ones that count *)
  Definition get_taproot (c : cache) (os : list txout) : cache * taproot_cache :=
    match sc_taproot c with
    | Some tp => (c, tp)
    | None =>
        let tp := mk_taproot (H (flat_map (fun o => le_bytes 8 (to_amount o)) os)) (H (flat_map (fun o => script_encode (to_script o)) os)) in
        (mk_cache (sc_tx c) (sc_common c) (sc_segwit c) (Some tp), tp)
    end.

  (** a step of an encoding function: it may fill the caches, writes bytes and may fail *)
  Definition step (E : Type) : Type := cache -> cache * bytes * result unit E.
  Definition then_ {E} (a b : step E) : step E := fun c =>
    let '(c1, w1, r1) := a c in
    match r1 with Err e => (c1, w1, Err e) | Ok _ => let '(c2, w2, r2) := b c1 in (c2, w1 ++ w2, r2) end.
  Definition write {E} (w : bytes) : step E := fun c => (c, w, Ok tt).
  Definition skip {E} : step E := write [].
  Definition fail {E} (e : E) : step E := fun c => (c, [], Err e).
  Definition write_common {E} (f : common_cache -> bytes) : step E := fun c => let '(c, cc) := get_common c in (c, f cc, Ok tt).
  Definition write_segwit {E} (f : segwit_cache -> bytes) : step E := fun c => let '(c, cc) := get_segwit c in (c, f cc, Ok tt).
  Definition write_taproot (p : prevouts) (f : taproot_cache -> bytes) : step tap_err := fun c =>
    match get_all p with Err e => (c, [], Err e) | Ok os => let '(c, tp) := get_taproot c os in (c, f tp, Ok tt) end.

  (** taproot_encode_signing_data_to :353-481 *)
  Definition tap_tx_in (tx : transaction) (i : N) : result txin tap_err :=
    match tx_in tx i with Ok x => Ok x | Err (a, b) => Err (EInputsIndex a b) end.
  Definition tap_single_or_none (t : tap_type) : bool := match t with TNone | TSingle => true | _ => false end.
  Definition tap_encode (i : N) (p : prevouts) (annex : option bytes) (leaf : option (bytes * N)) (ty : tap_type) : step tap_err := fun c =>
    let tx := sc_tx c in
    if negb (check_all p tx) then (c, [], Err EPrevoutsSize) else
    let '(sighash, acp) := tap_split ty in
    then_ (write ([0] ++ [tap_u8 ty] ++ le_bytes 4 (tx_version tx) ++ le_bytes 4 (tx_lock_time tx)))
   (then_ (if negb acp then
             then_ (write_common cm_prevouts) (then_ (write_taproot p tp_amounts) (then_ (write_taproot p tp_scripts) (write_common cm_sequences)))
           else skip)
   (then_ (if negb (tap_single_or_none sighash) then write_common cm_outputs else skip)
   (then_ (write [N.lor (match annex with Some _ => 1 | None => 0 end) (match leaf with Some _ => 2 | None => 0 end)])
   (then_ (if acp then
             match tap_tx_in tx i with Err e => fail e | Ok txin =>
             match prevouts_get p i with Err e => fail e | Ok o =>
               write (outpoint_encode (ti_prevout txin) ++ le_bytes 8 (to_amount o) ++ script_encode (to_script o) ++ le_bytes 4 (ti_sequence txin))
             end end
           else write (le_bytes 4 (i mod 2 ^ 32)))
   (then_ (match annex with Some a => write (H (cs_encode (lenN a) ++ a)) | None => skip end)
   (then_ (match sighash with
           | TSingle => match getN (tx_outputs tx) i with Some o => write (H (txout_encode o)) | None => fail (ESingleMissing i (lenN (tx_outputs tx))) end
           | _ => skip
           end)
          (match leaf with Some (h, pos) => write (h ++ [0] ++ le_bytes 4 pos) | None => skip end))))))) c.
  (** taproot_signature_hash :484-504 *)
  Definition tap_hash (c : cache) (i : N) (p : prevouts) (annex : option bytes) (leaf : option (bytes * N)) (ty : tap_type) : cache * result bytes tap_err :=
    let '(c, w, r) := tap_encode i p annex leaf ty c in
    (c, match r with Ok _ => Ok (tag_hash TAP_SIGHASH w) | Err e => Err e end).
  (** taproot_key_spend_signature_hash :507-525, taproot_script_spend_signature_hash :531-550 *)
  Definition tap_key_hash (c : cache) (i : N) (p : prevouts) (ty : tap_type) := tap_hash c i p None None ty.
  Definition tap_script_hash (c : cache) (i : N) (p : prevouts) (leaf : bytes) (ty : tap_type) := tap_hash c i p None (Some (leaf, 0xFFFFFFFF)) ty.

  (** segwit_v0_encode_signing_data_to :562-615 *)
  Definition zero_hash : bytes := repeat 0 32.
  Definition ecdsa_single_or_none (t : ecdsa_type) : bool := match t with ENone | ESingle => true | _ => false end.
  Definition segwit_encode (i : N) (script_code : bytes) (amount : N) (ty : ecdsa_type) : step (N * N) := fun c =>
    let tx := sc_tx c in
    let '(sighash, acp) := ecdsa_split ty in
    then_ (write (le_bytes 4 (tx_version tx)))
   (then_ (if negb acp then write_segwit sg_prevouts else write zero_hash)
   (then_ (if negb acp && negb (ecdsa_single_or_none sighash) then write_segwit sg_sequences else write zero_hash)
   (then_ (match tx_in tx i with Err e => fail e | Ok txin =>
             write (outpoint_encode (ti_prevout txin) ++ script_encode script_code ++ le_bytes 8 amount ++ le_bytes 4 (ti_sequence txin)) end)
   (then_ (if negb (ecdsa_single_or_none sighash) then write_segwit sg_outputs
           else match (if is_single sighash && (i <? lenN (tx_outputs tx)) then getN (tx_outputs tx) i else None) with
                | Some o => write (Hd (txout_encode o))
                | None => write zero_hash
                end)
          (write (le_bytes 4 (tx_lock_time tx) ++ le_bytes 4 (ecdsa_u32 ty))))))) c.
  (** p2wsh_signature_hash :646-663 *)
  Definition p2wsh_hash (c : cache) (i : N) (script : bytes) (amount : N) (ty : ecdsa_type) : cache * result bytes (N * N) :=
    let '(c, w, r) := segwit_encode i script amount ty c in
    (c, match r with Ok _ => Ok (Hd w) | Err e => Err e end).
  (** p2wpkh_signature_hash :621-640; NotP2wpkhScript is None *)
  Definition p2wpkh_hash (c : cache) (i : N) (spk : bytes) (amount : N) (ty : ecdsa_type) : rust (cache * result bytes (option (N * N))) :=
    rbind (p2wpkh_script_code spk) (fun code =>
    Ret match code with
    | None => (c, Err None)
    | Some code =>
        let '(c, w, r) := segwit_encode i code amount ty c in
        (c, match r with Ok _ => Ok (Hd w) | Err e => Err (Some e) end)
    end).

  (** is_invalid_use_of_sighash_single :942-945 *)
  Definition invalid_single (ty i outs : N) : bool := is_single (from_consensus ty) && (outs <=? i).
  (** legacy_encode_signing_data_to :687-789.  EncodeSigningDataResult :955-960 is: an error, the bug, or the data. *)
  Inductive legacy_result := LErr (e : N * N) | LBug | LData (w : bytes).
  Fixpoint legacy_inputs (n i : N) (spk : bytes) (keep : bool) (ins : list txin) : bytes :=
    match ins with
    | [] => []
    | x :: ins' =>
        outpoint_encode (ti_prevout x) ++ (if n =? i then script_encode spk else script_encode []) ++
        (if negb (n =? i) && negb keep then le_bytes 4 0 else le_bytes 4 (ti_sequence x)) ++ legacy_inputs (n + 1) i spk keep ins'
    end.
  Definition index {A} (l : list A) (i : N) : rust A := match getN l i with Some x => Ret x | None => Panic end.
  Definition legacy_inner (tx : transaction) (i : N) (spk : bytes) (ty : N) : rust bytes :=
    let '(sighash, acp) := ecdsa_split (from_consensus ty) in
    rbind (if acp then
             rbind (index (tx_inputs tx) i) (fun x => Ret (cs_encode 1 ++ outpoint_encode (ti_prevout x) ++ script_encode spk ++ le_bytes 4 (ti_sequence x)))
           else Ret (cs_encode (lenN (tx_inputs tx)) ++ legacy_inputs 0 i spk (negb (ecdsa_single_or_none sighash)) (tx_inputs tx))) (fun w_in =>
    rbind (match sighash with
           | EAll => Ret (cs_encode (lenN (tx_outputs tx)) ++ flat_map txout_encode (tx_outputs tx))
           | ESingle =>
               rbind (if 1 <=? lenN (tx_outputs tx) then Ret (lenN (tx_outputs tx) - 1) else Panic) (fun last =>
               let count := N.min i last in
               rbind (index (tx_outputs tx) count) (fun o =>
               Ret (cs_encode (count + 1) ++ concat (repeat [255; 255; 255; 255; 255; 255; 255; 255; 0] (N.to_nat count)) ++ txout_encode o)))
           | ENone => Ret (cs_encode 0)
           | _ => Panic
           end) (fun w_out =>
    Ret (le_bytes 4 (tx_version tx) ++ w_in ++ w_out ++ le_bytes 4 (tx_lock_time tx) ++ le_bytes 4 ty))).
  Definition legacy_encode (tx : transaction) (i : N) (spk : bytes) (ty : N) : rust legacy_result :=
    match tx_in tx i with
    | Err e => Ret (LErr e)
    | Ok _ => if invalid_single ty i (lenN (tx_outputs tx)) then Ret LBug else rbind (legacy_inner tx i spk ty) (fun w => Ret (LData w))
    end.
  (** UINT256_ONE :46-51; legacy_signature_hash :810-825 *)
  Definition UINT256_ONE : bytes := 1 :: repeat 0 31.
  Definition legacy_hash (c : cache) (i : N) (spk : bytes) (ty : N) : rust (result bytes (N * N)) :=
    rbind (legacy_encode (sc_tx c) i spk ty) (fun r =>
    Ret match r with LErr e => Err e | LBug => Ok UINT256_ONE | LData w => Ok (Hd w) end).

  (** witness_mut :919-921 followed by an assignment through the reference *)
  Fixpoint put_witness (ins : list txin) (i : nat) (w : witness) : list txin :=
    match ins, i with
    | [], _ => []
    | x :: ins', O => {| ti_prevout := ti_prevout x; ti_script := ti_script x; ti_sequence := ti_sequence x; ti_witness := w |} :: ins'
    | x :: ins', S i' => x :: put_witness ins' i' w
    end.
  Definition cache_put_witness (c : cache) (i : N) (w : witness) : cache :=
    let tx := sc_tx c in
    mk_cache {| tx_version := tx_version tx; tx_lock_time := tx_lock_time tx; tx_inputs := put_witness (tx_inputs tx) (N.to_nat (N.min i (lenN (tx_inputs tx)))) w; tx_outputs := tx_outputs tx |}
      (sc_common c) (sc_segwit c) (sc_taproot c).

  (** histories of calls on one cache *)
  Inductive call :=
  | CTap (i : N) (p : prevouts) (annex : option bytes) (leaf : option (bytes * N)) (ty : tap_type)
  | CSegwit (i : N) (script : bytes) (amount : N) (ty : ecdsa_type)
  | CP2wpkh (i : N) (spk : bytes) (amount : N) (ty : ecdsa_type)
  | CLegacy (i : N) (spk : bytes) (ty : N)
  | CWitness (i : N) (w : witness).
  Inductive answer :=
  | ATap (r : result bytes tap_err)
  | ASegwit (r : result bytes (N * N))
  | AP2wpkh (r : result bytes (option (N * N)))
  | ALegacy (r : result bytes (N * N))
  | AWitness.
  Definition do_call (c : cache) (k : call) : rust (cache * answer) :=
    match k with
    | CTap i p a l ty => let '(c, r) := tap_hash c i p a l ty in Ret (c, ATap r)
    | CSegwit i s am ty => let '(c, r) := p2wsh_hash c i s am ty in Ret (c, ASegwit r)
    | CP2wpkh i s am ty => rbind (p2wpkh_hash c i s am ty) (fun '(c, r) => Ret (c, AP2wpkh r))
    | CLegacy i s ty => rbind (legacy_hash c i s ty) (fun r => Ret (c, ALegacy r))
    | CWitness i w => Ret (cache_put_witness c i w, AWitness)
    end.
  Fixpoint do_calls (c : cache) (ks : list call) : rust (cache * list answer) :=
    match ks with
    | [] => Ret (c, [])
    | k :: ks => rbind (do_call c k) (fun '(c, a) => rbind (do_calls c ks) (fun '(c, l) => Ret (c, a :: l)))
    end.
End Hash.
