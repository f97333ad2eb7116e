(** Signatures with their sighash types: crypto/src/ecdsa.rs and crypto/src/taproot.rs.  The DER encoding of an ECDSA signature is
    libsecp256k1's: it is a parameter.  A Schnorr signature is its 64 bytes.
    Not modelled: Debug, serde, the comparison and borrowing traits of the serialised forms (they all go through the bytes). *)
From Coq Require Import String.
From Verif Require Import Base MDec MText MBip32 MKey MSighash.
Local Open Scope N_scope.

(** a buffer and how much of it is used: ecdsa.rs:140-143, taproot.rs:162-165; deref ecdsa.rs:280, taproot.rs:326 (slicing past the end panics) *)
Record serialized := mk_ser { ss_data : bytes; ss_len : N }.
Definition ss_bytes (s : serialized) : rust bytes := if ss_len s <=? lenN (ss_data s) then Ret (takeN (ss_len s) (ss_data s)) else Panic.

(** * ECDSA *)
Record ecurve := mk_ecurve { ec_sig : Type; ec_der : ec_sig -> bytes; ec_from_der : bytes -> option ec_sig }.
Section Ecdsa.
  Variable C : ecurve.
  (** Signature :45-50; sighash_all :55-57 *)
  Record esig := mk_esig { es_sig : ec_sig C; es_type : ecdsa_type }.
  Definition sighash_all (s : ec_sig C) : esig := mk_esig s EAll.
  (** from_slice :65-72 *)
  Inductive es_err := EsSighashType (n : N) | EsEmpty | EsInvalidDer.
  Definition es_from_slice (sl : bytes) : result esig es_err :=
    match rev sl with
    | [] => Err EsEmpty
    | ty :: front =>
        match from_standard ty with
        | Err n => Err (EsSighashType n)
        | Ok ty => match ec_from_der C (rev front) with None => Err EsInvalidDer | Some s => Ok (mk_esig s ty) end
        end
    end.
  (** MAX_SIG_LEN :40; `sighash_type as u8` *)
  Definition MAX_SIG_LEN : N := 73.
  Definition ecdsa_as_u8 (t : ecdsa_type) : N := ecdsa_u32 t mod 256.
  (** serialize :78-84 *)
  Definition es_serialize (s : esig) : rust serialized :=
    let buf := repeat 0 (N.to_nat MAX_SIG_LEN) in
    let signature := ec_der C (es_sig s) in
    rbind (copy_range 0 (lenN signature) signature buf) (fun buf =>
    rbind (copy_range (lenN signature) (lenN signature + 1) [ecdsa_as_u8 (es_type s)] buf) (fun buf =>
    Ret (mk_ser buf (lenN signature + 1)))).
  (** to_vec :91-98 *)
  Definition es_to_vec (s : esig) : bytes := ec_der C (es_sig s) ++ [ecdsa_as_u8 (es_type s)].
  (** SerializedSignature::to_signature :162 *)
  Definition es_to_signature (s : serialized) : rust (result esig es_err) := rbind (ss_bytes s) (fun b => Ret (es_from_slice b)).
  (** LowerHex / UpperHex :104-117, 201-218 *)
  Definition es_display (upper : bool) (s : esig) : rust str := rbind (es_serialize s) (fun x => rbind (ss_bytes x) (fun b => Ret (hex_bytes upper b))).
  (** FromStr :121-129 *)
  Inductive es_parse_err := EpHex (e : hex_array_err) | EpDecode (e : es_err).
  Definition es_from_str (s : str) : result esig es_parse_err :=
    match decode_to_vec s with
    | Err e => Err (EpHex e)
    | Ok b => match es_from_slice b with Ok x => Ok x | Err e => Err (EpDecode e) end
    end.
End Ecdsa.

(** * Taproot *)
(** Signature :39-44 *)
Record tsig := mk_tsig { ts_sig : bytes; ts_type : tap_type }.
Definition is_tdefault (t : tap_type) : bool := match t with TDefault => true | _ => false end.
(** from_slice :54-73 *)
Inductive ts_err := TsSighashType (n : N) | TsSize (n : N).
Definition ts_from_slice (sl : bytes) : rust (result tsig ts_err) :=
  if lenN sl =? 64 then Ret (Ok (mk_tsig sl TDefault))
  else if lenN sl =? 65 then
    match rev sl with
    | [] => Panic
    | ty :: front =>
        match tap_from_consensus_u8 ty with
        | Err n => Ret (Err (TsSighashType n))
        | Ok ty => if is_tdefault ty then Ret (Err (TsSighashType 0)) else Ret (Ok (mk_tsig (rev front) ty))
        end
    end
  else Ret (Err (TsSize (lenN sl))).
(** MAX_LEN :34; from_raw_parts :215-218; serialize :80-92 *)
Definition TAP_MAX_LEN : N := 65.
Definition from_raw_parts (data : bytes) (len : N) : rust serialized := if len <=? TAP_MAX_LEN then Ret (mk_ser data len) else Panic.
Definition ts_serialize (s : tsig) : rust serialized :=
  let buf := repeat 0 (N.to_nat TAP_MAX_LEN) in
  rbind (copy_range 0 64 (ts_sig s) buf) (fun buf =>
  if is_tdefault (ts_type s) then from_raw_parts buf 64
  else rbind (copy_range 64 65 [tap_u8 (ts_type s)] buf) (fun buf => from_raw_parts buf 65)).
(** to_vec :99-106 *)
Definition ts_to_vec (s : tsig) : bytes := if is_tdefault (ts_type s) then ts_sig s else ts_sig s ++ [tap_u8 (ts_type s)].
(** to_signature :182-184 *)
Definition ts_to_signature (s : serialized) : rust (result tsig ts_err) := rbind (ss_bytes s) ts_from_slice.
(** fmt_internal :201-207: fmt_hex_exact! with a length other than that of the bytes panics *)
Definition ts_fmt (upper : bool) (s : serialized) : rust str :=
  rbind (ss_bytes s) (fun b =>
  if negb (ss_len s =? TAP_MAX_LEN) then (if lenN b =? TAP_MAX_LEN - 1 then Ret (hex_bytes upper b) else Panic)
  else (if lenN b =? TAP_MAX_LEN then Ret (hex_bytes upper b) else Panic)).
Definition ts_display (upper : bool) (s : tsig) : rust str := rbind (ts_serialize s) (ts_fmt upper).
(** FromStr :134-154 *)
Inductive ts_parse_err := TpLength (n : N) | TpInvalidChar | TpDecode (e : ts_err).
Definition ts_from_str (s : str) : rust (result tsig ts_parse_err) :=
  let dec b := rbind (ts_from_slice b) (fun r => Ret (match r with Ok x => Ok x | Err e => Err (TpDecode e) end)) in
  match decode_to_array 64 s with
  | Ok b => dec b
  | Err HxInvalidChar => Ret (Err TpInvalidChar)
  | Err (HxInvalidLength _) =>
      match decode_to_array 65 s with
      | Ok b => dec b
      | Err HxInvalidChar => Ret (Err TpInvalidChar)
      | Err (HxInvalidLength _) => Ret (Err (TpLength (str_len s)))
      end
  end.

(** * The owning iterator over the bytes *)
(** IntoIter :376-390 *)
Record into_iter := mk_iter { it_sig : serialized; it_pos : N }.
Definition iter_new (s : serialized) : into_iter := mk_iter s 0.
(** as_slice :396 *)
Definition iter_as_slice (i : into_iter) : rust bytes :=
  rbind (ss_bytes (it_sig i)) (fun b => if it_pos i <=? lenN b then Ret (dropN (it_pos i) b) else Panic).
(** next :403-408 *)
Definition iter_next (i : into_iter) : rust (option N * into_iter) :=
  rbind (ss_bytes (it_sig i)) (fun b =>
  match nth_error b (N.to_nat (it_pos i)) with
  | None => Ret (None, i)
  | Some x => Ret (Some x, mk_iter (it_sig i) (it_pos i + 1))
  end).
(** size_hint :411-415; len is ExactSizeIterator's *)
Definition iter_len (i : into_iter) : rust N := if it_pos i <=? ss_len (it_sig i) then Ret (ss_len (it_sig i) - it_pos i) else Panic.
(** nth :419-430 *)
Definition iter_nth (i : into_iter) (n : N) : rust (option N * into_iter) :=
  rbind (iter_len i) (fun len =>
  if len <=? n then Ret (None, mk_iter (it_sig i) (ss_len (it_sig i)))
  else if it_pos i + n <? 2 ^ 64 then iter_next (mk_iter (it_sig i) (it_pos i + n)) else Panic).
(** next_back :439-450; set_len_unchecked :222 *)
Definition iter_next_back (i : into_iter) : rust (option N * into_iter) :=
  if it_pos i =? ss_len (it_sig i) then Ret (None, i)
  else if ss_len (it_sig i) =? 0 then Panic
  else
    let new_len := ss_len (it_sig i) - 1 in
    rbind (ss_bytes (it_sig i)) (fun b =>
    match nth_error b (N.to_nat new_len) with
    | None => Panic
    | Some x => Ret (Some x, mk_iter (mk_ser (ss_data (it_sig i)) new_len) (it_pos i))
    end).
