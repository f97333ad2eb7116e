(** Signed messages: bitcoin/src/sign_message.rs.  Recoverable signatures are libsecp256k1's: they are a parameter (record [rcurve]).
    The base64 crate is a dependency, not in /repo: its standard engine (RFC 4648 alphabet, padding required, no stray bits) is modelled
    from its documentation.  Not modelled: Debug and the error texts. *)
From Coq Require Import String.
From Verif Require Import Base MDec MWitness MText MTx MP2p MBip32 MKey MAddress.
Local Open Scope N_scope.

(** * base64, standard engine *)
Definition b64_sym (d : N) : N :=
  if d <? 26 then 65 + d else if d <? 52 then 97 + (d - 26) else if d <? 62 then 48 + (d - 52) else if d =? 62 then 43 else 47.
Definition b64_val (c : N) : option N :=
  if (65 <=? c) && (c <=? 90) then Some (c - 65) else if (97 <=? c) && (c <=? 122) then Some (c - 97 + 26)
  else if (48 <=? c) && (c <=? 57) then Some (c - 48 + 52) else if c =? 43 then Some 62 else if c =? 47 then Some 63 else None.
Definition PAD : N := 61.
Fixpoint b64_encode (b : bytes) : str :=
  match b with
  | [] => []
  | [x] => [b64_sym (x / 4); b64_sym (x mod 4 * 16); PAD; PAD]
  | [x; y] => [b64_sym (x / 4); b64_sym (x mod 4 * 16 + y / 16); b64_sym (y mod 16 * 4); PAD]
  | x :: y :: z :: r => b64_sym (x / 4) :: b64_sym (x mod 4 * 16 + y / 16) :: b64_sym (y mod 16 * 4 + z / 64) :: b64_sym (z mod 64) :: b64_encode r
  end.
Definition b64_three (v1 v2 v3 v4 : N) : bytes := [v1 * 4 + v2 / 16; v2 mod 16 * 16 + v3 / 4; v3 mod 4 * 64 + v4].
Definition b64_last (c1 c2 c3 c4 : N) : option bytes :=
  match b64_val c1, b64_val c2 with
  | Some v1, Some v2 =>
      if c4 =? PAD then
        if c3 =? PAD then if v2 mod 16 =? 0 then Some [v1 * 4 + v2 / 16] else None
        else match b64_val c3 with
             | Some v3 => if v3 mod 4 =? 0 then Some [v1 * 4 + v2 / 16; v2 mod 16 * 16 + v3 / 4] else None
             | None => None
             end
      else match b64_val c3, b64_val c4 with Some v3, Some v4 => Some (b64_three v1 v2 v3 v4) | _, _ => None end
  | _, _ => None
  end.
Fixpoint b64_decode (s : list N) : option bytes :=
  match s with
  | [] => Some []
  | [c1; c2; c3; c4] => b64_last c1 c2 c3 c4
  | c1 :: c2 :: c3 :: c4 :: r =>
      match b64_val c1, b64_val c2, b64_val c3, b64_val c4, b64_decode r with
      | Some v1, Some v2, Some v3, Some v4, Some b => Some (b64_three v1 v2 v3 v4 ++ b)
      | _, _, _, _, _ => None
      end
  | _ => None
  end.
(** Engine::decode_slice_unchecked: panics when the output does not fit *)
Definition b64_decode_slice (s : str) (room : N) : rust (option bytes) :=
  match b64_decode (as_bytes s) with
  | None => Ret None
  | Some b => if lenN b <=? room then Ret (Some b) else Panic
  end.

(** * Recoverable signatures of libsecp256k1: from_compact, serialize_compact, recover_ecdsa, sign_ecdsa_recoverable *)
Record rcurve (C : kcurve) := mk_rcurve {
  rc_sig : Type; rc_parse : bytes -> N -> option rc_sig; rc_ser : rc_sig -> N * bytes;
  rc_recover : rc_sig -> bytes -> option (kc_point C); rc_sign : bytes -> N -> rc_sig }.
Inductive secp_err := SeRecoveryId | SeSignature | SeRecover.
(** MessageSignatureError :202-211 *)
Inductive ms_err := MsLength | MsEncoding (e : secp_err) | MsBase64 | MsAddressType (t : address_type).

(** :23 *)
Definition BITCOIN_SIGNED_MSG_PREFIX : bytes := 24 :: lit "Bitcoin Signed Message:" ++ [10].

Section Message.
  Variable sha256d : bytes -> bytes.
  Variable hash160 : bytes -> bytes.
  Variable C : kcurve.
  Variable R : rcurve C.
  (** :40-45 *)
  Record msg_sig := mk_ms { ms_signature : rc_sig C R; ms_compressed : bool }.
  (** serialize :54-60 *)
  Definition ms_serialize (m : msg_sig) : rust bytes :=
    let '(recid, raw) := rc_ser C R (ms_signature m) in
    let first := recid + (if ms_compressed m then 31 else 27) in
    if 255 <? first then Panic else copy_range 1 65 raw (first :: repeat 0 64).
  (** from_byte_array :63-73; RecoveryId::try_from refuses what is not 0..3 *)
  Definition ms_from_byte_array (b : bytes) : rust (result msg_sig secp_err) :=
    match b with
    | [] => Panic
    | first :: rest =>
        if first <? 27 then Ret (Err SeRecoveryId)
        else
          let recid := N.land (first - 27) 3 in
          if 3 <? recid then Ret (Err SeRecoveryId)
          else match rc_parse C R rest recid with
               | None => Ret (Err SeSignature)
               | Some s => Ret (Ok (mk_ms s (negb (N.land (first - 27) 4 =? 0))))
               end
    end.
  Definition ms_lift (r : rust (result msg_sig secp_err)) : rust (result msg_sig ms_err) :=
    rbind r (fun x => Ret match x with Ok m => Ok m | Err e => Err (MsEncoding e) end).
  (** from_slice :77-81 *)
  Definition ms_from_slice (b : bytes) : rust (result msg_sig ms_err) :=
    if lenN b =? 65 then ms_lift (ms_from_byte_array b) else Ret (Err MsLength).
  (** recover_pubkey :86-96 *)
  Definition ms_recover_pubkey (m : msg_sig) (msg_hash : bytes) : result (legacy C) ms_err :=
    match rc_recover C R (ms_signature m) msg_hash with
    | None => Err (MsEncoding SeRecover)
    | Some p => Ok (if ms_compressed m then mk_legacy C true p else mk_legacy C false p)
    end.
  (** is_signed_by_address :101-115 *)
  Definition opt_beqb (a b : option bytes) : bool := match a, b with Some x, Some y => beqb x y | None, None => true | _, _ => false end.
  Definition ms_is_signed_by_address (m : msg_sig) (a : address) (msg_hash : bytes) : result bool ms_err :=
    match type_of a with
    | Some TyP2pkh =>
        match ms_recover_pubkey m msg_hash with
        | Err e => Err e
        | Ok k => Ok (opt_beqb (pubkey_hash_of a) (Some (lk_pubkey_hash hash160 C k)))
        end
    | Some t => Err (MsAddressType t)
    | None => Ok false
    end.
  (** from_base64 :129-144, FromStr :160 *)
  Definition ms_from_base64 (s : str) : rust (result msg_sig ms_err) :=
    if negb (str_len s =? 88) then Ret (Err MsLength)
    else rbind (b64_decode_slice s 66) (fun o =>
    match o with
    | None => Ret (Err MsBase64)
    | Some b =>
        if negb (lenN b =? 65) then Ret (Err MsLength)
        else ms_lift (ms_from_byte_array (takeN 65 (b ++ repeat 0 1)))
    end).
  (** to_base64 :147, Display :151-155 *)
  Definition ms_to_base64 (m : msg_sig) : rust str := rbind (ms_serialize m) (fun b => Ret (b64_encode b)).
  (** signed_msg_hash :166-173; the engine hashes what is fed to it, in order *)
  Definition signed_msg_hash (msg : bytes) : bytes := sha256d (BITCOIN_SIGNED_MSG_PREFIX ++ cs_encode (lenN msg) ++ msg).
  (** sign :177-187 *)
  Definition ms_sign (msg : bytes) (k : private) : rust msg_sig :=
    let msg_hash := signed_msg_hash msg in
    match from_secret_bytes C (to_secret_bytes k) with
    | None => Panic
    | Some sk => Ret (mk_ms (rc_sign C R msg_hash (pk_key sk)) (pk_compressed k))
    end.
End Message.
