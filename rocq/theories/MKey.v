(** Keys: crypto/src/key.rs.  Curve arithmetic is libsecp256k1's: it is a parameter (record [kcurve]); secret keys are numbers.
    The hex crate is a dependency, not in /repo.  A text is its list of characters.
    Not modelled: generate, signing and verification, Keypair, serde, Debug, non_secure_erase. *)
From Coq Require Import String.
From Verif Require Import Base MDec MText MHash2 MBip32 MBase58 MP2p.
Local Open Scope N_scope.

(** * Hexadecimal *)
(** hex_conservative: decode_to_vec (decode_to_array and the lower case display are in MText.v) *)
Definition decode_to_vec (s : str) : result bytes hex_array_err :=
  if negb (str_len s mod 2 =? 0) then Err (HxInvalidLength (str_len s))
  else match hex_pairs s with Some b => Ok b | None => Err HxInvalidChar end.

(** * Curve *)
(** libsecp256k1: the order of the group, the public key of a secret key, the compressed and uncompressed serialisations,
    PublicKey::from_slice, and the x coordinate with the oddness of y *)
Record kcurve := mk_kcurve {
  kc_order : N; kc_point : Type; kc_mul : N -> kc_point; kc_ser33 : kc_point -> bytes; kc_ser65 : kc_point -> bytes;
  kc_parse : bytes -> option kc_point; kc_xonly : kc_point -> bytes * bool }.

Section Keys.
  Variable hash160 : bytes -> bytes.
  Variable sha256d : bytes -> bytes.
  Variable C : kcurve.
  (** * Public keys *)
  (** LegacyPublicKey :127-132; from_secp :137, from_secp_uncompressed :144 *)
  Record legacy := mk_legacy { lk_compressed : bool; lk_point : kc_point C }.
  (** with_compressedness :153-155 *)
  Definition with_compressedness (k : legacy) (c : bool) : legacy := mk_legacy c (lk_point k).
  (** serialize :649-655 *)
  Definition lk_serialize (k : legacy) : bytes := if lk_compressed k then kc_ser33 C (lk_point k) else kc_ser65 C (lk_point k).
  (** pubkey_hash :680, wpubkey_hash :688-696 *)
  Definition lk_pubkey_hash (k : legacy) : bytes := hash160 (lk_serialize k).
  Definition lk_wpubkey_hash (k : legacy) : option bytes := if lk_compressed k then Some (hash160 (kc_ser33 C (lk_point k))) else None.
  (** from_slice :781-804 *)
  Inductive slice_err := InvalidKeyPrefix (b : N) | InvalidPublicKey | InvalidLength (n : N).
  Definition lk_from_slice (data : bytes) : rust (result legacy slice_err) :=
    let go (compressed : bool) :=
      match data with
      | [] => Panic
      | b :: _ =>
          if (if compressed then (b =? 2) || (b =? 3) else b =? 4) then
            match kc_parse C data with
            | None => Ret (Err InvalidPublicKey)
            | Some p => Ret (Ok (mk_legacy compressed p))
            end
          else Ret (Err (InvalidKeyPrefix b))
      end in
    if lenN data =? 33 then go true else if lenN data =? 65 then go false else Ret (Err (InvalidLength (lenN data))).
  (** FromStr :832-858; Display :871-874 *)
  Inductive parse_key_err := PkEncoding (e : slice_err) | PkInvalidChar | PkInvalidHexLength (n : N).
  Definition lk_from_str (s : str) : rust (result legacy parse_key_err) :=
    let len := str_len s in
    let go n :=
      match decode_to_array n s with
      | Err HxInvalidChar => Ret (Err PkInvalidChar)
      | Err (HxInvalidLength _) => Panic
      | Ok b => rbind (lk_from_slice b) (fun r => Ret (match r with Ok k => Ok k | Err e => Err (PkEncoding e) end))
      end in
    if len =? 66 then go 33 else if len =? 130 then go 65 else Ret (Err (PkInvalidHexLength len)).
  Definition lk_display (k : legacy) : str := hex_bytes false (lk_serialize k).
  (** FullPublicKey :170 is a point: to_bytes :941, from_bytes :965-969, pubkey_hash :926, wpubkey_hash :930,
      FromStr :997-1005, Display :1026-1029; TryFrom<LegacyPublicKey> :1011-1017, From<FullPublicKey> :867; force_compressed :703 *)
  Definition full := kc_point C.
  Definition fk_to_bytes (k : full) : bytes := kc_ser33 C k.
  Definition fk_from_bytes (b : bytes) : option full := kc_parse C b.
  Definition fk_pubkey_hash (k : full) : bytes := hash160 (fk_to_bytes k).
  Inductive parse_full_err := FkHex (e : hex_array_err) | FkInvalid.
  Definition fk_from_str (s : str) : result full parse_full_err :=
    match decode_to_array 33 s with
    | Err e => Err (FkHex e)
    | Ok b => match fk_from_bytes b with Some k => Ok k | None => Err FkInvalid end
    end.
  Definition fk_display (k : full) : str := hex_bytes false (fk_to_bytes k).
  Definition full_of_legacy (k : legacy) : option full := if lk_compressed k then Some (lk_point k) else None.
  Definition legacy_of_full (k : full) : legacy := mk_legacy true k.
  (** SortKey :768-771, 877: the order of the serializations *)
  Fixpoint bytes_cmp (a b : bytes) : comparison :=
    match a, b with
    | [], [] => Eq
    | [], _ => Lt
    | _, [] => Gt
    | x :: a, y :: b => match N.compare x y with Eq => bytes_cmp a b | c => c end
    end.
  Definition sort_key_cmp (a b : legacy) : comparison := bytes_cmp (lk_serialize a) (lk_serialize b).
  (** XOnlyPublicKey :65-68, From<secp256k1::PublicKey> :483-489; serialize :405-407 *)
  Definition xonly_of_legacy (k : legacy) : bytes * bool := kc_xonly C (lk_point k).

  (** * Private keys *)
  (** PrivateKey :185-191 *)
  Record private := mk_private { pk_compressed : bool; pk_key : N }.
  (** secp256k1::SecretKey::from_secret_bytes *)
  Definition secret_ok (k : N) : bool := (0 <? k) && (k <? kc_order C).
  (** from_secret_bytes :1103-1107, to_secret_bytes :1094 *)
  Definition from_secret_bytes (b : bytes) : option private := if secret_ok (be_val b) then Some (mk_private true (be_val b)) else None.
  Definition to_secret_bytes (k : private) : bytes := be_bytes 32 (pk_key k).
  (** to_public_key :1057-1059, to_legacy_public_key :1066-1074, negate :1132-1137 *)
  Definition pk_to_public (k : private) : full := kc_mul C (pk_key k).
  Definition pk_to_legacy (k : private) : legacy := mk_legacy (pk_compressed k) (kc_mul C (pk_key k)).
  Definition pk_negate (k : private) : private := mk_private (pk_compressed k) (kc_order C - pk_key k).
  (** WifKey :1157-1171 *)
  Record wif_key := mk_wif { wk_private : private; wk_net : net_kind }.
  (** fmt_wif :1181-1193, to_wif :1198-1204 *)
  Definition to_wif (k : wif_key) : rust str :=
    let ret := repeat 0 34 in
    let ret := (match wk_net k with NMain => 128 | NTest => 239 end) :: skipn 1 ret in
    rbind (copy_range 1 33 (to_secret_bytes (wk_private k)) ret) (fun ret =>
    if pk_compressed (wk_private k) then encode sha256d (takeN 33 ret ++ [1])
    else encode sha256d (takeN 33 ret)).
  (** from_wif :1218-1258 *)
  Inductive wif_err := FwBase58 (e : decode_error) | FwLength (n : N) | FwVersion (v : N) | FwSecretBytes | FwCompressionFlag (f : N).
  Definition from_wif (wif : str) : rust (result wif_key wif_err) :=
    rbind (decode_check sha256d (as_bytes wif)) (fun r =>
    match r with
    | Err e => Ret (Err (FwBase58 e))
    | Ok data =>
        let go (compressed : bool) (data : bytes) :=
          match data with
          | [] => Panic
          | v :: key =>
              let fin net :=
                if secret_ok (be_val key) then Ret (Ok (mk_wif (mk_private compressed (be_val key)) net)) else Ret (Err FwSecretBytes) in
              if v =? 128 then fin NMain else if v =? 239 then fin NTest else Ret (Err (FwVersion v))
          end in
        if lenN data =? 33 then go false data
        else if lenN data =? 34 then
          match rev data with
          | [] => Panic
          | flag :: front => if negb (flag =? 1) then Ret (Err (FwCompressionFlag flag)) else go true (rev front)
          end
        else Ret (Err (FwLength (lenN data)))
    end).
End Keys.
