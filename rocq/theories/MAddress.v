(** Addresses: addresses/src/lib.rs, addresses/src/witness_program.rs, bitcoin/src/address.rs, and the networks of network/src/lib.rs.
    The bech32 crate is MBech32.v.  The type parameter that marks an address as checked has no content at run time: both forms of
    Address are [address].  Hash functions and the curve are parameters.  Not modelled: serde, Debug, references and conversions
    between the two forms (assume_checked, as_unchecked, ...: the identity). *)
From Coq Require Import String.
From Verif Require Import Base MDec MWitness MText MTx MScript MTaproot MBip32 MBase58 MP2p MKey MBech32 MPow.
Local Open Scope N_scope.

(** NetworkKind::from(Network): network/src/lib.rs:62-69 *)
Definition kind_of_network (n : network) : net_kind := match n with Bitcoin => NMain | _ => NTest end.
(** lib.rs:152-158 *)
Definition PUBKEY_ADDRESS_PREFIX_MAIN : N := 0.
Definition SCRIPT_ADDRESS_PREFIX_MAIN : N := 5.
Definition PUBKEY_ADDRESS_PREFIX_TEST : N := 111.
Definition SCRIPT_ADDRESS_PREFIX_TEST : N := 196.
(** AddressType :225-238, Display :240-251, FromStr :253-266 *)
Inductive address_type := TyP2pkh | TyP2sh | TyP2wpkh | TyP2wsh | TyP2tr | TyP2a.
Definition type_display (t : address_type) : str :=
  match t with
  | TyP2pkh => lit "p2pkh" | TyP2sh => lit "p2sh" | TyP2wpkh => lit "p2wpkh" | TyP2wsh => lit "p2wsh" | TyP2tr => lit "p2tr" | TyP2a => lit "p2a"
  end.
Definition type_from_str (s : str) : option address_type :=
  if str_eqb s (lit "p2pkh") then Some TyP2pkh else if str_eqb s (lit "p2sh") then Some TyP2sh
  else if str_eqb s (lit "p2wpkh") then Some TyP2wpkh else if str_eqb s (lit "p2wsh") then Some TyP2wsh
  else if str_eqb s (lit "p2tr") then Some TyP2tr else if str_eqb s (lit "p2a") then Some TyP2a else None.
(** KnownHrp :380-387, from_network :391-397, from_hrp :401-411 (Hrp equality ignores case), to_hrp :414-420, NetworkKind::from :427-435 *)
Inductive known_hrp := HMainnet | HTestnets | HRegtest.
Definition hrp_of_network (n : network) : known_hrp := match n with Bitcoin => HMainnet | Testnet3 | Testnet4 | Signet => HTestnets | Regtest => HRegtest end.
Definition from_hrp (h : str) : result known_hrp str :=
  let l := map to_lower h in
  if str_eqb l (lit "bc") then Ok HMainnet else if str_eqb l (lit "tb") then Ok HTestnets else if str_eqb l (lit "bcrt") then Ok HRegtest else Err h.
Definition to_hrp (h : known_hrp) : str := match h with HMainnet => lit "bc" | HTestnets => lit "tb" | HRegtest => lit "bcrt" end.
Definition kind_of_hrp (h : known_hrp) : net_kind := match h with HMainnet => NMain | _ => NTest end.
(** AddressInner :326-330 *)
Inductive address := AP2pkh (hash : bytes) (net : net_kind) | AP2sh (hash : bytes) (net : net_kind) | ASegwit (program : witness_program) (hrp : known_hrp).
Definition kind_eqb (a b : net_kind) : bool := match a, b with NMain, NMain | NTest, NTest => true | _, _ => false end.
Definition hrp_eqb (a b : known_hrp) : bool := match a, b with HMainnet, HMainnet | HTestnets, HTestnets | HRegtest, HRegtest => true | _, _ => false end.

Section Address.
  Variable sha256d : bytes -> bytes.
  (** Display :333-372; [alt] is the alternate flag *)
  Definition legacy_text (prefix : N) (hash : bytes) : rust str :=
    rbind (copy_range 1 21 hash (prefix :: repeat 0 20)) (encode sha256d).
  Definition display (alt : bool) (a : address) : rust str :=
    match a with
    | AP2pkh h n => legacy_text (match n with NMain => PUBKEY_ADDRESS_PREFIX_MAIN | NTest => PUBKEY_ADDRESS_PREFIX_TEST end) h
    | AP2sh h n => legacy_text (match n with NMain => SCRIPT_ADDRESS_PREFIX_MAIN | NTest => SCRIPT_ADDRESS_PREFIX_TEST end) h
    | ASegwit p h =>
        if wp_version p <? 32 then
          Ret (if alt then encode_upper (to_hrp h) (wp_version p) (wp_program p) else encode_lower (to_hrp h) (wp_version p) (wp_program p))
        else Panic
    end.
  (** to_qr_uri :903 *)
  Definition to_qr_uri (a : address) : rust str := rbind (display true a) (fun s => Ret (lit "bitcoin:" ++ s)).

  (** from_base58_str :1096-1125 *)
  Inductive base58_error := TooLongAddress (n : N) | B58Decode (e : array_error) | InvalidLegacyPrefix (v : N).
  Definition from_base58_str (s : str) : rust (result address base58_error) :=
    let b := as_bytes s in
    if 50 <? lenN b then Ret (Err (TooLongAddress (lenN b))) else
    rbind (decode_check_to_array sha256d 21 b) (fun r =>
    match r with
    | Err e => Ret (Err (B58Decode e))
    | Ok [] => Panic
    | Ok (prefix :: data) =>
        Ret (if prefix =? PUBKEY_ADDRESS_PREFIX_MAIN then Ok (AP2pkh data NMain)
             else if prefix =? PUBKEY_ADDRESS_PREFIX_TEST then Ok (AP2pkh data NTest)
             else if prefix =? SCRIPT_ADDRESS_PREFIX_MAIN then Ok (AP2sh data NMain)
             else if prefix =? SCRIPT_ADDRESS_PREFIX_TEST then Ok (AP2sh data NTest)
             else Err (InvalidLegacyPrefix prefix))
    end).
  (** from_bech32_str :1072-1082; WitnessVersion::try_from(u8): primitives/src/witness_version.rs *)
  Inductive bech32_error := ParseBech32 | BadWitnessVersion (v : N) | BechUnknownHrp (h : str).
  Definition from_bech32_str (s : str) : rust (result address bech32_error) :=
    match segwit_decode s with
    | None => Ret (Err ParseBech32)
    | Some (hrp, version, data) =>
        if 16 <? version then Ret (Err (BadWitnessVersion version)) else
        match wp_new version data with
        | Err _ => Panic
        | Ok program => Ret (match from_hrp hrp with Ok h => Ok (ASegwit program h) | Err e => Err (BechUnknownHrp e) end)
        end
    end.
  (** FromStr :1167-1186.  to_lowercase is only applied to ASCII here: no other character has a lower case form that starts
      with one of these prefixes (U+212A and U+0130, the only ones with an ASCII character in theirs, give k and i). *)
  Inductive parse_error := PBech32 (e : bech32_error) | PBase58 (e : base58_error) | PUnknownHrp (h : str).
  Definition from_str (s : str) : rust (result address parse_error) :=
    if existsb (fun p => starts_with p (map to_lower s)) [lit "bc1"; lit "bcrt1"; lit "tb1"] then
      rbind (from_bech32_str s) (fun r => Ret (match r with Ok a => Ok a | Err e => Err (PBech32 e) end))
    else if existsb (fun p => starts_with p s) [lit "1"; lit "2"; lit "3"; lit "m"; lit "n"] then
      rbind (from_base58_str s) (fun r => Ret (match r with Ok a => Ok a | Err e => Err (PBase58 e) end))
    else Ret (Err (PUnknownHrp (match rsplit 49 s with Some (h, _) => h | None => s end))).
End Address.

(** network_kind :645-651, is_valid_for_network :992-998, require_network :1044-1050 *)
Definition network_kind_of (a : address) : net_kind := match a with AP2pkh _ n => n | AP2sh _ n => n | ASegwit _ h => kind_of_hrp h end.
Definition is_valid_for_network (a : address) (n : network) : bool :=
  match a with
  | AP2pkh _ k => kind_eqb k (kind_of_network n)
  | AP2sh _ k => kind_eqb k (kind_of_network n)
  | ASegwit _ h => hrp_eqb h (hrp_of_network n)
  end.
Definition require_network (a : address) (n : network) : result address (network * address) :=
  if is_valid_for_network a n then Ok a else Err (n, a).
(** address_type :791-808, is_spend_standard :857 *)
Definition type_of (a : address) : option address_type :=
  match a with
  | AP2pkh _ _ => Some TyP2pkh
  | AP2sh _ _ => Some TyP2sh
  | ASegwit p _ => if wp_is_p2wpkh p then Some TyP2wpkh else if wp_is_p2wsh p then Some TyP2wsh
                   else if wp_is_p2tr p then Some TyP2tr else if wp_is_p2a p then Some TyP2a else None
  end.
Definition is_spend_standard (a : address) : bool := match type_of a with Some _ => true | None => false end.
(** pubkey_hash :821, script_hash :829, witness_program :837 *)
Definition pubkey_hash_of (a : address) : option bytes := match a with AP2pkh h _ => Some h | _ => None end.
Definition script_hash_of (a : address) : option bytes := match a with AP2sh h _ => Some h | _ => None end.
Definition witness_program_of (a : address) : option witness_program := match a with ASegwit p _ => Some p | _ => None end.
(** script_pubkey :861-873 *)
Definition script_pubkey (a : address) : rust bytes :=
  match a with
  | AP2pkh h _ => Ret (new_p2pkh h)
  | AP2sh h _ => Ret (new_p2sh h)
  | ASegwit p _ => new_witness_program_unchecked (wp_version p) (wp_program p)
  end.
(** matches_script_pubkey :931-943 *)
Definition matches_script_pubkey (a : address) (script : bytes) : bool :=
  match a with
  | AP2pkh h _ => is_p2pkh script && beqb (firstn 20 (skipn 3 script)) h
  | AP2sh h _ => is_p2sh script && beqb (firstn 20 (skipn 2 script)) h
  | ASegwit p _ => is_witness_program script && beqb (skipn 2 script) (wp_program p)
  end.
(** payload_as_bytes :953-959 *)
Definition payload (a : address) : bytes := match a with AP2sh h _ => h | AP2pkh h _ => h | ASegwit p _ => wp_program p end.
(** bitcoin/src/address.rs:73-95; [try_into().expect] panics on a wrong length *)
Inductive from_script_err := FsWitnessVersion (op : N) | FsWitnessProgram (e : wp_err) | FsUnrecognized.
Definition from_script (script : bytes) (n : network) : rust (result address from_script_err) :=
  let arr20 (b : bytes) (f : bytes -> address) := if lenN b =? 20 then Ret (Ok (f b)) else Panic in
  if is_p2pkh script then arr20 (firstn 20 (skipn 3 script)) (fun h => AP2pkh h (kind_of_network n))
  else if is_p2sh script then arr20 (firstn 20 (skipn 2 script)) (fun h => AP2sh h (kind_of_network n))
  else if is_witness_program script then
    match script with
    | [] => Panic
    | op :: _ =>
        match version_from_opcode op with
        | None => Ret (Err (FsWitnessVersion op))
        | Some v => match wp_new v (skipn 2 script) with Err e => Ret (Err (FsWitnessProgram e)) | Ok p => Ret (Ok (ASegwit p (hrp_of_network n))) end
        end
    end
  else Ret (Err FsUnrecognized).

Section Construct.
  Variable hash160 : bytes -> bytes.
  Variable sha256 : bytes -> bytes.
  Variable C : kcurve.
  (** ScriptHash::from_script: primitives/src/hash_types/script_hash.rs:48-58 (520 bytes); WScriptHash::from_script:
      witness_script_hash.rs:46-53 (10000 bytes); the errors hold the size *)
  Definition script_hash (s : bytes) : result bytes N := if 520 <? lenN s then Err (lenN s) else Ok (hash160 s).
  Definition wscript_hash (s : bytes) : result bytes N := if 10000 <? lenN s then Err (lenN s) else Ok (sha256 s).
  (** p2pkh :660-663 (From<LegacyPublicKey>, From<FullPublicKey> for PubkeyHash), p2sh :675-681 *)
  Definition p2pkh (k : legacy C) (n : net_kind) : address := AP2pkh (lk_pubkey_hash hash160 C k) n.
  Definition p2sh (s : bytes) (n : net_kind) : result address N := match script_hash s with Ok h => Ok (AP2sh h n) | Err e => Err e end.
  (** p2wpkh :696-699, p2wsh :720-726, p2tr_tweaked :766-769 with the output key's bytes, p2a :772; witness_program.rs:69-125 *)
  Definition p2wpkh (k : full C) (h : known_hrp) : address := ASegwit {| wp_version := 0; wp_program := fk_pubkey_hash hash160 C k |} h.
  Definition p2wsh (s : bytes) (h : known_hrp) : result address N :=
    match wscript_hash s with Ok x => Ok (ASegwit {| wp_version := 0; wp_program := x |} h) | Err e => Err e end.
  Definition p2tr_tweaked (key : bytes) (h : known_hrp) : address := ASegwit {| wp_version := 1; wp_program := key |} h.
  Definition p2a (h : known_hrp) : address := ASegwit {| wp_version := 1; wp_program := P2A_PROGRAM |} h.
  (** p2tr :755-763 with tap_tweak of taproot_primitives *)
  Definition p2tr (T : curve) (k : xonly T) (root : option bytes) (h : known_hrp) : rust address :=
    rbind (tap_tweak sha256 T k root) (fun out => Ret (p2tr_tweaked (xonly_ser out) h)).
  (** p2shwpkh :707-712, p2shwsh :744-752 *)
  Definition p2shwpkh (k : full C) (n : net_kind) : rust address :=
    match script_hash (sb_push_slice (sb_push_opcode [] 0) (fk_pubkey_hash hash160 C k)) with Ok h => Ret (AP2sh h n) | Err _ => Panic end.
  Definition p2shwsh (s : bytes) (n : net_kind) : rust (result address N) :=
    match wscript_hash s with
    | Err e => Ret (Err e)
    | Ok x => match script_hash (sb_push_slice (sb_push_opcode [] 0) x) with Ok h => Ret (Ok (AP2sh h n)) | Err _ => Panic end
    end.
  (** segwit_redeem_hash :1189-1194, is_related_to_pubkey :910-918, is_related_to_xonly_pubkey :924-926 *)
  Definition segwit_redeem_hash (h : bytes) : bytes := hash160 ([0; 20] ++ h).
  Definition is_related_to_pubkey (a : address) (k : legacy C) : bool :=
    let h := lk_pubkey_hash hash160 C k in
    beqb h (payload a) || beqb (fst (xonly_of_legacy C k)) (payload a) || beqb (segwit_redeem_hash h) (payload a).
  Definition is_related_to_xonly (a : address) (x : bytes) : bool := beqb x (payload a).
End Construct.
