(** BIP32 child numbers, derivation paths and extended keys: key_expression/src/bip32.rs.
    Elliptic curve points are libsecp256k1's: they are a parameter (record [ecurve]); secret keys are numbers.
    Not modelled: the hexadecimal, octal and binary forms of child numbers, format widths, serde, Debug. *)
From Coq Require Import String.
From Verif Require Import Base MDec MHash MSha2 MHash2 MHmac SSha2 MBase58 MText.
Local Open Scope N_scope.

(** * Child numbers *)
(** :222-225 *)
Definition HARDENED_FLAG : N := 2 ^ 31.
Definition MAX_CHILD_INDEX : N := HARDENED_FLAG - 1.
(** ChildNumber :232 is the raw u32; from_raw, to_raw, From :277-283, :337-343 are the identity; constants :236-245 *)
Definition child_number := N.
Definition ZERO_NORMAL : child_number := 0.
Definition ZERO_HARDENED : child_number := HARDENED_FLAG.
(** from_normal_idx :252-258, from_hardened_idx :265-271; the error holds the index *)
Definition from_normal_idx (index : N) : result child_number N :=
  if index <=? MAX_CHILD_INDEX then Ok index else Err index.
Definition from_hardened_idx (index : N) : result child_number N :=
  if index <=? MAX_CHILD_INDEX then Ok (N.lor index HARDENED_FLAG) else Err index.
(** index :286, is_hardened :292, is_normal :289 *)
Definition cn_index (c : child_number) : N := N.land c MAX_CHILD_INDEX.
Definition is_hardened (c : child_number) : bool := negb (N.land c HARDENED_FLAG =? 0).
Definition is_normal (c : child_number) : bool := negb (is_hardened c).
(** increment :299-307 *)
Definition increment (c : child_number) : result child_number N :=
  let index := cn_index c in
  if index + 1 <? 2 ^ 32 then
    if is_hardened c then from_hardened_idx (index + 1) else from_normal_idx (index + 1)
  else Err index.
(** format_with :317-334 with Display :345-349; [alt] is the alternate flag *)
Definition cn_display (alt : bool) (c : child_number) : str :=
  fmt_u (cn_index c) ++ (if is_hardened c then (if alt then lit "h" else lit "'") else []).
(** str::parse::<u32> of core *)
Definition parse_u32 (s : str) : result N int_kind :=
  match from_str_radix false 0 (2 ^ 32 - 1) 10 s with Ok z => Ok (Z.to_N z) | Err e => Err e end.
(** ParseChildNumberError: bip32/error; FromStr :378-389 *)
Inductive child_err := ChParseInt (e : int_kind) | ChIndexOutOfRange (index : N).
Definition cn_from_str (inp : str) : result child_number child_err :=
  let idx (f : N -> result child_number N) (r : result N int_kind) :=
    match r with
    | Err e => Err (ChParseInt e)
    | Ok n => match f n with Ok c => Ok c | Err i => Err (ChIndexOutOfRange i) end
    end in
  match rev inp with
  | l :: front => if (l =? 39) || (l =? 104) then idx from_hardened_idx (parse_u32 (rev front)) else idx from_normal_idx (parse_u32 inp)
  | [] => idx from_normal_idx (parse_u32 inp)
  end.

(** * Derivation paths *)
(** RelativeDerivationPath :418 and AbsoluteDerivationPath :500 are lists of child numbers *)
Definition path := list child_number.
(** str::split of core: the pieces between the separators *)
Fixpoint str_split (c : N) (s : str) : list str :=
  match s with
  | [] => [[]]
  | x :: t =>
      match str_split c t with
      | p :: ps => if x =? c then [] :: p :: ps else (x :: p) :: ps
      | [] => [[]]
      end
  end.
(** ParseRelativeDerivationPathError, ParseAbsoluteDerivationPathError *)
Inductive path_err := PMaster | PEmptyChild | PChild (e : child_err).
(** the loops :477-484 and :550-557 *)
Fixpoint parse_parts (l : list str) (ret : path) : result path path_err :=
  match l with
  | [] => Ok ret
  | [] :: _ => Err PEmptyChild
  | part :: l => match cn_from_str part with Ok c => parse_parts l (ret ++ [c]) | Err e => Err (PChild e) end
  end.
(** RelativeDerivationPath::from_str :468-485; PMaster is UnexpectedMasterPrefix *)
Definition rel_from_str (s : str) : result path path_err :=
  match s with
  | [] => Ok []
  | _ => if str_eqb s (lit "m") || starts_with (lit "m/") s then Err PMaster else parse_parts (str_split 47 s) []
  end.
(** AbsoluteDerivationPath::from_str :539-558; PMaster is MissingMasterPrefix *)
Definition abs_from_str (s : str) : result path path_err :=
  if str_eqb s (lit "m") then Ok []
  else
    match strip_prefix (lit "m/") s with
    | None => Err PMaster
    | Some [] => Err PEmptyChild
    | Some t => parse_parts (str_split 47 t) []
    end.
(** Display :701-721 and :561-574 *)
Definition rel_display (alt : bool) (p : path) : str :=
  match p with
  | [] => []
  | c :: p => fold_left (fun out c => out ++ lit "/" ++ cn_display alt c) p (cn_display alt c)
  end.
Definition abs_display (alt : bool) (p : path) : str :=
  match p with [] => lit "m" | _ => lit "m" ++ lit "/" ++ rel_display alt p end.
(** contains_hardened_child :618, child and into_child :622-634, join :668-672 (and :529),
    to_u32_vec :685, from_u32_slice :696-698 *)
Definition contains_hardened_child (p : path) : bool := existsb is_hardened p.
Definition path_child (p : path) (c : child_number) : path := p ++ [c].
Definition path_join (p q : path) : path := p ++ q.
Definition to_u32_vec (p : path) : list N := map (fun c => c) p.
Definition from_u32_slice (l : list N) : path := map (fun n => n) l.
(** RelativeDerivationPathIterator :588-608 *)
Record path_iter := mk_iter { it_base : path; it_next : option child_number }.
Definition children_from (p : path) (c : child_number) : path_iter := mk_iter p (Some c).
Definition normal_children (p : path) : path_iter := children_from p ZERO_NORMAL.
Definition hardened_children (p : path) : path_iter := children_from p ZERO_HARDENED.
Definition iter_next (i : path_iter) : option path * path_iter :=
  match it_next i with
  | None => (None, i)
  | Some c => (Some (path_child (it_base i) c), mk_iter (it_base i) (match increment c with Ok c' => Some c' | Err _ => None end))
  end.
(** Iterator::nth of core: [k] calls of next, then one more *)
Fixpoint iter_nth (i : path_iter) (k : nat) : option path * path_iter :=
  match k with
  | O => iter_next i
  | S k' => match iter_next i with (None, i') => (None, i') | (Some _, i') => iter_nth i' k' end
  end.

(** * Extended keys *)
(** libsecp256k1: the order of the group, the public key of a secret key, the compressed serialisation, from_slice
    on 33 bytes, and PublicKey::add_exp_tweak *)
Record ecurve := mk_ecurve {
  ec_order : N; ec_point : Type; ec_mul : N -> ec_point; ec_ser : ec_point -> bytes; ec_parse : bytes -> option ec_point;
  ec_add : ec_point -> N -> option ec_point }.
Inductive net_kind := NMain | NTest.
(** :31-37 *)
Definition version_public (n : net_kind) : bytes :=
  match n with NMain => [0x04; 0x88; 0xB2; 0x1E] | NTest => [0x04; 0x35; 0x87; 0xCF] end.
Definition version_private (n : net_kind) : bytes :=
  match n with NMain => [0x04; 0x88; 0xAD; 0xE4] | NTest => [0x04; 0x35; 0x83; 0x94] end.
(** [ret[a..b].copy_from_slice(src)] *)
Definition copy_range (a b : N) (src buf : bytes) : rust bytes :=
  if (a <=? b) && (b <=? lenN buf) && (lenN src =? b - a) then Ret (takeN a buf ++ src ++ dropN b buf) else Panic.
(** Hmac::<sha512>: new, the inputs, finalize *)
Definition hmac_sha512 (key : bytes) (pieces : list bytes) : rust bytes :=
  rbind (hmac_new sha512_h key) (fun e => rbind (hmac_feed sha512_h e pieces) (hmac_finalize sha512_h)).
(** Bip32Seed: TryFrom<&[u8]> :109-119, PartialEq :129-135 *)
Definition seed_try_from (b : bytes) : result bytes N := if (lenN b <? 16) || (64 <? lenN b) then Err (lenN b) else Ok b.
Definition seed_eq (a b : bytes) : rust bool := if lenN a =? lenN b then fixed_time_eq a b else Ret false.

Section Keys.
  Variable C : ecurve.
  (** SecretKey::from_secret_bytes, to_secret_bytes, add_tweak; Scalar::from *)
  Definition sk_from_bytes (b : bytes) : option N := if (0 <? be_val b) && (be_val b <? ec_order C) then Some (be_val b) else None.
  Definition sk_bytes (k : N) : bytes := be_bytes 32 k.
  Definition sk_add_tweak (k t : N) : option N := let v := (k + t) mod ec_order C in if v =? 0 then None else Some v.
  (** .expect(...) *)
  Definition expect {A} (o : option A) : rust A := match o with Some a => Ret a | None => Panic end.
  (** Xpriv :162-175, Xpub :195-208 *)
  Record xpriv := mk_xpriv { s_net : net_kind; s_depth : N; s_parent : bytes; s_child : child_number; s_key : N; s_chain : bytes }.
  Record xpub := mk_xpub { p_net : net_kind; p_depth : N; p_parent : bytes; p_child : child_number; p_key : ec_point C; p_chain : bytes }.
  (** Xpub::from_xpriv :889-898 (to_xpub :764) *)
  Definition to_xpub (x : xpriv) : xpub := mk_xpub (s_net x) (s_depth x) (s_parent x) (s_child x) (ec_mul C (s_key x)) (s_chain x).
  (** Xpub::identifier, fingerprint :1030-1037; Xpriv's :875-880 *)
  Definition pub_identifier (x : xpub) : rust bytes := hash_one hash160_h (ec_ser C (p_key x)).
  Definition pub_fingerprint (x : xpub) : rust bytes := rbind (pub_identifier x) (fun h => Ret (takeN 4 h)).
  Definition priv_fingerprint (x : xpriv) : rust bytes := pub_fingerprint (to_xpub x).
  (** new_master_inner :738-754; ChainCode::from_hmac :54-56 *)
  Definition new_master (net : net_kind) (seed : bytes) : rust xpriv :=
    rbind (hmac_sha512 (lit "Bitcoin seed") [seed]) (fun hmac =>
    rbind (expect (sk_from_bytes (takeN 32 hmac))) (fun sk =>
    Ret (mk_xpriv net 0 (repeat 0 4) ZERO_NORMAL sk (dropN 32 hmac)))).
  (** Xpriv::derive_child :776-807; the error is MaximumDepthExceeded *)
  Definition priv_derive_child (x : xpriv) (c : child_number) : rust (result xpriv unit) :=
    rbind (hmac_sha512 (s_chain x)
      ((if is_normal c then [ec_ser C (ec_mul C (s_key x))] else [[0]; sk_bytes (s_key x)]) ++ [be_bytes 4 c])) (fun hmac =>
    rbind (expect (sk_from_bytes (takeN 32 hmac))) (fun sk =>
    rbind (expect (sk_add_tweak sk (s_key x))) (fun tweaked =>
    if s_depth x + 1 <? 256 then
      rbind (priv_fingerprint x) (fun fp => Ret (Ok (mk_xpriv (s_net x) (s_depth x + 1) fp c tweaked (dropN 32 hmac))))
    else Ret (Err tt)))).
  (** derive_from_path :814-823 *)
  Fixpoint priv_derive_path (x : xpriv) (p : path) : rust (result xpriv unit) :=
    match p with
    | [] => Ret (Ok x)
    | c :: p => rbind (priv_derive_child x c) (fun r => match r with Ok y => priv_derive_path y p | Err e => Ret (Err e) end)
    end.
  (** Xpub::derive_child_tweak :966-985 *)
  Definition pub_child_tweak (x : xpub) (c : child_number) : rust (result (N * bytes) unit) :=
    if is_hardened c then Ret (Err tt)
    else
      rbind (hmac_sha512 (p_chain x) [ec_ser C (p_key x); be_bytes 4 (cn_index c)]) (fun hmac =>
      rbind (expect (sk_from_bytes (takeN 32 hmac))) (fun k => Ret (Ok (k, dropN 32 hmac)))).
  (** DeriveXpubError; Xpub::derive_child :923-941 *)
  Inductive pub_err := CannotDeriveHardened | MaximumDepth.
  Definition pub_derive_child (x : xpub) (c : child_number) : rust (result xpub pub_err) :=
    rbind (pub_child_tweak x c) (fun r =>
    match r with
    | Err _ => Ret (Err CannotDeriveHardened)
    | Ok (tweak, chain) =>
        rbind (expect (ec_add C (p_key x) tweak)) (fun tweaked =>
        if p_depth x + 1 <? 256 then
          rbind (pub_fingerprint x) (fun fp => Ret (Ok (mk_xpub (p_net x) (p_depth x + 1) fp c tweaked chain)))
        else Ret (Err MaximumDepth))
    end).
  (** :949-958 *)
  Fixpoint pub_derive_path (x : xpub) (p : path) : rust (result xpub pub_err) :=
    match p with
    | [] => Ret (Ok x)
    | c :: p => rbind (pub_derive_child x c) (fun r => match r with Ok y => pub_derive_path y p | Err e => Ret (Err e) end)
    end.

  (** * Encoding *)
  (** Xpriv::encode :859-872; ret[4] and ret[45] are assignments of one byte *)
  Definition xpriv_encode (x : xpriv) : rust bytes :=
    rbind (copy_range 0 4 (version_private (s_net x)) (repeat 0 78)) (fun r =>
    rbind (copy_range 4 5 [s_depth x] r) (fun r =>
    rbind (copy_range 5 9 (s_parent x) r) (fun r =>
    rbind (copy_range 9 13 (be_bytes 4 (s_child x)) r) (fun r =>
    rbind (copy_range 13 45 (s_chain x) r) (fun r =>
    rbind (copy_range 45 46 [0] r) (fun r =>
    copy_range 46 78 (sk_bytes (s_key x)) r)))))).
  (** Xpub::encode :1015-1027 *)
  Definition xpub_encode (x : xpub) : rust bytes :=
    rbind (copy_range 0 4 (version_public (p_net x)) (repeat 0 78)) (fun r =>
    rbind (copy_range 4 5 [p_depth x] r) (fun r =>
    rbind (copy_range 5 9 (p_parent x) r) (fun r =>
    rbind (copy_range 9 13 (be_bytes 4 (p_child x)) r) (fun r =>
    rbind (copy_range 13 45 (p_chain x) r) (fun r =>
    copy_range 45 78 (ec_ser C (p_key x)) r))))).
  (** Common :1093-1101, XkeyDecodeError; Common::decode :1113-1141 *)
  Record common := mk_common { cm_net : bytes; cm_depth : N; cm_parent : bytes; cm_child : child_number; cm_chain : bytes; cm_key : bytes }.
  Inductive xkey_err := WrongLength (n : N) | NonZeroParent | NonZeroChild.
  Definition common_decode (data : bytes) : result common xkey_err :=
    if lenN data =? 78 then
      let network := takeN 4 data in let data := dropN 4 data in
      let depth := hd 0 data in let data := dropN 1 data in
      let parent := takeN 4 data in let data := dropN 4 data in
      let child := takeN 4 data in let data := dropN 4 data in
      let chain := takeN 32 data in let key := dropN 32 data in
      if (depth =? 0) && negb (str_eqb parent (repeat 0 4)) then Err NonZeroParent
      else if (depth =? 0) && negb (str_eqb child (repeat 0 4)) then Err NonZeroChild
      else Ok (mk_common network depth parent (be_val child) chain key)
    else Err (WrongLength (lenN data)).
  (** XprivDecodeError, XpubDecodeError *)
  Inductive decode_err := DXkey (e : xkey_err) | DUnknownVersion (v : bytes) | DInvalidPrefix | DSecp.
  Definition version_kind (f : net_kind -> bytes) (v : bytes) : option net_kind :=
    if str_eqb v (f NMain) then Some NMain else if str_eqb v (f NTest) then Some NTest else None.
  (** Xpriv::decode :833-856 *)
  Definition xpriv_decode (data : bytes) : result xpriv decode_err :=
    match common_decode data with
    | Err e => Err (DXkey e)
    | Ok m =>
        match version_kind version_private (cm_net m) with
        | None => Err (DUnknownVersion (cm_net m))
        | Some net =>
            if negb (hd 0 (cm_key m) =? 0) then Err DInvalidPrefix
            else
              match sk_from_bytes (dropN 1 (cm_key m)) with
              | None => Err DSecp
              | Some k => Ok (mk_xpriv net (cm_depth m) (cm_parent m) (cm_child m) k (cm_chain m))
              end
        end
    end.
  (** Xpub::decode :994-1012 *)
  Definition xpub_decode (data : bytes) : result xpub decode_err :=
    match common_decode data with
    | Err e => Err (DXkey e)
    | Ok m =>
        match version_kind version_public (cm_net m) with
        | None => Err (DUnknownVersion (cm_net m))
        | Some net =>
            match ec_parse C (cm_key m) with
            | None => Err DSecp
            | Some k => Ok (mk_xpub net (cm_depth m) (cm_parent m) (cm_child m) k (cm_chain m))
            end
        end
    end.
  (** Display :1040-1044, :1062-1066: base58 with the checksum of SHA256d (MBase58; the hash function is the
      standard's, which the engine computes by C27) *)
  Definition xpriv_display (x : xpriv) : rust str := rbind (xpriv_encode x) (encode SHA256d).
  Definition xpub_display (x : xpub) : rust str := rbind (xpub_encode x) (encode SHA256d).
  (** ParseXprivError, ParseXpubError; FromStr :1046-1060, :1068-1082; [s] is the UTF-8 text *)
  Inductive parse_xkey_err := XBase58 (e : decode_error) | XPayloadLength (n : N) | XDecode (e : decode_err).
  Definition xkey_from_str {X} (decode : bytes -> result X decode_err) (s : str) : rust (result X parse_xkey_err) :=
    rbind (decode_check SHA256d s) (fun r =>
    Ret (match r with
         | Err e => Err (XBase58 e)
         | Ok data =>
             if negb (lenN data =? 78) then Err (XPayloadLength (lenN data))
             else match decode data with Ok x => Ok x | Err e => Err (XDecode e) end
         end)).
  Definition xpriv_from_str (s : str) : rust (result xpriv parse_xkey_err) := xkey_from_str xpriv_decode s.
  Definition xpub_from_str (s : str) : rust (result xpub parse_xkey_err) := xkey_from_str xpub_decode s.
End Keys.
