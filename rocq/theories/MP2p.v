(** Payloads of the peer-to-peer messages: p2p/src/{lib,address,message,message_network,message_blockdata,message_bloom,
    message_compact_blocks,message_erlay,message_filter,bip434}.rs.  An encoder is given by the bytes it produces, in
    order (see C04 for the chunks).  Not modelled: Debug, Display and Arbitrary, the texts of the errors, sockets. *)
From Coq Require Import String.
From Verif Require Import Base MDec MWitness MTx MAmount MText MPmt MBip152.
Local Open Scope N_scope.

(** An error of the wrapped decoder, or of the conversion that follows. *)
Inductive conv_err (E F : Type) := CDec (e : E) | CBad (f : F).
Arguments CDec {E F} _.
Arguments CBad {E F} _.

(** ** Text: core's String::from_utf8 (Unicode 15, table 3-7) and str::as_bytes *)
Definition cont (b : N) : bool := (128 <=? b) && (b <=? 191).
Fixpoint from_utf8 (b : bytes) : option str :=
  let push c o := match o with Some s => Some (c :: s) | None => None end in
  match b with
  | [] => Some []
  | x :: r =>
      if x <? 128 then push x (from_utf8 r) else
      match r with
      | y :: r2 =>
          if (194 <=? x) && (x <=? 223) then
            if cont y then push ((x - 192) * 64 + (y - 128)) (from_utf8 r2) else None
          else
          match r2 with
          | z :: r3 =>
              if (224 <=? x) && (x <=? 239) then
                if cont y && cont z && (negb (x =? 224) || (160 <=? y)) && (negb (x =? 237) || (y <=? 159))
                then push ((x - 224) * 4096 + (y - 128) * 64 + (z - 128)) (from_utf8 r3) else None
              else
              match r3 with
              | w :: r4 =>
                  if (240 <=? x) && (x <=? 244) then
                    if cont y && cont z && cont w && (negb (x =? 240) || (144 <=? y)) && (negb (x =? 244) || (y <=? 143))
                    then push ((x - 240) * 262144 + (y - 128) * 4096 + (z - 128) * 64 + (w - 128)) (from_utf8 r4) else None
                  else None
              | [] => None
              end
          | [] => None
          end
      | [] => None
      end
  end.
Definition char_utf8 (c : N) : bytes :=
  if c <? 128 then [c]
  else if c <? 2048 then [192 + c / 64; 128 + c mod 64]
  else if c <? 65536 then [224 + c / 4096; 128 + (c / 64) mod 64; 128 + c mod 64]
  else [240 + c / 262144; 128 + (c / 4096) mod 64; 128 + (c / 64) mod 64; 128 + c mod 64].
Definition as_bytes (s : str) : bytes := flat_map char_utf8 s.

(** i32/i64::to_le_bytes and from_le_bytes (core) *)
Definition i_to_le (n : nat) (z : Z) : bytes := le_bytes n (Z.to_N (z mod 2 ^ (8 * Z.of_nat n))).
Definition i_from_le (b : bytes) : Z :=
  let v := Z.of_N (le_val b) in
  let m := (2 ^ (8 * Z.of_N (lenN b)))%Z in
  if (v <? m / 2)%Z then v else (v - m)%Z.

(** PrefixedBytesEncoder *)
Definition prefixed (b : bytes) : bytes := cs_encode (lenN b) ++ b.

(** ** ProtocolVersion lib.rs:122-151, ServiceFlags lib.rs:302-331: the integer, little endian *)
Definition services_dec : decoder N eof_err := newtype_dec (array_dec 8) (fun e => e) (fun b => Ok (le_val b)).

(** ServiceFlags::add, remove, has: lib.rs:203-218; BitOr 285, BitXor 295 (which removes) *)
Definition U64m : N := 18446744073709551615.
Definition sf_add (a b : N) : N := N.lor a b.
Definition sf_remove (a b : N) : N := N.land a (N.lxor b U64m).
Definition sf_has (a b : N) : bool := N.lor a b =? a.

(** ** Address: address.rs:32-39 *)
Record address := mk_addr { a_services : N; a_addr : list N; a_port : N }.
(** address.rs:80-91, 519-530: big-endian 16-bit groups *)
Fixpoint segments (b : bytes) : list N :=
  match b with
  | h :: l :: b' => h * 256 + l :: segments b'
  | _ => []
  end.
(** address.rs:138-143; Ipv6Addr::octets (std) *)
Definition octets (s : list N) : bytes := flat_map (be_bytes 2) s.
(** address.rs:137-152 *)
Definition address_encode (a : address) : bytes := le_bytes 8 (a_services a) ++ octets (a_addr a) ++ be_bytes 2 (a_port a).
(** address.rs:155-173 *)
Definition address_dec : decoder address (err3 eof_err eof_err eof_err) :=
  newtype_dec (dec3 services_dec (array_dec 16) (array_dec 2)) (fun e => e)
    (fun '(s, a, p) => Ok (mk_addr s (segments a) (be_val p))).
(** AddrV1Message: address.rs:181-223 *)
Definition addr_v1_encode (m : N * address) : bytes := le_bytes 4 (fst m) ++ address_encode (snd m).
Definition addr_v1_dec : decoder (N * address) (err2 eof_err (err3 eof_err eof_err eof_err)) :=
  newtype_dec (dec2 (array_dec 4) address_dec) (fun e => e) (fun '(t, a) => Ok (le_val t, a)).

(** address.rs:41-42 *)
Definition ONION : list N := [64903; 55422; 60227]. (* FD87 D87E EB43 *)
Definition IPV4_EMBEDDED_IPV6 : list N := [0; 0; 0; 0; 0; 65535].

(** AddrV2: address.rs:227-240; an Ipv4Addr is its 4 octets, an Ipv6Addr its 8 segments *)
Inductive addr_v2 :=
| Ipv4 (o : bytes)
| Ipv6 (s : list N)
| TorV3 (b : bytes)
| I2p (b : bytes)
| Cjdns (s : list N)
| NetUnknown (network : N) (b : bytes).
(** AddrV2Encoder: address.rs:306-313, the state, and 325-374 *)
Record av2_enc := { av_network : option bytes; av_size : option bytes; av_bytes4 : option bytes; av_bytes16 : option bytes;
                    av_bytes32 : option bytes; av_nbytes : option bytes }.
Definition av2_new (a : addr_v2) : av2_enc :=
  let mk n sz b4 b16 b32 nb := {| av_network := Some [n]; av_size := Some (cs_encode sz); av_bytes4 := b4; av_bytes16 := b16;
                                  av_bytes32 := b32; av_nbytes := nb |} in
  match a with
  | Ipv4 o => mk 1 4 (Some o) None None None
  | Ipv6 s => mk 2 16 None (Some (octets s)) None None
  | TorV3 b => mk 4 32 None None (Some b) None
  | I2p b => mk 5 32 None None (Some b) None
  | Cjdns s => mk 6 16 None (Some (octets s)) None None
  | NetUnknown n b => mk n (lenN b) None None None (Some b)
  end.
(** address.rs:378-398 *)
Definition av2_chunk (e : av2_enc) : bytes :=
  match av_network e with Some b => b | None =>
  match av_size e with Some b => b | None =>
  match av_bytes4 e with Some b => b | None =>
  match av_bytes16 e with Some b => b | None =>
  match av_bytes32 e with Some b => b | None =>
  match av_nbytes e with Some b => b | None => [] end end end end end end.
(** address.rs:400-426; [true] is HasMore.  Every inner encoder is finished after its only chunk. *)
Definition av2_adv (e : av2_enc) : av2_enc * bool :=
  let '{| av_network := n; av_size := s; av_bytes4 := b4; av_bytes16 := b16; av_bytes32 := b32; av_nbytes := nb |} := e in
  let mk n s b4 b16 b32 nb := {| av_network := n; av_size := s; av_bytes4 := b4; av_bytes16 := b16; av_bytes32 := b32; av_nbytes := nb |} in
  match n with Some _ => (mk None s b4 b16 b32 nb, true) | None =>
  match s with Some _ => (mk n None b4 b16 b32 nb, true) | None =>
  match b4 with Some _ => (mk n s None b16 b32 nb, false) | None =>
  match b16 with Some _ => (mk n s b4 None b32 nb, false) | None =>
  match b32 with Some _ => (mk n s b4 b16 None nb, false) | None =>
  match nb with Some _ => (mk n s b4 b16 b32 None, false) | None => (e, true) end end end end end end.
(** draining an encoder, consensus_encoding/src/encode/mod.rs:330-342; [None]: out of fuel *)
Fixpoint av2_drain (fuel : nat) (e : av2_enc) : option bytes :=
  match fuel with
  | O => None
  | S fuel' =>
      match av2_adv e with
      | (_, false) => Some (av2_chunk e)
      | (e', true) => match av2_drain fuel' e' with Some l => Some (av2_chunk e ++ l) | None => None end
      end
  end.
(** EncoderByteIter::next over it, mod.rs:254-266; the state is the encoder and the position *)
Fixpoint av2_next (fuel : nat) (s : av2_enc * N) : option (av2_enc * N * option N) :=
  match fuel with
  | O => None
  | S fuel' =>
      match nth_error (av2_chunk (fst s)) (N.to_nat (snd s)) with
      | Some b => Some (fst s, snd s + 1, Some b)
      | None => match av2_adv (fst s) with
                | (e', false) => Some (e', snd s, None)
                | (e', true) => av2_next fuel' (e', 0)
                end
      end
  end.
(** the bytes, as used below (see C33_addr_v2_encoder) *)
Definition addr_v2_encode (a : addr_v2) : bytes :=
  match a with
  | Ipv4 o => 1 :: cs_encode 4 ++ o
  | Ipv6 s => 2 :: cs_encode 16 ++ octets s
  | TorV3 b => 4 :: cs_encode 32 ++ b
  | I2p b => 5 :: cs_encode 32 ++ b
  | Cjdns s => 6 :: cs_encode 16 ++ octets s
  | NetUnknown n b => n :: cs_encode (lenN b) ++ b
  end.
Inductive av2_err := AvLength (expected got : N) | AvOnionCat | AvWrappedIpv4 | AvNotCjdns.
Fixpoint Nlist_eqb (a b : list N) : bool :=
  match a, b with
  | [], [] => true
  | x :: a', y :: b' => (x =? y) && Nlist_eqb a' b'
  | _, _ => false
  end.
(** address.rs:547-554 *)
Definition to_fixed (n : N) (b : bytes) (k : bytes -> result addr_v2 av2_err) : result addr_v2 av2_err :=
  if lenN b =? n then k b else Err (AvLength n (lenN b)).
(** address.rs:471-514 *)
Definition addr_v2_of (net : N) (b : bytes) : result addr_v2 av2_err :=
  if 512 <? lenN b then Err (AvLength 512 (lenN b)) else
  if net =? 1 then to_fixed 4 b (fun o => Ok (Ipv4 o))
  else if net =? 2 then to_fixed 16 b (fun o =>
    let s := segments o in
    if Nlist_eqb (firstn 3 s) ONION then Err AvOnionCat
    else if Nlist_eqb (firstn 6 s) IPV4_EMBEDDED_IPV6 then Err AvWrappedIpv4
    else Ok (Ipv6 s))
  else if net =? 4 then to_fixed 32 b (fun o => Ok (TorV3 o))
  else if net =? 5 then to_fixed 32 b (fun o => Ok (I2p o))
  else if net =? 6 then to_fixed 16 b (fun o => if negb (hd 0 o =? 252) then Err AvNotCjdns else Ok (Cjdns (segments o)))
  else Ok (NetUnknown net b).
Definition addr_v2_dec : decoder addr_v2 (conv_err (err2 eof_err bv_err) av2_err) :=
  newtype_dec (dec2 (array_dec 1) (bytevec_dec MAX_VEC_SIZE)) CDec
    (fun '(n, b) => match addr_v2_of (le_val n) b with Ok a => Ok a | Err e => Err (CBad e) end).
(** AddrV2Message: address.rs:563-572, 602-641 *)
Record addr_v2_msg := mk_av2 { am_time : N; am_services : N; am_addr : addr_v2; am_port : N }.
Definition addr_v2_msg_encode (m : addr_v2_msg) : bytes :=
  le_bytes 4 (am_time m) ++ cs_encode (am_services m) ++ addr_v2_encode (am_addr m) ++ be_bytes 2 (am_port m).
Definition addr_v2_msg_err := err4 eof_err cs_err (conv_err (err2 eof_err bv_err) av2_err) eof_err.
Definition addr_v2_msg_dec : decoder addr_v2_msg addr_v2_msg_err :=
  newtype_dec (dec4 (array_dec 4) cs_u64_dec addr_v2_dec (array_dec 2)) (fun e => e)
    (fun '(t, s, a, p) => Ok (mk_av2 (le_val t) s a (be_val p))).

(** ** VersionMessage: message_network.rs:34-62 *)
Record version_msg := mk_version {
  v_version : N; v_services : N; v_timestamp : Z; v_receiver : address; v_sender : address; v_nonce : N;
  v_user_agent : str; v_start_height : Z; v_relay : bool }.
Definition bool_byte (b : bool) : N := if b then 1 else 0.
(** message_network.rs:120-136, UserAgent 207-209 *)
Definition version_encode (v : version_msg) : bytes :=
  le_bytes 4 (v_version v) ++ le_bytes 8 (v_services v) ++ i_to_le 8 (v_timestamp v) ++
  address_encode (v_receiver v) ++ address_encode (v_sender v) ++ le_bytes 8 (v_nonce v) ++
  prefixed (as_bytes (v_user_agent v)) ++ i_to_le 4 (v_start_height v) ++ [bool_byte (v_relay v)].
(** message_network.rs:214-231 *)
Definition utf8_dec : decoder str (conv_err bv_err unit) :=
  newtype_dec (bytevec_dec MAX_VEC_SIZE) CDec (fun b => match from_utf8 b with Some s => Ok s | None => Err (CBad tt) end).
(** message_network.rs:143-186 *)
Definition version_err := err2 (err3 eof_err eof_err eof_err)
  (err6 (err3 eof_err eof_err eof_err) (err3 eof_err eof_err eof_err) eof_err (conv_err bv_err unit) eof_err eof_err).
Definition version_dec : decoder version_msg version_err :=
  newtype_dec (dec2 (dec3 u32_dec services_dec (array_dec 8))
                    (dec6 address_dec address_dec (array_dec 8) utf8_dec (array_dec 4) (array_dec 1))) (fun e => e)
    (fun '((v, s, t), (r, sd, n, ua, h, rl)) =>
       Ok (mk_version v s (i_from_le t) r sd (le_val n) ua (i_from_le h) (negb (hd 0 rl =? 0)))).

(** RejectReason: message_network.rs:384-401, 409-443 *)
Inductive reject_reason := Malformed | Invalid | Obsolete | Duplicate | NonStandard | Dust | RFee | Checkpoint.
Definition reject_code (r : reject_reason) : N :=
  match r with
  | Malformed => 1 | Invalid => 16 | Obsolete => 17 | Duplicate => 18
  | NonStandard => 64 | Dust => 65 | RFee => 66 | Checkpoint => 67
  end.
Definition reject_of (c : N) : option reject_reason :=
  if c =? 1 then Some Malformed else if c =? 16 then Some Invalid else if c =? 17 then Some Obsolete
  else if c =? 18 then Some Duplicate else if c =? 64 then Some NonStandard else if c =? 65 then Some Dust
  else if c =? 66 then Some RFee else if c =? 67 then Some Checkpoint else None.
Definition reason_dec : decoder reject_reason (conv_err eof_err N) :=
  newtype_dec (array_dec 1) CDec (fun b => match reject_of (le_val b) with Some r => Ok r | None => Err (CBad (le_val b)) end).
(** Reject: message_network.rs:453-531 *)
Record reject := mk_reject { r_message : str; r_ccode : reject_reason; r_reason : str; r_hash : bytes }.
Definition reject_encode (r : reject) : bytes :=
  prefixed (as_bytes (r_message r)) ++ [reject_code (r_ccode r)] ++ prefixed (as_bytes (r_reason r)) ++ r_hash r.
Definition reject_dec : decoder reject (conv_err (err4 bv_err (conv_err eof_err N) bv_err eof_err) unit) :=
  newtype_dec (dec4 (bytevec_dec MAX_VEC_SIZE) reason_dec (bytevec_dec MAX_VEC_SIZE) (array_dec 32)) CDec
    (fun '(m, c, r, h) => match from_utf8 m with
                          | None => Err (CBad tt)
                          | Some m' => match from_utf8 r with None => Err (CBad tt) | Some r' => Ok (mk_reject m' c r' h) end
                          end).
(** Alert 537-586 and FilterAdd message_bloom.rs:150-186: a byte vector *)
Definition blob_dec : decoder bytes bv_err := newtype_dec (bytevec_dec MAX_VEC_SIZE) (fun e => e) (fun b => Ok b).

(** ** Inventory: message_blockdata.rs:31-54 *)
Inductive inventory :=
| InvError (b : bytes) | InvTx (h : bytes) | InvBlock (h : bytes) | InvCompactBlock (h : bytes) | InvWTx (h : bytes)
| InvWitnessTx (h : bytes) | InvWitnessBlock (h : bytes) | InvUnknown (ty : N) (h : bytes).
(** message_blockdata.rs:83-98 *)
Definition inventory_encode (i : inventory) : bytes :=
  let '(p, b) := match i with
    | InvError e => (0, e) | InvTx t => (1, t) | InvBlock b => (2, b) | InvCompactBlock b => (4, b) | InvWTx w => (5, w)
    | InvWitnessTx t => (1073741825, t) | InvWitnessBlock b => (1073741826, b) | InvUnknown t d => (t, d)
    end in le_bytes 4 p ++ b.
(** message_blockdata.rs:101-124 *)
Definition inventory_of (ty : N) (b : bytes) : inventory :=
  if ty =? 0 then InvError b else if ty =? 1 then InvTx b else if ty =? 2 then InvBlock b
  else if ty =? 4 then InvCompactBlock b else if ty =? 5 then InvWTx b else if ty =? 1073741825 then InvWitnessTx b
  else if ty =? 1073741826 then InvWitnessBlock b else InvUnknown ty b.
Definition inventory_dec : decoder inventory (err2 eof_err eof_err) :=
  newtype_dec (dec2 (array_dec 4) (array_dec 32)) (fun e => e) (fun '(t, b) => Ok (inventory_of (le_val t) b)).
(** message_blockdata.rs:60-71 *)
Definition network_hash (i : inventory) : option bytes :=
  match i with
  | InvError _ => None
  | InvTx h | InvBlock h | InvCompactBlock h | InvWTx h | InvWitnessTx h | InvWitnessBlock h | InvUnknown _ h => Some h
  end.

(** BlockLocator::build, message_blockdata.rs:151-171.  [get] is the callback; its state is not modelled.  One round per
    hash, so at most MAX_LOCATOR_HASHES of them: the fuel. *)
Definition MAX_LOCATOR_HASHES : N := 101.
Definition U32_SAT : N := 4294967295.
Fixpoint locator_loop {E} (get : N -> result bytes E) (fuel : nat) (hashes : list bytes) (height step : N) : result (list bytes) E :=
  match fuel with
  | O => Ok hashes
  | S fuel' =>
      match get height with
      | Err e => Err e
      | Ok h =>
          let hashes' := hashes ++ [h] in
          if (height =? 0) || (MAX_LOCATOR_HASHES <=? lenN hashes') then Ok hashes'
          else locator_loop get fuel' hashes' (height - step) (if 10 <? lenN hashes' then N.min (step * 2) U32_SAT else step)
      end
  end.
Definition locator_build {E} (tip : N) (get : N -> result bytes E) : result (list bytes) E :=
  locator_loop get 101 [] tip 1.

(** GetBlocksMessage, GetHeadersMessage: message_blockdata.rs:223-325; BlockLocator 190-213 *)
Record get_blocks := mk_gb { gb_version : N; gb_locator : list bytes; gb_stop : bytes }.
Definition get_blocks_encode (g : get_blocks) : bytes :=
  le_bytes 4 (gb_version g) ++ slice_encode (fun h => h) (gb_locator g) ++ gb_stop g.
Definition get_blocks_dec : decoder get_blocks (err3 eof_err (vec_err eof_err) eof_err) :=
  newtype_dec (dec3 u32_dec (vec_dec hash_dec MAX_VEC_SIZE) hash_dec) (fun e => e) (fun '(v, l, s) => Ok (mk_gb v l s)).

(** ** Bloom filters: message_bloom.rs:21-30, 47-84, 92-142 *)
Inductive bloom_flags := BNone | BAll | BPubkeyOnly.
Definition bloom_byte (f : bloom_flags) : N := match f with BNone => 0 | BAll => 1 | BPubkeyOnly => 2 end.
Definition bloom_dec : decoder bloom_flags (conv_err eof_err N) :=
  newtype_dec (array_dec 1) CDec (fun b => let c := le_val b in
    if c =? 0 then Ok BNone else if c =? 1 then Ok BAll else if c =? 2 then Ok BPubkeyOnly else Err (CBad c)).
Record filter_load := mk_fl { fl_filter : bytes; fl_hash_funcs : N; fl_tweak : N; fl_flags : bloom_flags }.
Definition filter_load_encode (f : filter_load) : bytes :=
  prefixed (fl_filter f) ++ le_bytes 4 (fl_hash_funcs f) ++ le_bytes 4 (fl_tweak f) ++ [bloom_byte (fl_flags f)].
Definition filter_load_dec : decoder filter_load (err4 bv_err eof_err eof_err (conv_err eof_err N)) :=
  newtype_dec (dec4 (bytevec_dec MAX_VEC_SIZE) (array_dec 4) (array_dec 4) bloom_dec) (fun e => e)
    (fun '(f, h, t, g) => Ok (mk_fl f (le_val h) (le_val t) g)).

(** ** SendCmpct: message_compact_blocks.rs:16-63 *)
Definition send_cmpct_encode (s : bool * N) : bytes := [bool_byte (fst s)] ++ le_bytes 8 (snd s).
Definition send_cmpct_dec : decoder (bool * N) (conv_err (err2 eof_err eof_err) unit) :=
  newtype_dec (dec2 (array_dec 1) (array_dec 8)) CDec
    (fun '(c, v) => if (hd 0 c =? 1) || (hd 0 c =? 0) then Ok (negb (le_val c =? 0), le_val v) else Err (CBad tt)).
(** ** SendTxRcnCl: message_erlay.rs:14-63 *)
Definition rcncl_encode (s : N * N) : bytes := le_bytes 4 (fst s) ++ le_bytes 8 (snd s).
Definition rcncl_dec : decoder (N * N) (err2 eof_err eof_err) :=
  newtype_dec (dec2 (array_dec 4) (array_dec 8)) (fun e => e) (fun '(v, s) => Ok (le_val v, le_val s)).

(** ** Feature: bip434.rs:23-225 *)
Inductive feature_id_err := FiLength (n : N) | FiNotAscii.
(** bip434.rs:36-44 *)
Definition feature_id_of (s : str) : result str feature_id_err :=
  if negb (is_ascii s) then Err FiNotAscii
  else if (str_len s <? 4) || (80 <? str_len s) then Err (FiLength (str_len s))
  else Ok s.
(** bip434.rs:76-98 *)
Definition feature_id_dec : decoder str (conv_err bv_err feature_id_err) :=
  newtype_dec (bytevec_dec 80) CDec
    (fun b => match from_utf8 b with
              | None => Err (CBad FiNotAscii)
              | Some s => match feature_id_of s with Ok f => Ok f | Err e => Err (CBad e) end
              end).
(** bip434.rs:116-121 *)
Definition feature_data_new (b : bytes) : result bytes N := if 512 <? lenN b then Err (lenN b) else Ok b.
(** bip434.rs:155-175 *)
Definition feature_data_dec : decoder bytes bv_err := newtype_dec (bytevec_dec 512) (fun e => e) (fun b => Ok b).
Definition feature_encode (f : str * bytes) : bytes := prefixed (as_bytes (fst f)) ++ prefixed (snd f).
Definition feature_dec : decoder (str * bytes) (err2 (conv_err bv_err feature_id_err) bv_err) :=
  newtype_dec (dec2 feature_id_dec feature_data_dec) (fun e => e) (fun x => Ok x).

(** ** Compact filters: message_filter.rs *)
(** message_filter.rs:42-47 *)
Definition filter_header (sha256d : bytes -> bytes) (filter_hash previous : bytes) : bytes := sha256d (filter_hash ++ previous).
(** GetCFilters 130-174, GetCFHeaders 235-279 *)
Record get_cf := mk_gcf { gc_type : N; gc_height : N; gc_stop : bytes }.
Definition get_cf_encode (g : get_cf) : bytes := [gc_type g] ++ le_bytes 4 (gc_height g) ++ gc_stop g.
Definition get_cf_dec : decoder get_cf (err3 eof_err eof_err eof_err) :=
  newtype_dec (dec3 (array_dec 1) u32_dec hash_dec) (fun e => e) (fun '(t, h, s) => Ok (mk_gcf (le_val t) h s)).
(** CFilter 178-231 *)
Record cfilter := mk_cf { cf_type : N; cf_block : bytes; cf_filter : bytes }.
Definition cfilter_encode (c : cfilter) : bytes := [cf_type c] ++ cf_block c ++ prefixed (cf_filter c).
Definition cfilter_dec : decoder cfilter (err3 eof_err eof_err bv_err) :=
  newtype_dec (dec3 (array_dec 1) hash_dec (bytevec_dec MAX_VEC_SIZE)) (fun e => e) (fun '(t, b, f) => Ok (mk_cf (le_val t) b f)).
(** CFHeaders 283-347; FilterHash and FilterHeader 50-112 are 32 bytes *)
Record cfheaders := mk_cfh { ch_type : N; ch_stop : bytes; ch_previous : bytes; ch_hashes : list bytes }.
Definition cfheaders_encode (c : cfheaders) : bytes :=
  [ch_type c] ++ ch_stop c ++ ch_previous c ++ slice_encode (fun h => h) (ch_hashes c).
Definition cfheaders_dec : decoder cfheaders (err4 eof_err eof_err eof_err (vec_err eof_err)) :=
  newtype_dec (dec4 (array_dec 1) hash_dec hash_dec (vec_dec hash_dec MAX_VEC_SIZE)) (fun e => e)
    (fun '(t, s, p, hs) => Ok (mk_cfh (le_val t) s p hs)).
(** GetCFCheckpt 351-392 *)
Definition get_cfcheckpt_encode (g : N * bytes) : bytes := [fst g] ++ snd g.
Definition get_cfcheckpt_dec : decoder (N * bytes) (err2 eof_err eof_err) :=
  newtype_dec (dec2 (array_dec 1) hash_dec) (fun e => e) (fun '(t, s) => Ok (le_val t, s)).
(** CFCheckpt 396-449 *)
Record cfcheckpt := mk_cfc { cc_type : N; cc_stop : bytes; cc_headers : list bytes }.
Definition cfcheckpt_encode (c : cfcheckpt) : bytes := [cc_type c] ++ cc_stop c ++ slice_encode (fun h => h) (cc_headers c).
Definition cfcheckpt_dec : decoder cfcheckpt (err3 eof_err eof_err (vec_err eof_err)) :=
  newtype_dec (dec3 (array_dec 1) hash_dec (vec_dec hash_dec MAX_VEC_SIZE)) (fun e => e)
    (fun '(t, s, hs) => Ok (mk_cfc (le_val t) s hs)).

(** ** FeeFilter: message.rs:416-488; the rate is in satoshi per megavirtualbyte *)
Definition fee_filter_encode (rate : Z) : bytes := le_bytes 8 (Z.to_N (feerate_to_kvb_ceil rate)).
Inductive ff_err := FfInvalid (kvb : N).
(** message.rs:456-483; 2100000000000000 is Amount::MAX_MONEY *)
Definition fee_filter_of (kvb : N) : rust (result Z ff_err) :=
  if 2100000000000000 <? kvb then Ret (Err (FfInvalid kvb)) else
  rbind (feerate_from_sat_per_kvb 1) (fun one =>
  match feerate_checked_mul one (Z.of_N kvb) with Some r => Ret (Ok r) | None => Panic end).
(** The panic is kept apart: C33_fee_filter_total shows that it is not reached. *)
Definition fee_filter_dec : decoder Z (conv_err eof_err ff_err) :=
  newtype_dec (array_dec 8) CDec
    (fun b => match fee_filter_of (le_val b) with Ret (Ok r) => Ok r | Ret (Err e) => Err (CBad e) | Panic => Err (CBad (FfInvalid 0)) end).
(** Ping and Pong: message.rs:503-586 *)
Definition nonce_dec : decoder N eof_err := newtype_dec (array_dec 8) (fun e => e) (fun b => Ok (le_val b)).

(** NetworkHeader: message.rs:1537-1583 *)
Definition net_header_encode (h : header * N) : bytes := header_encode (fst h) ++ [snd h].
Definition net_header_dec : decoder (header * N) (err2 header_err eof_err) :=
  newtype_dec (dec2 header_dec (array_dec 1)) (fun e => e) (fun '(h, l) => Ok (h, le_val l)).
(** HeadersMessage::is_connected, message.rs:1591-1596 *)
Fixpoint is_connected (sha256d : bytes -> bytes) (l : list (header * N)) : bool :=
  match l with
  | a :: ((b :: _) as l') => beqb (sha256d (header_encode (fst a))) (h_prev (fst b)) && is_connected sha256d l'
  | _ => true
  end.
