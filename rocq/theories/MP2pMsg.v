(** Peer-to-peer messages and their two transports: p2p/src/message.rs.
    [sha256d] is the hash of the checksum (hashes/src/sha256d, modelled in MHash). *)
From Coq Require Import String.
From Verif Require Import Base MDec MWitness MTx MAmount MText MPmt MBip152 MP2p.
Local Open Scope N_scope.

(** ** CommandString, message.rs:54: 12 bytes *)
Definition is_ascii_bytes (b : bytes) : bool := forallb (fun x => x <? 128) b.
(** message.rs:61-63 *)
Fixpoint interior_null (b : bytes) : bool :=
  match b with
  | [] => false
  | x :: b' => if x =? 0 then existsb (fun c => negb (c =? 0)) b else interior_null b'
  end.
(** message.rs:76-89 *)
Definition command_of (s : str) : result bytes str :=
  if negb (is_ascii s) || (12 <? str_len s) then Err s else
  let buf := as_bytes s ++ repeat 0 (12 - length (as_bytes s)) in
  if interior_null buf then Err s else Ok buf.
(** message.rs:117-121; the bytes are ASCII, so they are the characters *)
Fixpoint trim_zeros (s : str) : str :=
  match s with
  | [] => []
  | c :: s' => match trim_zeros s' with [] => if c =? 0 then [] else [c] | t => c :: t end
  end.
Definition command_str (c : bytes) : str := trim_zeros c.
(** message.rs:156-174 *)
Inductive command_err := CmdEof (e : eof_err) | CmdNotAscii.
Definition command_dec : decoder bytes command_err :=
  newtype_dec (array_dec 12) CmdEof (fun b => if negb (is_ascii_bytes b) || interior_null b then Err CmdNotAscii else Ok b).

(** ** V1MessageHeader: message.rs:194-287 *)
Record v1_header := mk_v1h { mh_magic : bytes; mh_command : bytes; mh_length : N; mh_checksum : bytes }.
Definition v1_header_encode (h : v1_header) : bytes :=
  mh_magic h ++ mh_command h ++ le_bytes 4 (mh_length h) ++ mh_checksum h.
Definition v1_header_err := err4 eof_err command_err eof_err eof_err.
Definition v1_header_dec : decoder v1_header v1_header_err :=
  newtype_dec (dec4 (array_dec 4) command_dec (array_dec 4) (array_dec 4)) (fun e => e)
    (fun '(m, c, l, k) => Ok (mk_v1h m c (le_val l) k)).

(** ** NetworkMessage: message.rs:591-675; MESSAGE carries the messages without content *)
Inductive bare := Verack | MemPool | SendHeaders | GetAddr | FilterClear | WtxidRelay | SendAddrV2.
Inductive message :=
| MBare (b : bare)
| MVersion (v : version_msg)
| MAddr (l : list (N * address))
| MInv (l : list inventory) | MGetData (l : list inventory) | MNotFound (l : list inventory)
| MGetBlocks (g : get_blocks) | MGetHeaders (g : get_blocks)
| MTx (t : transaction) | MBlock (b : block) | MHeaders (l : list (header * N))
| MPing (n : N) | MPong (n : N)
| MMerkleBlock (m : merkle_block)
| MFilterLoad (f : filter_load) | MFilterAdd (b : bytes)
| MGetCFilters (g : get_cf) | MCFilter (c : cfilter) | MGetCFHeaders (g : get_cf) | MCFHeaders (c : cfheaders)
| MGetCFCheckpt (g : N * bytes) | MCFCheckpt (c : cfcheckpt)
| MSendCmpct (s : bool * N) | MCmpctBlock (c : compact_block) | MGetBlockTxn (r : request) | MBlockTxn (t : block_txs)
| MAlert (b : bytes) | MReject (r : reject) | MFeeFilter (rate : Z)
| MAddrV2 (l : list addr_v2_msg) | MSendTxRcnCl (s : N * N) | MFeature (f : str * bytes)
| MUnknown (command payload : bytes).

(** message.rs:683-725 *)
Definition bare_cmd (b : bare) : str :=
  match b with
  | Verack => lit "verack" | MemPool => lit "mempool" | SendHeaders => lit "sendheaders" | GetAddr => lit "getaddr"
  | FilterClear => lit "filterclear" | WtxidRelay => lit "wtxidrelay" | SendAddrV2 => lit "sendaddrv2"
  end.
Definition cmd (m : message) : str :=
  match m with
  | MBare b => bare_cmd b
  | MVersion _ => lit "version" | MAddr _ => lit "addr"
  | MInv _ => lit "inv" | MGetData _ => lit "getdata" | MNotFound _ => lit "notfound"
  | MGetBlocks _ => lit "getblocks" | MGetHeaders _ => lit "getheaders"
  | MTx _ => lit "tx" | MBlock _ => lit "block" | MHeaders _ => lit "headers"
  | MPing _ => lit "ping" | MPong _ => lit "pong" | MMerkleBlock _ => lit "merkleblock"
  | MFilterLoad _ => lit "filterload" | MFilterAdd _ => lit "filteradd"
  | MGetCFilters _ => lit "getcfilters" | MCFilter _ => lit "cfilter"
  | MGetCFHeaders _ => lit "getcfheaders" | MCFHeaders _ => lit "cfheaders"
  | MGetCFCheckpt _ => lit "getcfcheckpt" | MCFCheckpt _ => lit "cfcheckpt"
  | MSendCmpct _ => lit "sendcmpct" | MCmpctBlock _ => lit "cmpctblock"
  | MGetBlockTxn _ => lit "getblocktxn" | MBlockTxn _ => lit "blocktxn"
  | MAlert _ => lit "alert" | MReject _ => lit "reject" | MFeeFilter _ => lit "feefilter"
  | MAddrV2 _ => lit "addrv2" | MSendTxRcnCl _ => lit "sendtxrcncl" | MFeature _ => lit "feature"
  | MUnknown _ _ => lit "unknown"
  end.
(** message.rs:732-737; the panic is the [expect] *)
Definition command (m : message) : rust bytes :=
  match m with
  | MUnknown c _ => Ret c
  | _ => match command_of (cmd m) with Ok c => Ret c | Err _ => Panic end
  end.
(** NetworkMessageEncoder::new and its chunks, message.rs:880-926, 930-1025 *)
Definition payload_encode (m : message) : bytes :=
  match m with
  | MBare _ => []
  | MVersion v => version_encode v
  | MAddr l => slice_encode addr_v1_encode l
  | MInv l | MGetData l | MNotFound l => slice_encode inventory_encode l
  | MGetBlocks g | MGetHeaders g => get_blocks_encode g
  | MTx t => tx_encode t
  | MBlock b => block_encode b
  | MHeaders l => slice_encode net_header_encode l
  | MPing n | MPong n => le_bytes 8 n
  | MMerkleBlock m => mb_encode m
  | MFilterLoad f => filter_load_encode f
  | MFilterAdd b => prefixed b
  | MGetCFilters g | MGetCFHeaders g => get_cf_encode g
  | MCFilter c => cfilter_encode c
  | MCFHeaders c => cfheaders_encode c
  | MGetCFCheckpt g => get_cfcheckpt_encode g
  | MCFCheckpt c => cfcheckpt_encode c
  | MSendCmpct s => send_cmpct_encode s
  | MCmpctBlock c => cb_encode c
  | MGetBlockTxn r => request_encode r
  | MBlockTxn t => block_txs_encode t
  | MAlert b => prefixed b
  | MReject r => reject_encode r
  | MFeeFilter r => fee_filter_encode r
  | MAddrV2 l => slice_encode addr_v2_msg_encode l
  | MSendTxRcnCl s => rcncl_encode s
  | MFeature f => feature_encode f
  | MUnknown _ p => p
  end.

(** ** NetworkMessageDecoderInner, message.rs:1028-1067.  The variants holding a decoder are named by [kind]; their
    errors are all mapped to Payload (1120, 1170), here [tt]. *)
Inductive kind :=
| KVersion | KAddr | KInv | KGetData | KNotFound | KGetBlocks | KGetHeaders | KTx | KBlock | KHeaders | KPing | KPong
| KMerkleBlock | KFilterLoad | KFilterAdd | KGetCFilters | KCFilter | KGetCFHeaders | KCFHeaders | KGetCFCheckpt | KCFCheckpt
| KSendCmpct | KCmpctBlock | KGetBlockTxn | KBlockTxn | KAlert | KReject | KFeeFilter | KAddrV2 | KSendTxRcnCl | KFeature.
Definition wrap {A E} (D : decoder A E) (c : A -> message) : decoder message unit :=
  newtype_dec D (fun _ => tt) (fun a => Ok (c a)).
(** message.rs:1072-1104 and 1172-1202.  The payload types InventoryPayload 296-331, AddrPayload 334-369, AddrV2Payload
    372-407 and HeadersMessage 1598-1635 are vectors. *)
Definition kind_dec (k : kind) : decoder message unit :=
  match k with
  | KVersion => wrap version_dec MVersion
  | KAddr => wrap (vec_dec addr_v1_dec MAX_VEC_SIZE) MAddr
  | KInv => wrap (vec_dec inventory_dec MAX_VEC_SIZE) MInv
  | KGetData => wrap (vec_dec inventory_dec MAX_VEC_SIZE) MGetData
  | KNotFound => wrap (vec_dec inventory_dec MAX_VEC_SIZE) MNotFound
  | KGetBlocks => wrap get_blocks_dec MGetBlocks
  | KGetHeaders => wrap get_blocks_dec MGetHeaders
  | KTx => wrap tx_dec MTx
  | KBlock => wrap block_dec MBlock
  | KHeaders => wrap (vec_dec net_header_dec MAX_VEC_SIZE) MHeaders
  | KPing => wrap nonce_dec MPing
  | KPong => wrap nonce_dec MPong
  | KMerkleBlock => wrap mb_dec MMerkleBlock
  | KFilterLoad => wrap filter_load_dec MFilterLoad
  | KFilterAdd => wrap blob_dec MFilterAdd
  | KGetCFilters => wrap get_cf_dec MGetCFilters
  | KCFilter => wrap cfilter_dec MCFilter
  | KGetCFHeaders => wrap get_cf_dec MGetCFHeaders
  | KCFHeaders => wrap cfheaders_dec MCFHeaders
  | KGetCFCheckpt => wrap get_cfcheckpt_dec MGetCFCheckpt
  | KCFCheckpt => wrap cfcheckpt_dec MCFCheckpt
  | KSendCmpct => wrap send_cmpct_dec MSendCmpct
  | KCmpctBlock => wrap cb_dec MCmpctBlock
  | KGetBlockTxn => wrap request_dec MGetBlockTxn
  | KBlockTxn => wrap block_txs_dec MBlockTxn
  | KAlert => wrap blob_dec MAlert
  | KReject => wrap reject_dec MReject
  | KFeeFilter => wrap fee_filter_dec MFeeFilter
  | KAddrV2 => wrap (vec_dec addr_v2_msg_dec MAX_VEC_SIZE) MAddrV2
  | KSendTxRcnCl => wrap rcncl_dec MSendTxRcnCl
  | KFeature => wrap feature_dec MFeature
  end.
(** message.rs:1203-1212 *)
Definition bares : list (str * bare) :=
  [(lit "verack", Verack); (lit "mempool", MemPool); (lit "sendheaders", SendHeaders); (lit "getaddr", GetAddr);
   (lit "wtxidrelay", WtxidRelay); (lit "filterclear", FilterClear); (lit "sendaddrv2", SendAddrV2)].
Fixpoint lookup {V} (s : str) (l : list (str * V)) : option V :=
  match l with
  | [] => None
  | (k, v) :: l' => if str_eqb s k then Some v else lookup s l'
  end.
(** Self::Empty(command): 1152, 1203-1212, 1254 *)
Definition empty_dec (c : bytes) : decoder message unit :=
  {| st := unit; init := tt; push := fun s l => (s, l, Ready);
     fin := fun _ => Ret (match lookup (command_str c) bares with Some b => Ok (MBare b) | None => Err tt end);
     lim := fun _ => 0 |}.
(** Self::Unknown: 1153-1164, 1213-1218, 1255; the state is [remaining] and [buffer] *)
Definition unknown_push (s : N * bytes) (l : bytes) : (N * bytes) * bytes * pstatus unit :=
  let n := N.min (lenN l) (fst s) in
  let s' := (fst s - n, snd s ++ takeN n l) in
  (s', dropN n l, if 0 <? fst s' then NeedsMore else Ready).
Definition unknown_dec (c : bytes) (n : N) : decoder message unit :=
  {| st := N * bytes; init := (n, []); push := unknown_push;
     fin := fun s => Ret (if fst s =? 0 then Ok (MUnknown c (snd s)) else Err tt);
     lim := fst |}.
Inductive mode := KindMode (k : kind) | EmptyMode (command : bytes) | UnknownMode (command : bytes) (remaining : N).
Definition inner_dec (m : mode) : decoder message unit :=
  match m with KindMode k => kind_dec k | EmptyMode c => empty_dec c | UnknownMode c n => unknown_dec c n end.
(** message.rs:1071-1104 *)
Definition kind_names : list (str * kind) :=
  [(lit "version", KVersion); (lit "addr", KAddr); (lit "inv", KInv); (lit "getdata", KGetData);
   (lit "notfound", KNotFound); (lit "getblocks", KGetBlocks); (lit "getheaders", KGetHeaders); (lit "tx", KTx);
   (lit "block", KBlock); (lit "headers", KHeaders); (lit "ping", KPing); (lit "pong", KPong);
   (lit "merkleblock", KMerkleBlock); (lit "filterload", KFilterLoad); (lit "filteradd", KFilterAdd);
   (lit "getcfilters", KGetCFilters); (lit "cfilter", KCFilter); (lit "getcfheaders", KGetCFHeaders);
   (lit "cfheaders", KCFHeaders); (lit "getcfcheckpt", KGetCFCheckpt); (lit "cfcheckpt", KCFCheckpt);
   (lit "sendcmpct", KSendCmpct); (lit "cmpctblock", KCmpctBlock); (lit "getblocktxn", KGetBlockTxn);
   (lit "blocktxn", KBlockTxn); (lit "alert", KAlert); (lit "reject", KReject); (lit "feefilter", KFeeFilter);
   (lit "sendtxrcncl", KSendTxRcnCl); (lit "addrv2", KAddrV2); (lit "feature", KFeature)].
Definition empty_names : list str :=
  [lit "verack"; lit "sendheaders"; lit "mempool"; lit "getaddr"; lit "wtxidrelay"; lit "filterclear"; lit "sendaddrv2"].
(** message.rs:1069-1111 *)
Definition v1_mode (command : bytes) (payload_len : N) : mode :=
  let s := command_str command in
  if existsb (str_eqb s) empty_names then EmptyMode command else
  match lookup s kind_names with
  | Some k => KindMode k
  | None => UnknownMode command payload_len
  end.

(** ** V1 *)
Section V1.
Context (sha256d : bytes -> bytes).

(** sha2_checksum, message.rs:1838-1847; the engine's byte counter is modelled in MHash *)
Definition sha2_checksum (data : bytes) : N * bytes := (lenN data, firstn 4 (sha256d data)).
(** message.rs:217-222 *)
Definition v1_header_new (magic payload command : bytes) : rust v1_header :=
  let '(n, k) := sha2_checksum payload in
  if n <? 4294967296 then Ret (mk_v1h magic command n k) else Panic.
(** message.rs:742-757, 780-830: V1NetworkMessage, new, and its encoder *)
Record v1_message := mk_v1 { v1_head : v1_header; v1_payload : message }.
Definition v1_new (magic : bytes) (m : message) : rust v1_message :=
  rbind (command m) (fun c => rbind (v1_header_new magic (payload_encode m) c) (fun h => Ret (mk_v1 h m))).
Definition v1_encode (m : v1_message) : bytes := v1_header_encode (v1_head m) ++ payload_encode (v1_payload m).

Inductive v1_err := EHeader (e : v1_header_err) | EPayload | ELength (expected actual : N)
                  | EChecksum (expected actual : bytes) | ETooLarge.
(** DecoderState, message.rs:1319-1330; NetworkMessageDecoder (1261-1274) is [n], [mo], [s] and [consumed]; [engine] is
    what the checksum engine has been given *)
Inductive v1_state :=
| V1Header (s : st v1_header_dec)
| V1Payload (magic checksum : bytes) (n : N) (mo : mode) (s : st (inner_dec mo)) (consumed : N) (engine : bytes).
(** message.rs:1286-1291, 1386-1392 *)
Definition v1_push_payload (magic checksum : bytes) (n : N) (mo : mode) (s : st (inner_dec mo)) (consumed : N) (engine l : bytes)
  : v1_state * bytes * pstatus v1_err :=
  match push (inner_dec mo) s l with
  | (s', r, NeedsMore) =>
      (V1Payload magic checksum n mo s' (consumed + (lenN l - lenN r)) (engine ++ takeN (lenN l - lenN r) l), r, NeedsMore)
  | (s', r, Ready) =>
      (V1Payload magic checksum n mo s' (consumed + (lenN l - lenN r)) (engine ++ takeN (lenN l - lenN r) l), r, Ready)
  | (s', r, PErr _) => (V1Payload magic checksum n mo s' consumed engine, r, PErr EPayload)
  | (s', r, PPanic) => (V1Payload magic checksum n mo s' consumed engine, r, PPanic)
  end.
Definition MAX_MSG_SIZE : N := 5000000.
(** message.rs:1352-1394 *)
Definition v1_push (s : v1_state) (l : bytes) : v1_state * bytes * pstatus v1_err :=
  match s with
  | V1Header hs =>
      match push v1_header_dec hs l with
      | (hs', r, NeedsMore) => (V1Header hs', r, NeedsMore)
      | (hs', r, PErr e) => (V1Header hs', r, PErr (EHeader e))
      | (hs', r, PPanic) => (V1Header hs', r, PPanic)
      | (hs', r, Ready) =>
          match fin v1_header_dec hs' with
          | Panic => (V1Header (init v1_header_dec), r, PPanic)
          | Ret (Err e) => (V1Header (init v1_header_dec), r, PErr (EHeader e))
          | Ret (Ok h) =>
              if MAX_MSG_SIZE <? mh_length h then (V1Header (init v1_header_dec), r, PErr ETooLarge) else
              let mo := v1_mode (mh_command h) (mh_length h) in
              v1_push_payload (mh_magic h) (mh_checksum h) (mh_length h) mo (init (inner_dec mo)) 0 [] r
          end
      end
  | V1Payload magic checksum n mo s c e => v1_push_payload magic checksum n mo s c e l
  end.
(** message.rs:1293-1305, 1396-1425 *)
Definition v1_fin (s : v1_state) : rust (result v1_message v1_err) :=
  match s with
  | V1Header hs =>
      match fin v1_header_dec hs with
      | Panic => Panic
      | Ret (Err e) => Ret (Err (EHeader e))
      | Ret (Ok _) => Panic
      end
  | V1Payload magic checksum n mo s c engine =>
      if negb (c =? n) then Ret (Err (ELength n c)) else
      match fin (inner_dec mo) s with
      | Panic => Panic
      | Ret (Err _) => Ret (Err EPayload)
      | Ret (Ok m) =>
          let expected := firstn 4 (sha256d engine) in
          if negb (beqb checksum expected) then Ret (Err (EChecksum expected checksum)) else
          rbind (v1_new magic m) (fun x => Ret (Ok x))
      end
  end.
(** message.rs:1308-1314, 1427-1432 *)
Definition v1_lim (s : v1_state) : N :=
  match s with
  | V1Header hs => lim v1_header_dec hs
  | V1Payload _ _ n mo s c _ => N.min (lim (inner_dec mo) s) (n - c)
  end.
Definition v1_dec : decoder v1_message v1_err :=
  {| st := v1_state; init := V1Header (init v1_header_dec); push := v1_push; fin := v1_fin; lim := v1_lim |}.
End V1.

(** ** V2 *)
(** message.rs:1464-1505; 0: the name is written out *)
Definition short_id (m : message) : N :=
  match m with
  | MAddr _ => 1 | MBlock _ => 2 | MBlockTxn _ => 3 | MCmpctBlock _ => 4 | MFeeFilter _ => 5 | MFilterAdd _ => 6
  | MBare FilterClear => 7 | MFilterLoad _ => 8 | MGetBlocks _ => 9 | MGetBlockTxn _ => 10 | MGetData _ => 11
  | MGetHeaders _ => 12 | MHeaders _ => 13 | MInv _ => 14 | MBare MemPool => 15 | MMerkleBlock _ => 16 | MNotFound _ => 17
  | MPing _ => 18 | MPong _ => 19 | MSendCmpct _ => 20 | MTx _ => 21 | MGetCFilters _ => 22 | MCFilter _ => 23
  | MGetCFHeaders _ => 24 | MCFHeaders _ => 25 | MGetCFCheckpt _ => 26 | MCFCheckpt _ => 27 | MAddrV2 _ => 28
  | MFeature _ => 37
  | MVersion _ | MBare Verack | MBare SendHeaders | MBare GetAddr | MBare WtxidRelay | MBare SendAddrV2 | MAlert _
  | MReject _ | MSendTxRcnCl _ | MUnknown _ _ => 0
  end.
(** message.rs:1443-1531 *)
Definition v2_encode (m : message) : rust bytes :=
  if short_id m =? 0 then rbind (command m) (fun c => Ret (0 :: c ++ payload_encode m))
  else Ret (short_id m :: payload_encode m).
Definition pad12 (s : str) : bytes := s ++ repeat 0 (12 - length s).
(** message.rs:1670-1712 *)
Fixpoint assocN {V} (n : N) (l : list (N * V)) : option V :=
  match l with
  | [] => None
  | (k, v) :: l' => if n =? k then Some v else assocN n l'
  end.
Definition short_ids : list (N * mode) :=
  [(1, KindMode KAddr); (2, KindMode KBlock); (3, KindMode KBlockTxn); (4, KindMode KCmpctBlock); (5, KindMode KFeeFilter);
   (6, KindMode KFilterAdd); (7, EmptyMode (pad12 (lit "filterclear"))); (8, KindMode KFilterLoad); (9, KindMode KGetBlocks);
   (10, KindMode KGetBlockTxn); (11, KindMode KGetData); (12, KindMode KGetHeaders); (13, KindMode KHeaders);
   (14, KindMode KInv); (15, EmptyMode (pad12 (lit "mempool"))); (16, KindMode KMerkleBlock); (17, KindMode KNotFound);
   (18, KindMode KPing); (19, KindMode KPong); (20, KindMode KSendCmpct); (21, KindMode KTx); (22, KindMode KGetCFilters);
   (23, KindMode KCFilter); (24, KindMode KGetCFHeaders); (25, KindMode KCFHeaders); (26, KindMode KGetCFCheckpt);
   (27, KindMode KCFCheckpt); (28, KindMode KAddrV2); (37, KindMode KFeature)].
(** message.rs:1715-1731 *)
Definition v2_empty_names : list str :=
  [lit "verack"; lit "sendheaders"; lit "getaddr"; lit "wtxidrelay"; lit "sendaddrv2"].
Definition v2_kind_names : list (str * kind) :=
  [(lit "version", KVersion); (lit "alert", KAlert); (lit "reject", KReject); (lit "sendtxrcncl", KSendTxRcnCl)].
Definition v2_mode (command : bytes) : mode :=
  let s := command_str command in
  if existsb (str_eqb s) v2_empty_names then EmptyMode command else
  match lookup s v2_kind_names with
  | Some k => KindMode k
  | None => UnknownMode command 0
  end.
Inductive v2_err := V2ShortId | V2UnknownId (id : N) | V2Command (e : command_err) | V2PayloadErr.
(** message.rs:1640-1651 *)
Inductive v2_state :=
| V2Short (s : st (array_dec 1))
| V2Cmd (s : st command_dec)
| V2Payload (mo : mode) (s : st (inner_dec mo))
| V2Errored.
(** message.rs:1738-1800, the loop unrolled from the last state backwards *)
Definition v2_push_payload (mo : mode) (s : st (inner_dec mo)) (l : bytes) : v2_state * bytes * pstatus v2_err :=
  match push (inner_dec mo) s l with
  | (s', r, NeedsMore) => (V2Payload mo s', r, NeedsMore)
  | (s', r, Ready) => (V2Payload mo s', r, Ready)
  | (_, r, PErr _) => (V2Errored, r, PErr V2PayloadErr)
  | (_, r, PPanic) => (V2Errored, r, PPanic)
  end.
Definition v2_push_cmd (s : st command_dec) (l : bytes) : v2_state * bytes * pstatus v2_err :=
  match push command_dec s l with
  | (s', r, NeedsMore) => (V2Cmd s', r, NeedsMore)
  | (s', r, PErr e) => (V2Cmd s', r, PErr (V2Command e))
  | (s', r, PPanic) => (V2Cmd s', r, PPanic)
  | (s', r, Ready) =>
      match fin command_dec s' with
      | Panic => (V2Errored, r, PPanic)
      | Ret (Err e) => (V2Errored, r, PErr (V2Command e))
      | Ret (Ok c) => v2_push_payload (v2_mode c) (init (inner_dec (v2_mode c))) r
      end
  end.
Definition v2_push (s : v2_state) (l : bytes) : v2_state * bytes * pstatus v2_err :=
  match s with
  | V2Short s0 =>
      match push (array_dec 1) s0 l with
      | (s', r, NeedsMore) => (V2Short s', r, NeedsMore)
      | (s', r, PErr _) => (V2Short s', r, PErr V2ShortId)
      | (s', r, PPanic) => (V2Short s', r, PPanic)
      | (s', r, Ready) =>
          match fin (array_dec 1) s' with
          | Panic => (V2Errored, r, PPanic)
          | Ret (Err _) => (V2Errored, r, PErr V2ShortId)
          | Ret (Ok b) =>
              let id := hd 0 b in
              if id =? 0 then v2_push_cmd (init command_dec) r else
              match assocN id short_ids with
              | None => (V2Errored, r, PErr (V2UnknownId id))
              | Some mo => v2_push_payload mo (init (inner_dec mo)) r
              end
          end
      end
  | V2Cmd s0 => v2_push_cmd s0 l
  | V2Payload mo s0 => v2_push_payload mo s0 l
  | V2Errored => (s, l, PPanic)
  end.
(** message.rs:1802-1819 *)
Definition v2_fin (s : v2_state) : rust (result message v2_err) :=
  match s with
  | V2Short s0 => match fin (array_dec 1) s0 with Ret (Err _) => Ret (Err V2ShortId) | _ => Panic end
  | V2Cmd s0 => match fin command_dec s0 with Ret (Err e) => Ret (Err (V2Command e)) | _ => Panic end
  | V2Payload mo s0 =>
      match fin (inner_dec mo) s0 with
      | Panic => Panic
      | Ret (Err _) => Ret (Err V2PayloadErr)
      | Ret (Ok m) => Ret (Ok m)
      end
  | V2Errored => Panic
  end.
(** message.rs:1821-1830 *)
Definition v2_lim (s : v2_state) : N :=
  match s with
  | V2Short s0 => lim (array_dec 1) s0
  | V2Cmd s0 => lim command_dec s0
  | V2Payload mo s0 => lim (inner_dec mo) s0
  | V2Errored => 0
  end.
Definition v2_dec : decoder message v2_err :=
  {| st := v2_state; init := V2Short (init (array_dec 1)); push := v2_push; fin := v2_fin; lim := v2_lim |}.
