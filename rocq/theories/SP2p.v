(** Specification of the peer-to-peer messages, written from the protocol documentation and BIPs 37, 60, 61, 130, 133,
    144, 152, 155, 157, 324, 330, 339 and 434.  Only the types of values are shared with the model. *)
From Coq Require Import String.
From Verif Require Import Base MWitness MTx MText MPmt MBip152 MP2p MP2pMsg SWire SPmt SBip152.
Local Open Scope N_scope.

(** ** Text *)
(** UTF-8, RFC 3629: the shortest form of a scalar value *)
Inductive utf8_char : N -> bytes -> Prop :=
| u1 : forall c, c < 128 -> utf8_char c [c]
| u2 : forall a b, a < 32 -> b < 64 -> 128 <= a * 64 + b -> utf8_char (a * 64 + b) [192 + a; 128 + b]
| u3 : forall a b c, a < 16 -> b < 64 -> c < 64 -> 2048 <= a * 4096 + b * 64 + c ->
    ~ (55296 <= a * 4096 + b * 64 + c <= 57343) -> utf8_char (a * 4096 + b * 64 + c) [224 + a; 128 + b; 128 + c]
| u4 : forall a b c d, a < 8 -> b < 64 -> c < 64 -> d < 64 -> 65536 <= a * 262144 + b * 4096 + c * 64 + d < 1114112 ->
    utf8_char (a * 262144 + b * 4096 + c * 64 + d) [240 + a; 128 + b; 128 + c; 128 + d].
Definition utf8 (s : str) (b : bytes) : Prop := exists cs, Forall2 utf8_char s cs /\ b = concat cs.

(** ** Values *)
Definition is_i (n : Z) (z : Z) : Prop := (- 2 ^ (n - 1) <= z < 2 ^ (n - 1))%Z.
Definition twos (n : nat) (z : Z) : bytes := le_bytes n (Z.to_N (z mod 2 ^ (8 * Z.of_nat n))).
Definition group_ok (g : N) : Prop := g < 2 ^ 16.
Definition groups (s : list N) : bytes := concat (map (be_bytes 2) s).
Definition blob_ok (b : bytes) : Prop := lenN b <= MAX_LEN /\ bytes_ok b.
Definition fixed (n : N) (b : bytes) : Prop := lenN b = n /\ bytes_ok b.

Definition address_ok (a : address) : Prop :=
  is_u64 (a_services a) /\ lenN (a_addr a) = 8 /\ Forall group_ok (a_addr a) /\ a_port a < 2 ^ 16.
Definition wire_address (a : address) : bytes := le_bytes 8 (a_services a) ++ groups (a_addr a) ++ be_bytes 2 (a_port a).

(** BIP155; the addresses embedding another network's are refused *)
Definition addr_v2_ok (a : addr_v2) : Prop :=
  match a with
  | Ipv4 o => fixed 4 o
  | Ipv6 s => lenN s = 8 /\ Forall group_ok s /\ firstn 3 s <> [64903; 55422; 60227] /\ firstn 6 s <> [0; 0; 0; 0; 0; 65535]
  | TorV3 b | I2p b => fixed 32 b
  | Cjdns s => lenN s = 8 /\ Forall group_ok s /\ 64512 <= hd 0 s < 64768 (* FC00 to FCFF *)
  | NetUnknown n b => n < 256 /\ ~ In n [1; 2; 4; 5; 6] /\ lenN b <= 512 /\ bytes_ok b
  end.
Definition wire_addr_v2 (a : addr_v2) : bytes :=
  match a with
  | Ipv4 o => 1 :: wire_bytes o
  | Ipv6 s => 2 :: wire_bytes (groups s)
  | TorV3 b => 4 :: wire_bytes b
  | I2p b => 5 :: wire_bytes b
  | Cjdns s => 6 :: wire_bytes (groups s)
  | NetUnknown n b => n :: wire_bytes b
  end.

Definition inventory_ok (i : inventory) : Prop :=
  match i with
  | InvError h | InvTx h | InvBlock h | InvCompactBlock h | InvWTx h | InvWitnessTx h | InvWitnessBlock h => hash_ok h
  | InvUnknown t h => is_u32 t /\ ~ In t [0; 1; 2; 4; 5; 2 ^ 30 + 1; 2 ^ 30 + 2] /\ hash_ok h
  end.
Definition wire_inventory (i : inventory) : bytes :=
  match i with
  | InvError h => le_bytes 4 0 ++ h
  | InvTx h => le_bytes 4 1 ++ h
  | InvBlock h => le_bytes 4 2 ++ h
  | InvCompactBlock h => le_bytes 4 4 ++ h
  | InvWTx h => le_bytes 4 5 ++ h
  | InvWitnessTx h => le_bytes 4 (2 ^ 30 + 1) ++ h
  | InvWitnessBlock h => le_bytes 4 (2 ^ 30 + 2) ++ h
  | InvUnknown t h => le_bytes 4 t ++ h
  end.

(** ** Payloads: [reads m p] when the bytes [p] are a payload whose meaning is [m] *)
Definition reads_version (v : version_msg) (p : bytes) : Prop :=
  is_u32 (v_version v) /\ is_u64 (v_services v) /\ is_i 64 (v_timestamp v) /\ address_ok (v_receiver v) /\ address_ok (v_sender v) /\
  is_u64 (v_nonce v) /\ is_i 32 (v_start_height v) /\
  exists agent relay, utf8 (v_user_agent v) agent /\ lenN agent <= MAX_LEN /\ relay < 256 /\ (v_relay v = true <-> relay <> 0) /\
  p = le_bytes 4 (v_version v) ++ le_bytes 8 (v_services v) ++ twos 8 (v_timestamp v) ++ wire_address (v_receiver v) ++
      wire_address (v_sender v) ++ le_bytes 8 (v_nonce v) ++ wire_bytes agent ++ twos 4 (v_start_height v) ++ [relay].
Definition reject_wire (r : reject_reason) : N :=
  match r with
  | Malformed => 1 | Invalid => 16 | Obsolete => 17 | Duplicate => 18 | NonStandard => 64 | Dust => 65 | RFee => 66 | Checkpoint => 67
  end.
Definition reads_reject (r : reject) (p : bytes) : Prop :=
  hash_ok (r_hash r) /\
  exists m t, utf8 (r_message r) m /\ utf8 (r_reason r) t /\ lenN m <= MAX_LEN /\ lenN t <= MAX_LEN /\
  p = wire_bytes m ++ [reject_wire (r_ccode r)] ++ wire_bytes t ++ r_hash r.
Definition reads_get_blocks (g : get_blocks) (p : bytes) : Prop :=
  is_u32 (gb_version g) /\ list_ok hash_ok (gb_locator g) /\ hash_ok (gb_stop g) /\
  p = le_bytes 4 (gb_version g) ++ wire_list (fun h => h) (gb_locator g) ++ gb_stop g.
Definition reads_get_cf (g : get_cf) (p : bytes) : Prop :=
  is_u8 (gc_type g) /\ is_u32 (gc_height g) /\ hash_ok (gc_stop g) /\
  p = [gc_type g] ++ le_bytes 4 (gc_height g) ++ gc_stop g.
Definition flags_wire (f : bloom_flags) : N := match f with BNone => 0 | BAll => 1 | BPubkeyOnly => 2 end.

Definition reads (m : message) (p : bytes) : Prop :=
  match m with
  | MBare _ => p = []
  | MVersion v => reads_version v p
  | MAddr l => list_ok (fun x => is_u32 (fst x) /\ address_ok (snd x)) l /\
      p = wire_list (fun x => le_bytes 4 (fst x) ++ wire_address (snd x)) l
  | MInv l | MGetData l | MNotFound l => list_ok inventory_ok l /\ p = wire_list wire_inventory l
  | MGetBlocks g | MGetHeaders g => reads_get_blocks g p
  | MTx t => tx_ok t /\ p = tx_encode t (* see C01 *)
  | MBlock b => block_ok b /\ p = wire_header (b_header b) ++ wire_list tx_encode (b_txs b)
  | MHeaders l => list_ok (fun x => header_ok (fst x) /\ is_u8 (snd x)) l /\
      p = wire_list (fun x => wire_header (fst x) ++ [snd x]) l
  | MPing n | MPong n => is_u64 n /\ p = le_bytes 8 n
  | MMerkleBlock b => header_ok (mb_header b) /\ pmt_ok (mb_txn b) /\ lenN (pm_bits (mb_txn b)) mod 8 = 0 /\
      exists w, wire_pmt (mb_txn b) w /\ p = wire_header (mb_header b) ++ w
  | MFilterLoad f => blob_ok (fl_filter f) /\ is_u32 (fl_hash_funcs f) /\ is_u32 (fl_tweak f) /\
      p = wire_bytes (fl_filter f) ++ le_bytes 4 (fl_hash_funcs f) ++ le_bytes 4 (fl_tweak f) ++ [flags_wire (fl_flags f)]
  | MFilterAdd b | MAlert b => blob_ok b /\ p = wire_bytes b
  | MGetCFilters g | MGetCFHeaders g => reads_get_cf g p
  | MCFilter c => is_u8 (cf_type c) /\ hash_ok (cf_block c) /\ blob_ok (cf_filter c) /\
      p = [cf_type c] ++ cf_block c ++ wire_bytes (cf_filter c)
  | MCFHeaders c => is_u8 (ch_type c) /\ hash_ok (ch_stop c) /\ hash_ok (ch_previous c) /\ list_ok hash_ok (ch_hashes c) /\
      p = [ch_type c] ++ ch_stop c ++ ch_previous c ++ wire_list (fun h => h) (ch_hashes c)
  | MGetCFCheckpt (t, h) => is_u8 t /\ hash_ok h /\ p = [t] ++ h
  | MCFCheckpt c => is_u8 (cc_type c) /\ hash_ok (cc_stop c) /\ list_ok hash_ok (cc_headers c) /\
      p = [cc_type c] ++ cc_stop c ++ wire_list (fun h => h) (cc_headers c)
  | MSendCmpct (high, v) => is_u64 v /\ p = [if high then 1 else 0] ++ le_bytes 8 v
  | MCmpctBlock c => cb_ok c /\ p = wire_cb c
  | MGetBlockTxn r => request_ok r /\ p = wire_request r
  | MBlockTxn t => block_txs_ok t /\ p = wire_block_txs t
  | MReject r => reads_reject r p
  | MFeeFilter r => exists kvb, kvb <= 2100000000000000 /\ r = (1000 * Z.of_N kvb)%Z /\ p = le_bytes 8 kvb
  | MAddrV2 l => list_ok (fun x => is_u32 (am_time x) /\ is_u64 (am_services x) /\ addr_v2_ok (am_addr x) /\ am_port x < 2 ^ 16) l /\
      p = wire_list (fun x => le_bytes 4 (am_time x) ++ wire_compact (am_services x) ++ wire_addr_v2 (am_addr x) ++ be_bytes 2 (am_port x)) l
  | MSendTxRcnCl (v, s) => is_u32 v /\ is_u64 s /\ p = le_bytes 4 v ++ le_bytes 8 s
  | MFeature (id, d) => Forall (fun c => c < 128) id /\ 4 <= lenN id <= 80 /\ lenN d <= 512 /\ bytes_ok d /\
      p = wire_bytes id ++ wire_bytes d
  | MUnknown _ b => p = b
  end.

(** ** Names and numbers of the messages *)
Definition known : list str :=
  map lit ["version"; "verack"; "addr"; "inv"; "getdata"; "notfound"; "getblocks"; "getheaders"; "mempool"; "tx"; "block";
           "headers"; "sendheaders"; "getaddr"; "ping"; "pong"; "merkleblock"; "filterload"; "filteradd"; "filterclear";
           "getcfilters"; "cfilter"; "getcfheaders"; "cfheaders"; "getcfcheckpt"; "cfcheckpt"; "sendcmpct"; "cmpctblock";
           "getblocktxn"; "blocktxn"; "alert"; "reject"; "feefilter"; "wtxidrelay"; "addrv2"; "sendaddrv2"; "sendtxrcncl";
           "feature"]%string.
(** the position in [known], if any *)
Definition number (m : message) : option nat :=
  match m with
  | MVersion _ => Some 0 | MBare Verack => Some 1 | MAddr _ => Some 2 | MInv _ => Some 3 | MGetData _ => Some 4
  | MNotFound _ => Some 5 | MGetBlocks _ => Some 6 | MGetHeaders _ => Some 7 | MBare MemPool => Some 8 | MTx _ => Some 9
  | MBlock _ => Some 10 | MHeaders _ => Some 11 | MBare SendHeaders => Some 12 | MBare GetAddr => Some 13 | MPing _ => Some 14
  | MPong _ => Some 15 | MMerkleBlock _ => Some 16 | MFilterLoad _ => Some 17 | MFilterAdd _ => Some 18
  | MBare FilterClear => Some 19 | MGetCFilters _ => Some 20 | MCFilter _ => Some 21 | MGetCFHeaders _ => Some 22
  | MCFHeaders _ => Some 23 | MGetCFCheckpt _ => Some 24 | MCFCheckpt _ => Some 25 | MSendCmpct _ => Some 26
  | MCmpctBlock _ => Some 27 | MGetBlockTxn _ => Some 28 | MBlockTxn _ => Some 29 | MAlert _ => Some 30 | MReject _ => Some 31
  | MFeeFilter _ => Some 32 | MBare WtxidRelay => Some 33 | MAddrV2 _ => Some 34 | MBare SendAddrV2 => Some 35
  | MSendTxRcnCl _ => Some 36 | MFeature _ => Some 37
  | MUnknown _ _ => None
  end%nat.
(** The 12-byte field of a name: ASCII, padded with zeros. *)
Definition field (s : str) (c : bytes) : Prop :=
  Forall (fun x => 0 < x < 128) s /\ exists k, c = s ++ repeat 0 k /\ lenN c = 12.
(** The name fields under which the message travels; a message with a name of its own must not use a known one. *)
Definition named (m : message) (c : bytes) : Prop :=
  match number m with
  | Some i => exists s, nth_error known i = Some s /\ field s c
  | None => exists p, m = MUnknown c p /\ exists s, field s c /\ ~ In s known
  end.
(** BIP324 one-byte identifiers, and 37 for BIP434 *)
Definition ids : list (N * str) :=
  map (fun '(n, s) => (n, lit s))
  [(1, "addr"); (2, "block"); (3, "blocktxn"); (4, "cmpctblock"); (5, "feefilter"); (6, "filteradd"); (7, "filterclear");
   (8, "filterload"); (9, "getblocks"); (10, "getblocktxn"); (11, "getdata"); (12, "getheaders"); (13, "headers"); (14, "inv");
   (15, "mempool"); (16, "merkleblock"); (17, "notfound"); (18, "ping"); (19, "pong"); (20, "sendcmpct"); (21, "tx");
   (22, "getcfilters"); (23, "cfilter"); (24, "getcfheaders"); (25, "cfheaders"); (26, "getcfcheckpt"); (27, "cfcheckpt");
   (28, "addrv2"); (37, "feature")]%string.

Section Frame.
Context (sha256d : bytes -> bytes).
(** The V1 transport: a 24-byte header (network magic, name, length and checksum of the payload), then the payload. *)
Definition frame (magic c p : bytes) : bytes := magic ++ c ++ le_bytes 4 (lenN p) ++ firstn 4 (sha256d p) ++ p.
(** The V2 transport (BIP324): a one-byte identifier, or 0 and the name; then the payload. *)
Inductive reads_v2 : message -> bytes -> Prop :=
| v2_short : forall m i s id p, number m = Some i -> nth_error known i = Some s -> In (id, s) ids -> reads m p ->
    reads_v2 m (id :: p)
| v2_long : forall m i s c p, number m = Some i -> nth_error known i = Some s -> ~ In s (map snd ids) -> field s c -> reads m p ->
    reads_v2 m (0 :: c ++ p)
| v2_unknown : forall s c, field s c -> (~ In s known \/ In s (map snd ids)) -> reads_v2 (MUnknown c []) (0 :: c).
End Frame.
(** The input starts with a frame for the message [m]; [r] follows. *)
Definition framed (sha256d : bytes -> bytes) (l magic c p : bytes) (m : message) (r : bytes) : Prop :=
  l = frame sha256d magic c p ++ r /\ lenN magic = 4 /\ lenN p <= 5000000 /\ named m c /\ reads m p.

(** ** Block locators: steps of one block down to ten below the tip, then steps twice as long each time *)
Definition offset (i : N) : N := if i <=? 10 then i else 9 + 2 ^ (i - 10).
(** asking for each height in turn, until one fails *)
Fixpoint collect {E} (get : N -> result bytes E) (heights : list N) : result (list bytes) E :=
  match heights with
  | [] => Ok []
  | h :: hs => match get h with
               | Err e => Err e
               | Ok x => match collect get hs with Ok l => Ok (x :: l) | Err e => Err e end
               end
  end.
(** ** BIP157 headers: each commits to a filter and to the header before *)
Fixpoint header_chain (sha256d : bytes -> bytes) (genesis : bytes) (hashes : list bytes) : bytes :=
  match hashes with
  | [] => genesis
  | h :: hs => header_chain sha256d (sha256d (h ++ genesis)) hs
  end.
(** the messages hashed on the way *)
Fixpoint header_inputs (sha256d : bytes -> bytes) (genesis : bytes) (hashes : list bytes) : list bytes :=
  match hashes with
  | [] => []
  | h :: hs => (h ++ genesis) :: header_inputs sha256d (sha256d (h ++ genesis)) hs
  end.
