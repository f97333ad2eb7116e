(** Networks: network/src/lib.rs, bitcoin/src/network/mod.rs, p2p/src/lib.rs (Magic), p2p/src/network_ext.rs and the genesis blocks of
    bitcoin/src/blockdata/constants.rs.  [network] is MPow's: TestnetVersion has no other variants inside this repository, so the
    catch-all arms for future versions are not modelled, nor are serde and Debug. *)
From Coq Require Import String.
From Verif Require MP2p.
From Verif Require Import Base MDec MWitness MText MTx MScript MMerkle MBip32 MPow.
Local Open Scope N_scope.

(** NetworkKind::from :62-69 *)
Definition kind_of (n : network) : net_kind := match n with Bitcoin => NMain | _ => NTest end.
Definition is_mainnet (k : net_kind) : bool := match k with NMain => true | NTest => false end.
(** to_core_arg :107-116 *)
Definition to_core_arg (n : network) : str :=
  match n with Bitcoin => lit "main" | Testnet3 => lit "test" | Testnet4 => lit "testnet4" | Signet => lit "signet" | Regtest => lit "regtest" end.
(** from_core_arg :130-140; the error holds the input *)
Definition from_core_arg (s : str) : result network str :=
  if str_eqb s (lit "main") then Ok Bitcoin else if str_eqb s (lit "test") then Ok Testnet3 else if str_eqb s (lit "testnet4") then Ok Testnet4
  else if str_eqb s (lit "signet") then Ok Signet else if str_eqb s (lit "regtest") then Ok Regtest else Err s.
(** as_display_str :143-151, Display :154 *)
Definition net_display (n : network) : str :=
  match n with Bitcoin => lit "bitcoin" | Testnet3 => lit "testnet" | Testnet4 => lit "testnet4" | Signet => lit "signet" | Regtest => lit "regtest" end.
(** FromStr :160-176 *)
Definition net_from_str (s : str) : result network str :=
  if str_eqb s (lit "bitcoin") then Ok Bitcoin else if str_eqb s (lit "testnet") then Ok Testnet3 else if str_eqb s (lit "testnet4") then Ok Testnet4
  else if str_eqb s (lit "signet") then Ok Signet else if str_eqb s (lit "regtest") then Ok Regtest else Err s.

(** * Magic bytes: p2p/src/lib.rs *)
(** :343-351 *)
Definition MAGIC_BITCOIN : bytes := [0xF9; 0xBE; 0xB4; 0xD9].
Definition MAGIC_TESTNET3 : bytes := [0x0B; 0x11; 0x09; 0x07].
Definition MAGIC_TESTNET4 : bytes := [0x1c; 0x16; 0x3f; 0x28].
Definition MAGIC_SIGNET : bytes := [0x0A; 0x03; 0xCF; 0x40].
Definition MAGIC_REGTEST : bytes := [0xFA; 0xBF; 0xB5; 0xDA].
(** TryFrom<Network> :375-388, default_network_magic p2p/src/network_ext.rs:57-66 *)
Definition magic_of (n : network) : bytes :=
  match n with Bitcoin => MAGIC_BITCOIN | Testnet3 => MAGIC_TESTNET3 | Testnet4 => MAGIC_TESTNET4 | Signet => MAGIC_SIGNET | Regtest => MAGIC_REGTEST end.
(** TryFrom<Magic> :390-403; the error holds the magic *)
Definition net_of_magic (m : bytes) : result network bytes :=
  if beqb m MAGIC_BITCOIN then Ok Bitcoin else if beqb m MAGIC_TESTNET3 then Ok Testnet3 else if beqb m MAGIC_TESTNET4 then Ok Testnet4
  else if beqb m MAGIC_SIGNET then Ok Signet else if beqb m MAGIC_REGTEST then Ok Regtest else Err m.
(** FromStr :364-373, LowerHex :413, UpperHex :420 *)
Definition magic_from_str (s : str) : result bytes (hex_array_err * str) := match decode_to_array 4 s with Ok b => Ok b | Err e => Err (e, s) end.
Definition magic_display (upper : bool) (m : bytes) : str := hex_bytes upper m.
(** default_p2p_port network_ext.rs:28-37, default_rpc_port :43-51 *)
Definition default_p2p_port (n : network) : N := match n with Bitcoin => 8333 | Signet => 38333 | Testnet3 => 18333 | Testnet4 => 48333 | Regtest => 18444 end.
Definition default_rpc_port (n : network) : N := match n with Bitcoin => 8332 | Signet => 38332 | Testnet3 => 18332 | Testnet4 => 48332 | Regtest => 18442 end.

(** * Chain hashes: constants.rs *)
(** :213-242 *)
Definition CHAIN_BITCOIN : bytes :=
  [111; 226; 140; 10; 182; 241; 179; 114; 193; 166; 162; 70; 174; 99; 247; 79; 147; 30; 131; 101; 225; 90; 8; 156; 104; 214; 25; 0; 0; 0; 0; 0].
Definition CHAIN_TESTNET3 : bytes :=
  [67; 73; 127; 215; 248; 38; 149; 113; 8; 244; 163; 15; 217; 206; 195; 174; 186; 121; 151; 32; 132; 233; 14; 173; 1; 234; 51; 9; 0; 0; 0; 0].
Definition CHAIN_TESTNET4 : bytes :=
  [67; 240; 139; 218; 176; 80; 227; 91; 86; 124; 134; 75; 145; 244; 127; 80; 174; 114; 90; 226; 222; 83; 188; 251; 186; 242; 132; 218; 0; 0; 0; 0].
Definition CHAIN_SIGNET : bytes :=
  [246; 30; 238; 59; 99; 163; 128; 164; 119; 160; 99; 175; 50; 178; 187; 201; 124; 159; 249; 240; 31; 44; 66; 37; 233; 115; 152; 129; 8; 0; 0; 0].
Definition CHAIN_REGTEST : bytes :=
  [6; 34; 110; 70; 17; 26; 11; 89; 202; 175; 18; 96; 67; 235; 91; 191; 40; 195; 79; 58; 94; 51; 42; 31; 199; 178; 183; 60; 241; 136; 145; 15].
(** using_genesis_block_const :263-272 (and using_genesis_block :248); chain_hash bitcoin/src/network/mod.rs:57 *)
Definition chain_hash (n : network) : bytes :=
  match n with Bitcoin => CHAIN_BITCOIN | Testnet3 => CHAIN_TESTNET3 | Testnet4 => CHAIN_TESTNET4 | Signet => CHAIN_SIGNET | Regtest => CHAIN_REGTEST end.
(** TryFrom<ChainHash> mod.rs:108-122; from_chain_hash :59 *)
Definition net_of_chain_hash (h : bytes) : result network bytes :=
  if beqb h CHAIN_BITCOIN then Ok Bitcoin else if beqb h CHAIN_TESTNET3 then Ok Testnet3 else if beqb h CHAIN_TESTNET4 then Ok Testnet4
  else if beqb h CHAIN_SIGNET then Ok Signet else if beqb h CHAIN_REGTEST then Ok Regtest else Err h.
Definition from_chain_hash (h : bytes) : option network := match net_of_chain_hash h with Ok n => Some n | Err _ => None end.
(** include/array_newtype.rs:12-50: FromStr and Display, bytes in their own order *)
Definition chain_from_str (s : str) : result bytes hex_array_err := decode_to_array 32 s.
Definition chain_display (upper : bool) (h : bytes) : str := hex_bytes upper h.

(** * Genesis blocks *)
(** :61-74 *)
Definition GENESIS_OUTPUT_PK : bytes :=
  [0x04; 0x67; 0x8a; 0xfd; 0xb0; 0xfe; 0x55; 0x48; 0x27; 0x19; 0x67; 0xf1; 0xa6; 0x71; 0x30; 0xb7; 0x10; 0x5c; 0xd6; 0xa8; 0x28; 0xe0;
   0x39; 0x09; 0xa6; 0x79; 0x62; 0xe0; 0xea; 0x1f; 0x61; 0xde; 0xb6; 0x49; 0xf6; 0xbc; 0x3f; 0x4c; 0xef; 0x38; 0xc4; 0xf3; 0x55; 0x04;
   0xe5; 0x1e; 0xc1; 0x12; 0xde; 0x5c; 0x38; 0x4d; 0xf7; 0xba; 0x0b; 0x8d; 0x57; 0x8a; 0x4c; 0x70; 0x2b; 0x6b; 0xf1; 0x1d; 0x5f].
Definition TESTNET4_GENESIS_OUTPUT_PK : bytes := repeat 0 33.
(** bitcoin_genesis_tx :77-119 *)
Definition genesis_tx (n : network) : rust transaction :=
  let build (text pk : bytes) :=
    rbind (sb_push_int_unchecked [] 486604799) (fun s =>
    rbind (sb_push_int_non_minimal s 4) (fun s =>
    Ret (sb_push_slice s text, sb_push_opcode (sb_push_slice [] pk) OP_CHECKSIG))) in
  rbind (match n with
         | Testnet4 => build (lit "03/May/2024 000000000000000000001ebd58c244970b3aa9d783bb001011fbe8ea8e98e00e") TESTNET4_GENESIS_OUTPUT_PK
         | _ => build (lit "The Times 03/Jan/2009 Chancellor on brink of second bailout for banks") GENESIS_OUTPUT_PK
         end) (fun '(in_script, out_script) =>
  Ret {| tx_version := 1; tx_lock_time := 0;
         tx_inputs := [{| ti_prevout := COINBASE_PREVOUT; ti_script := in_script; ti_sequence := U32_MAX; ti_witness := wit_new |}];
         tx_outputs := [{| to_amount := 50 * 100000000; to_script := out_script |}] |}).
(** genesis_block :122-202: the time, bits and nonce of each network; the block is a checked one, with its witness root *)
Definition genesis_numbers (n : network) : N * N * N :=
  match n with
  | Bitcoin => (1231006505, 0x1d00ffff, 2083236893)
  | Testnet3 => (1296688602, 0x1d00ffff, 414098458)
  | Testnet4 => (1714777860, 0x1d00ffff, 393743547)
  | Signet => (1598918400, 0x1e0377ae, 52613770)
  | Regtest => (1296688602, 0x207fffff, 2)
  end.
Definition genesis_block (sha256d : bytes -> bytes) (n : network) : rust (block * option bytes) :=
  rbind (genesis_tx n) (fun tx =>
  let txs := [tx] in
  rbind (compute_merkle_root sha256d txs) (fun merkle_root =>
  rbind (compute_witness_root sha256d txs) (fun witness_root =>
  match merkle_root with
  | None => Panic
  | Some merkle_root =>
      let '(time, bits, nonce) := genesis_numbers n in
      Ret ({| b_header := {| h_version := 1; h_prev := repeat 0 32; h_merkle := merkle_root; h_time := time; h_bits := bits; h_nonce := nonce |};
              b_txs := txs |}, witness_root)
  end))).

(** * ServiceFlags Display: p2p/src/lib.rs:236-272; [first] tells whether nothing has been written between the brackets yet *)
Definition sf_write_flag (name : str) (flag : N) (s : bool * N * str) : bool * N * str :=
  let '(first, flags, out) := s in
  if MP2p.sf_has flags flag then (false, MP2p.sf_remove flags flag, out ++ (if first : bool then [] else lit "|") ++ name) else s.
Definition sf_display (flags : N) : str :=
  if flags =? 0 then lit "ServiceFlags(NONE)"
  else
    let s := (true, flags, lit "ServiceFlags(") in
    let s := sf_write_flag (lit "NETWORK") 1 s in
    let s := sf_write_flag (lit "GETUTXO") 2 s in
    let s := sf_write_flag (lit "BLOOM") 4 s in
    let s := sf_write_flag (lit "WITNESS") 8 s in
    let s := sf_write_flag (lit "COMPACT_FILTERS") 64 s in
    let s := sf_write_flag (lit "NETWORK_LIMITED") 1024 s in
    let '(first, flags, out) := sf_write_flag (lit "P2P_V2") 2048 s in
    let out := if flags =? 0 then out else out ++ (if first then [] else lit "|") ++ lit "0x" ++ fmt_x false flags in
    out ++ lit ")".
