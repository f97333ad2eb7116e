(** Model of the fuzzing generators of blocks and of peer-to-peer messages, in the terms of MArb.v: primitives/src/block.rs,
    p2p/src/{address,bip152,lib,merkle_tree,message,message_blockdata,message_bloom,message_compact_blocks,message_filter,message_network}.rs. *)
From Verif Require Import Base MText MWitness MTx MDec MPmt MBip152 MP2p MP2pMsg MSocket MArb.
Local Open Scope N_scope.
Local Notation "x <- m ;; k" := (gbind m (fun x => k)) (at level 60, m at next level, right associativity).

(** i64 and i32 of the crate [arbitrary] *)
Definition arb_i64 : gen Z := any (fun z => (- 2 ^ 63 <= z < 2 ^ 63)%Z).
Definition arb_i32 : gen Z := any (fun z => (- 2 ^ 31 <= z < 2 ^ 31)%Z).
Definition arb_hash : gen bytes := arb_array 32.

(** primitives/src/block.rs:954-966: three consensus numbers or any; a version is its 32 bits *)
Definition arb_block_version : gen N :=
  choice <- int_in_range 0 3 ;; match choice with 0 => gret 1 | 1 => gret 2 | 2 => gret 0x20000000 | _ => arb_u32 end.
(** block.rs:940-951 *)
Definition arb_header : gen header :=
  v <- arb_block_version ;; p <- arb_hash ;; m <- arb_hash ;; t <- arb_u32 ;; b <- arb_u32 ;; n <- arb_u32 ;;
  gret {| h_version := v; h_prev := p; h_merkle := m; h_time := t; h_bits := b; h_nonce := n |}.
(** block.rs:931-937 *)
Definition arb_block : gen block := h <- arb_header ;; l <- arb_vec arb_transaction ;; gret {| b_header := h; b_txs := l |}.

(** p2p/src/address.rs:986-1015: SocketAddr::new with an IPv6 address has neither flow information nor scope *)
Definition arb_address : gen address :=
  v4 <- arb_bool ;;
  s <- (if (v4 : bool) then o <- arb_array 4 ;; p <- arb_u16 ;; gret (SockV4 o p)
        else g <- arb_segments ;; p <- arb_u16 ;; gret (SockV6 g p 0 0)) ;;
  services <- arb_u64 ;; gret (address_new s services).
(** address.rs:1018-1022, 1059-1068 *)
Definition arb_addr_v1 : gen (N * address) := t <- arb_u32 ;; a <- arb_address ;; gret (t, a).
Definition arb_addr_v2_msg : gen addr_v2_msg :=
  t <- arb_u32 ;; s <- arb_u64 ;; a <- arb_addr_v2 ;; p <- arb_u16 ;; gret (mk_av2 t s a p).
(** message_blockdata.rs:428-432, 435-443, 446-454 *)
Definition arb_get_blocks : gen get_blocks := v <- arb_u32 ;; l <- arb_vec arb_hash ;; s <- arb_hash ;; gret (mk_gb v l s).
(** message.rs:2265-2269, 2272-2274 *)
Definition arb_net_header : gen (header * N) := h <- arb_header ;; n <- arb_u8 ;; gret (h, n).
(** merkle_tree.rs:664-668 *)
Definition arb_merkle_block : gen merkle_block := h <- arb_header ;; t <- arb_pmt ;; gret {| mb_header := h; mb_txn := t |}.
(** message_bloom.rs:277-285, 295-304 *)
Definition arb_bloom_flags : gen bloom_flags :=
  choice <- int_in_range 0 2 ;; match choice with 0 => gret BNone | 1 => gret BAll | _ => gret BPubkeyOnly end.
Definition arb_filter_load : gen filter_load :=
  f <- arb_bytes ;; h <- arb_u32 ;; t <- arb_u32 ;; l <- arb_bloom_flags ;; gret (mk_fl f h t l).
(** message_filter.rs:644-704; a height is a u32 through the generator of BlockHeight *)
Definition arb_get_cf : gen get_cf := t <- arb_u8 ;; h <- arb_block_number ;; s <- arb_hash ;; gret (mk_gcf t h s).
Definition arb_cfilter : gen cfilter := t <- arb_u8 ;; b <- arb_hash ;; f <- arb_bytes ;; gret (mk_cf t b f).
Definition arb_cfheaders : gen cfheaders := t <- arb_u8 ;; s <- arb_hash ;; p <- arb_hash ;; l <- arb_vec arb_hash ;; gret (mk_cfh t s p l).
Definition arb_get_cfcheckpt : gen (N * bytes) := t <- arb_u8 ;; s <- arb_hash ;; gret (t, s).
Definition arb_cfcheckpt : gen cfcheckpt := t <- arb_u8 ;; s <- arb_hash ;; l <- arb_vec arb_hash ;; gret (mk_cfc t s l).
(** message_compact_blocks.rs:128-132 *)
Definition arb_send_cmpct : gen (bool * N) := b <- arb_bool ;; v <- arb_u64 ;; gret (b, v).
(** bip152.rs:791-831 *)
Definition arb_prefilled : gen prefilled := i <- arb_u16 ;; t <- arb_transaction ;; gret (mk_pf i t).
Definition arb_cb : gen compact_block :=
  h <- arb_header ;; n <- arb_u64 ;; s <- arb_vec (arb_array 6) ;; p <- arb_vec arb_prefilled ;; gret (mk_cb h n s p).
Definition arb_block_txs : gen block_txs := h <- arb_hash ;; l <- arb_vec arb_transaction ;; gret (mk_bt h l).
Definition arb_request : gen request := h <- arb_hash ;; l <- arb_vec arb_u64 ;; gret (mk_rq h l).
(** message_network.rs:799-812, 815-824 *)
Definition arb_reason : gen reject_reason :=
  choice <- int_in_range 0 7 ;;
  match choice with
  | 0 => gret Malformed | 1 => gret Invalid | 2 => gret Obsolete | 3 => gret Duplicate | 4 => gret NonStandard | 5 => gret Dust | 6 => gret RFee
  | _ => gret Checkpoint
  end.
Definition arb_reject : gen reject := m <- arb_string ;; c <- arb_reason ;; r <- arb_string ;; h <- arb_hash ;; gret (mk_reject m c r h).
(** message_network.rs:783-796, and [new] :67-88, which never asks for relaying *)
Definition arb_version_msg : gen version_msg :=
  v <- arb_u32 ;; s <- arb_u64 ;; t <- arb_i64 ;; r <- arb_address ;; f <- arb_address ;; n <- arb_u64 ;; a <- arb_user_agent ;; h <- arb_i32 ;;
  gret (mk_version v s t r f n a h false).
(** message.rs:2277-2319 *)
Definition arb_message : gen message :=
  choice <- int_in_range 0 36 ;;
  match choice with
  | 0 => x <- arb_version_msg ;; gret (MVersion x)
  | 1 => gret (MBare Verack)
  | 2 => x <- arb_vec arb_addr_v1 ;; gret (MAddr x)
  | 3 => x <- arb_vec arb_inventory ;; gret (MInv x)
  | 4 => x <- arb_vec arb_inventory ;; gret (MGetData x)
  | 5 => x <- arb_vec arb_inventory ;; gret (MNotFound x)
  | 6 => x <- arb_get_blocks ;; gret (MGetBlocks x)
  | 7 => x <- arb_get_blocks ;; gret (MGetHeaders x)
  | 8 => gret (MBare MemPool)
  | 9 => x <- arb_transaction ;; gret (MTx x)
  | 10 => x <- arb_block ;; gret (MBlock x)
  | 11 => x <- arb_vec arb_net_header ;; gret (MHeaders x)
  | 12 => gret (MBare SendHeaders)
  | 13 => gret (MBare GetAddr)
  | 14 => x <- arb_u64 ;; gret (MPing x)
  | 15 => x <- arb_u64 ;; gret (MPong x)
  | 16 => x <- arb_merkle_block ;; gret (MMerkleBlock x)
  | 17 => x <- arb_filter_load ;; gret (MFilterLoad x)
  | 18 => x <- arb_bytes ;; gret (MFilterAdd x)
  | 19 => gret (MBare FilterClear)
  | 20 => x <- arb_get_cf ;; gret (MGetCFilters x)
  | 21 => x <- arb_cfilter ;; gret (MCFilter x)
  | 22 => x <- arb_get_cf ;; gret (MGetCFHeaders x)
  | 23 => x <- arb_cfheaders ;; gret (MCFHeaders x)
  | 24 => x <- arb_get_cfcheckpt ;; gret (MGetCFCheckpt x)
  | 25 => x <- arb_cfcheckpt ;; gret (MCFCheckpt x)
  | 26 => x <- arb_send_cmpct ;; gret (MSendCmpct x)
  | 27 => x <- arb_cb ;; gret (MCmpctBlock x)
  | 28 => x <- arb_request ;; gret (MGetBlockTxn x)
  | 29 => x <- arb_block_txs ;; gret (MBlockTxn x)
  | 30 => x <- arb_bytes ;; gret (MAlert x)
  | 31 => x <- arb_reject ;; gret (MReject x)
  | 32 => x <- arb_fee_filter ;; gret (MFeeFilter x)
  | 33 => gret (MBare WtxidRelay)
  | 34 => x <- arb_vec arb_addr_v2_msg ;; gret (MAddrV2 x)
  | 35 => gret (MBare SendAddrV2)
  | _ => c <- arb_command ;; p <- arb_bytes ;; gret (MUnknown c p)
  end.
