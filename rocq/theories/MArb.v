(** Model of the fuzzing generators, the implementations of the trait Arbitrary of the crate [arbitrary] (feature
    "arbitrary"), those that do more than draw each field.  The crate is not in /repo.  A generator is modelled by the set
    of the outcomes that some fuzzer input makes it have: a value, an error of the crate ([Gave_up]) or a panic.  What
    is taken from the crate: [int_in_range(a..=b)] gives any number of the range and panics on an empty range, an integer,
    an array, a boolean or a string any value of its type, a vector any list of values of its element generator, and every
    draw may give up. *)
From Verif Require Import Base MText MAmount MLock MWitness MTx MTxSize MPredict MAgent MPmt MTaproot MBip32 MSighash MDec MP2p.
Local Open Scope N_scope.

Inductive drawn (A : Type) := Got (a : A) | Gave_up | Panicked.
Arguments Got {A} _.
Arguments Gave_up {A}.
Arguments Panicked {A}.
Definition gen (A : Type) := drawn A -> Prop.
Definition gret {A} (a : A) : gen A := fun o => o = Got a.
Definition gfail {A} : gen A := fun o => o = Gave_up.
(** [Ok(e)] where evaluating [e] may panic *)
Definition lift {A} (r : rust A) : gen A := fun o => o = match r with Ret a => Got a | Panic => Panicked end.
Definition gbind {A B} (m : gen A) (k : A -> gen B) : gen B := fun o =>
  (exists a, m (Got a) /\ k a o) \/ (m Gave_up /\ o = Gave_up) \/ (m Panicked /\ o = Panicked).
Local Notation "x <- m ;; k" := (gbind m (fun x => k)) (at level 60, m at next level, right associativity).
(** one of the outcomes of a total draw, or giving up *)
Definition any {A} (P : A -> Prop) : gen A := fun o => o = Gave_up \/ exists a, P a /\ o = Got a.
Definition int_in_range (a b : N) : gen N := if a <=? b then any (fun n => a <= n <= b) else fun o => o = Panicked.
Definition int_in_range_i (a b : Z) : gen Z := if (a <=? b)%Z then any (fun n => (a <= n <= b)%Z) else fun o => o = Panicked.
Definition arb_u8 : gen N := any (fun n => n < 2 ^ 8).
Definition arb_u16 : gen N := any (fun n => n < 2 ^ 16).
Definition arb_u32 : gen N := any (fun n => n < 2 ^ 32).
Definition arb_u64 : gen N := any (fun n => n < 2 ^ 64).
Definition arb_bool : gen bool := any (fun _ => True).
Definition arb_array (n : N) : gen bytes := any (fun b => lenN b = n /\ bytes_ok b).
Definition arb_segments : gen (list N) := any (fun s => lenN s = 8 /\ Forall (fun x => x < 2 ^ 16) s).
(** a string is its characters: Unicode scalar values *)
Definition arb_string : gen str := any (Forall (fun c => c < 0x110000 /\ ~ 0xD800 <= c <= 0xDFFF)).
Definition arb_vec {A} (g : gen A) : gen (list A) := fun o =>
  (exists l, Forall (fun a => g (Got a)) l /\ o = Got l) \/ o = Gave_up \/ (g Panicked /\ o = Panicked).
Definition arb_bytes : gen bytes := arb_vec arb_u8.

(** * units *)
(** units/src/amount/unsigned.rs:644-649, signed.rs:576-581 *)
Definition arb_amount : gen Z := s <- int_in_range_i 0 AMOUNT_MAX ;; lift (match amount_from_sat s with Ok a => Ret a | Err _ => Panic end).
Definition arb_signed_amount : gen Z :=
  s <- int_in_range_i SIGNED_MIN AMOUNT_MAX ;; lift (match signed_from_sat s with Ok a => Ret a | Err _ => Panic end).
(** units/src/locktime/absolute/mod.rs:785-790; [from_consensus] keeps the number (C20) *)
Definition arb_lock_time : gen N := arb_u32.
(** absolute/mod.rs:793-807, 810-824; MIN and MAX of Height :512-515 and MedianTimePast :636-639 *)
Definition HEIGHT_MIN : N := 0.
Definition HEIGHT_MAX : N := LOCK_TIME_THRESHOLD - 1.
Definition MTP_MIN : N := LOCK_TIME_THRESHOLD.
Definition MTP_MAX : N := U32_MAX.
Definition arb_height : gen N :=
  choice <- int_in_range 0 2 ;;
  match choice with
  | 0 => gret HEIGHT_MIN
  | 1 => gret HEIGHT_MAX
  | _ => h <- int_in_range HEIGHT_MIN HEIGHT_MAX ;; lift (match height_from_u32 h with Ok h => Ret h | Err _ => Panic end)
  end.
Definition arb_mtp : gen N :=
  choice <- int_in_range 0 2 ;;
  match choice with
  | 0 => gret MTP_MIN
  | 1 => gret MTP_MAX
  | _ => t <- int_in_range MTP_MIN MTP_MAX ;; lift (match mtp_from_u32 t with Ok t => Ret t | Err _ => Panic end)
  end.
(** units/src/block.rs:109-119, for BlockHeight, BlockHeightInterval, BlockMtp and BlockMtpInterval; ZERO, MIN and MAX :136-142, 259-265, 332-338, 409-415 *)
Definition arb_block_number : gen N :=
  choice <- int_in_range 0 2 ;;
  match choice with
  | 0 => gret 0
  | 1 => gret 0
  | 2 => gret U32_MAX
  | _ => arb_u32
  end.
(** units/src/sequence.rs:329-351 *)
Definition arb_sequence : gen N :=
  choice <- int_in_range 0 8 ;;
  match choice with
  | 0 => gret SEQ_MAX
  | 1 => gret 0
  | 2 => gret MIN_NO_RBF
  | 3 => gret 0xFFFFFFFD
  | 4 => gret 0
  | 5 => gret 65535
  | 6 => gret (N.lor LOCK_TYPE_MASK 0)
  | 7 => gret (N.lor LOCK_TYPE_MASK 65535)
  | _ => arb_u32
  end.
(** p2p/src/message.rs:491-501; the constants units/src/fee_rate/mod.rs:57-68 *)
Definition arb_fee_filter : gen Z :=
  choice <- int_in_range 0 3 ;;
  match choice with
  | 0 => gret 0%Z
  | 1 => lift (feerate_from_sat_per_vb 1)
  | 2 => lift (feerate_from_sat_per_vb 3)
  | _ => k <- int_in_range_i 0 4294967295 ;; lift (feerate_from_sat_per_kvb k)
  end.

(** * primitives *)
(** primitives/src/witness.rs:807-812 *)
Definition arb_witness : gen witness := ls <- arb_vec arb_bytes ;; lift (MWitness.from_slice ls).
(** primitives/src/transaction.rs:1583-1587, 1576-1580, 1563-1572; script/owned.rs:376-382 *)
Definition arb_outpoint : gen outpoint := t <- arb_array 32 ;; v <- arb_u32 ;; gret {| op_txid := t; op_vout := v |}.
Definition arb_txout : gen txout := a <- arb_amount ;; s <- arb_bytes ;; gret {| to_amount := Z.to_N a; to_script := s |}.
Definition arb_txin : gen txin :=
  o <- arb_outpoint ;; s <- arb_bytes ;; q <- arb_sequence ;; w <- arb_witness ;;
  gret {| ti_prevout := o; ti_script := s; ti_sequence := q; ti_witness := w |}.
(** transaction.rs:1590-1600 *)
Definition arb_version : gen N :=
  choice <- int_in_range 0 3 ;; match choice with 0 => gret 1 | 1 => gret 2 | 2 => gret 3 | _ => arb_u32 end.
(** :1532-1533: [retain] with the set of the outpoints seen so far, a list here *)
Fixpoint retain_new (seen : list outpoint) (ins : list txin) : list txin :=
  match ins with
  | [] => []
  | i :: ins' => if existsb (outpoint_eqb (ti_prevout i)) seen then retain_new seen ins' else i :: retain_new (ti_prevout i :: seen) ins'
  end.
(** :1535-1537 *)
Definition drop_null (ins : list txin) : list txin :=
  if 1 <? lenN ins then filter (fun i => negb (outpoint_eqb (ti_prevout i) COINBASE_PREVOUT)) ins else ins.
(** :1539-1544 *)
Definition fix_coinbase (ins : list txin) : list txin :=
  match ins with
  | [i] => if outpoint_eqb (ti_prevout i) COINBASE_PREVOUT && ((lenN (ti_script i) <? 2) || (100 <? lenN (ti_script i)))
           then [{| ti_prevout := ti_prevout i; ti_script := repeat 0 2; ti_sequence := ti_sequence i; ti_witness := ti_witness i |}]
           else ins
  | _ => ins
  end.
(** :1550-1555: [min], [from_sat], and the subtraction, which is checked *)
Fixpoint cap_outputs (remaining : N) (outs : list txout) : rust (list txout) :=
  match outs with
  | [] => Ret []
  | o :: outs' =>
      let capped := N.min (to_amount o) remaining in
      match amount_from_sat (Z.of_N capped) with
      | Err _ => Panic
      | Ok a => if capped <=? remaining then
                  rbind (cap_outputs (remaining - capped) outs') (fun r => Ret ({| to_amount := Z.to_N a; to_script := to_script o |} :: r))
                else Panic
      end
  end.
(** :1525-1559 *)
Definition arb_transaction : gen transaction :=
  version <- arb_version ;; lock_time <- arb_lock_time ;;
  inputs <- arb_vec arb_txin ;; outputs <- arb_vec arb_txout ;;
  let inputs := fix_coinbase (drop_null (retain_new [] inputs)) in
  outputs <- (match outputs with [] => o <- arb_txout ;; gret [o] | _ => gret outputs end) ;;
  outputs <- lift (cap_outputs MAX_MONEY outputs) ;;
  gret {| tx_version := version; tx_lock_time := lock_time; tx_inputs := inputs; tx_outputs := outputs |}.

(** * crypto *)
(** the order of the curve *)
Definition CURVE_N : N := 0xFFFFFFFFFFFFFFFFFFFFFFFFFFFFFFFEBAAEDCE6AF48A03BBFD25E8CD0364141.
(** secp256k1's [ecdsa::Signature::from_compact], outside of /repo: both numbers are below the order *)
Definition compact_ok (b : bytes) : bool := (be_val (takeN 32 b) <? CURVE_N) && (be_val (dropN 32 b) <? CURVE_N).
(** crypto/src/sighash.rs:329-342 *)
Definition arb_ecdsa_type : gen ecdsa_type :=
  choice <- int_in_range 0 5 ;;
  gret (match choice with 0 => EAll | 1 => ENone | 2 => ESingle | 3 => EAllAcp | 4 => ENoneAcp | _ => ESingleAcp end).
(** :345-359 *)
Definition arb_tap_type : gen tap_type :=
  choice <- int_in_range 0 6 ;;
  gret (match choice with 0 => TDefault | 1 => TAll | 2 => TNone | 3 => TSingle | 4 => TAllAcp | 5 => TNoneAcp | _ => TSingleAcp end).
(** crypto/src/ecdsa.rs:427-459: the signature in its compact form, and the type *)
Definition HIGH_MAX : N := 0xFFFFFFFFFFFFFFFFFFFFFFFFFFFFFFFE.
Definition LOW_MAX : N := 0xBAAEDCE6AF48A03BBFD25E8CD0364140.
Definition arb_ecdsa_signature : gen (bytes * ecdsa_type) :=
  choice <- int_in_range 0 2 ;;
  hl <- match choice with
        | 0 => gret (0, 0)
        | 1 => gret (HIGH_MAX, LOW_MAX)
        | _ => h <- int_in_range 0 HIGH_MAX ;; l <- int_in_range 0 LOW_MAX ;; gret (h, l)
        end ;;
  let b := be_bytes 16 (fst hl) ++ be_bytes 16 (snd hl) in
  s <- lift (if compact_ok (b ++ b) then Ret (b ++ b) else Panic) ;;
  t <- arb_ecdsa_type ;; gret (s, t).

(** * key_expression *)
(** network/src/lib.rs:285-292 *)
Definition arb_net_kind : gen net_kind := b <- arb_bool ;; gret (if (b : bool) then NMain else NTest).
Section Bip32.
  Variable C : ecurve.
  (** secp256k1's generators, outside of /repo: any secret key, any point *)
  Definition arb_secret_key : gen N := any (fun k => 0 < k < ec_order C).
  Definition arb_point : gen (ec_point C) := any (fun _ => True).
  (** bip32.rs:1675-1686 *)
  Definition arb_xpub : gen (xpub C) :=
    n <- arb_net_kind ;; d <- arb_u8 ;; f <- arb_array 4 ;; c <- arb_u32 ;; k <- arb_point ;; h <- arb_array 32 ;;
    gret (mk_xpub C n d f c k h).
  (** :1689-1706 *)
  Definition arb_xpriv : gen xpriv :=
    d <- arb_u8 ;;
    fc <- match d with
          | 0 => gret (repeat 0 4, ZERO_NORMAL)
          | _ => f <- arb_array 4 ;; c <- arb_u32 ;; gret (f, c)
          end ;;
    n <- arb_net_kind ;; k <- arb_secret_key ;; h <- arb_array 32 ;; gret (mk_xpriv n d (fst fc) (snd fc) k h).
End Bip32.

(** * taproot *)
(** taproot_primitives/src/lib.rs:512-519, 522-529 *)
Definition arb_future_version : gen N :=
  v <- arb_u8 ;;
  if v =? LEAF_TAPSCRIPT then gfail
  else r <- lift (future_from_consensus v) ;; match r with Ok f => gret f | Err _ => gfail end.
Definition arb_leaf_version : gen leaf_version :=
  b <- arb_bool ;; if (b : bool) then gret TapScript else v <- arb_future_version ;; gret (Future v).
(** bitcoin/src/taproot/merkle_branch/buf.rs:273-278 *)
Definition arb_branch : gen (list bytes) :=
  l <- arb_vec (arb_array 32) ;; match branch_from_collection l with Ok b => gret b | Err _ => gfail end.
(** bitcoin/src/taproot/mod.rs:1455-1484 *)
Definition arb_tap_leaf : gen tap_leaf :=
  b <- arb_bool ;; if (b : bool) then h <- arb_array 32 ;; gret (LHidden h) else s <- arb_bytes ;; v <- arb_leaf_version ;; gret (LScript s v).
Definition arb_leaf_node : gen leaf_node := l <- arb_tap_leaf ;; b <- arb_branch ;; gret (mk_leaf l b).
Definition arb_node_info : gen node_info :=
  h <- arb_array 32 ;; l <- arb_vec arb_leaf_node ;; x <- arb_bool ;; gret (mk_node h l x).
Definition arb_tap_tree : gen node_info := arb_node_info.

(** * weight predictions *)
(** bitcoin/src/blockdata/transaction.rs:1119-1141 *)
Definition arb_prediction : gen iwp :=
  choice <- int_in_range 0 7 ;;
  match choice with
  | 0 => gret P2WPKH_MAX
  | 1 => gret NESTED_P2WPKH_MAX
  | 2 => gret P2PKH_COMPRESSED_MAX
  | 3 => gret P2PKH_UNCOMPRESSED_MAX
  | 4 => gret P2TR_KEY_DEFAULT_SIGHASH
  | 5 => gret P2TR_KEY_NON_DEFAULT_SIGHASH
  | 6 => n <- arb_u64 ;; l <- arb_vec arb_u64 ;; lift (iwp_new n l)
  | _ => n <- arb_u64 ;; l <- arb_vec arb_u64 ;; gret (iwp_from_slice n l)
  end.

(** * p2p *)
(** p2p/src/address.rs:1025-1055.  [segments[0] ^= 1], and the network C0 byte of Cjdns *)
Definition set_first (f : N -> N) (s : list N) : list N := match s with [] => [] | x :: s' => f x :: s' end.
Definition arb_addr_v2 : gen addr_v2 :=
  choice <- int_in_range 0 5 ;;
  match choice with
  | 0 => o <- arb_array 4 ;; gret (Ipv4 o)
  | 1 => s <- arb_segments ;;
         gret (Ipv6 (if Nlist_eqb (firstn 3 s) ONION || Nlist_eqb (firstn 6 s) IPV4_EMBEDDED_IPV6 then set_first (fun x => N.lxor x 1) s else s))
  | 2 => b <- arb_array 32 ;; gret (TorV3 b)
  | 3 => b <- arb_array 32 ;; gret (I2p b)
  | 4 => s <- arb_segments ;; gret (Cjdns (set_first (fun x => N.lor 0xFC00 (N.land x 0x00FF)) s))
  | _ => n <- int_in_range 7 255 ;; b <- arb_bytes ;; gret (NetUnknown n (takeN 512 b))
  end.
(** p2p/src/message_blockdata.rs:457-469 *)
Definition arb_inventory : gen inventory :=
  choice <- int_in_range 0 7 ;;
  match choice with
  | 0 => h <- arb_array 32 ;; gret (InvError h)
  | 1 => h <- arb_array 32 ;; gret (InvTx h)
  | 2 => h <- arb_array 32 ;; gret (InvBlock h)
  | 3 => h <- arb_array 32 ;; gret (InvCompactBlock h)
  | 4 => h <- arb_array 32 ;; gret (InvWTx h)
  | 5 => h <- arb_array 32 ;; gret (InvWitnessTx h)
  | 6 => h <- arb_array 32 ;; gret (InvWitnessBlock h)
  | _ => t <- arb_u32 ;; h <- arb_array 32 ;; gret (InvUnknown t h)
  end.
(** p2p/src/message.rs:2250-2262: [left] places remain in the buffer and [acc] is written; when the buffer is full one more
    byte is drawn before the loop ends *)
Fixpoint arb_command_loop (left : nat) (acc : bytes) : gen bytes :=
  b <- arb_u8 ;;
  match left with
  | O => gret acc
  | S left' => let ascii := b mod 128 in if 1 <=? ascii then arb_command_loop left' (acc ++ [ascii]) else gret (acc ++ repeat 0 left)
  end.
Definition arb_command : gen bytes := arb_command_loop 12 [].
(** p2p/src/merkle_tree.rs:649-661: [while bits.len() % 8 != 0] pushes [false]; at most seven rounds *)
Fixpoint pad_bits (fuel : nat) (bits : list bool) : list bool :=
  match fuel with O => bits | S f => if lenN bits mod 8 =? 0 then bits else pad_bits f (bits ++ [false]) end.
Definition arb_pmt : gen (pmt bytes) :=
  bits <- arb_vec arb_bool ;; n <- arb_u32 ;; hs <- arb_vec (arb_array 32) ;;
  gret {| pm_num := n; pm_bits := pad_bits 7 bits; pm_hashes := hs |}.
(** p2p/src/message_network.rs:743-754, 757-761 *)
Definition arb_software : gen software :=
  b <- arb_bool ;;
  if (b : bool) then y <- arb_u16 ;; m <- arb_u8 ;; d <- arb_u8 ;; gret (Date y m d)
  else a <- arb_u16 ;; b <- arb_u16 ;; c <- arb_u16 ;; gret (SemVer a b c).
Definition arb_agent_version : gen agent_version := s <- arb_software ;; gret (av_new s).
(** [String::truncate]: nothing when the text is not longer, else a panic unless the byte position is between two characters *)
Fixpoint string_truncate (n : N) (s : str) : rust str :=
  match s with
  | [] => Ret []
  | c :: s' => if n =? 0 then Ret []
               else if lenN (char_utf8 c) <=? n then rbind (string_truncate (n - lenN (char_utf8 c)) s') (fun r => Ret (c :: r)) else Panic
  end.
(** message_network.rs:764-780, after the two draws; the subtraction is checked *)
Definition user_agent_from (version : agent_version) (text : str) : rust str :=
  let name := filter (fun c => negb (invalid_char c)) text in
  let overhead := 3 + lenN (av_display version) in
  if overhead <=? MAX_USER_AGENT_LEN
  then rbind (string_truncate (MAX_USER_AGENT_LEN - overhead) name) (fun name => ua_new name version) else Panic.
Definition arb_user_agent : gen str :=
  version <- arb_agent_version ;; text <- arb_string ;; lift (user_agent_from version text).
