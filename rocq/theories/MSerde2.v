(** The serde implementations of text types, keys, numbers, lock times, amounts and fee rates, over the data model of MSerde.v.
    An amount is its number of satoshis, a fee rate its satoshis per million virtual bytes.  as_btc (floating point) is in
    MFloat.v; the shape of its optional form is that of as_str. *)
From Verif Require Import Base MText MSerde.
From Verif Require MAmount MAmountText MLock MU256 MSighash MNetwork MBip32 MKey MTaproot MAddress MPow.
Local Open Scope N_scope.

(** ** collect_str / serialize_str of Display, deserialize_str with FromStr: internals/src/serde.rs:10-66 (TapSighashType,
    EcdsaSighashType, Xpriv, Xpub, both derivation paths), Network network/src/lib.rs:183-217 and as_core_arg :247-281,
    Address addresses/src/lib.rs:578-619 *)
Definition ser_text (s : str) : sval := SvStr s.
Definition de_text {A E} (from_str : str -> rust (result A E)) : req A := RStr false (fun s => r_ok (from_str s)).
Definition de_tap_type : req MSighash.tap_type := de_text (fun s => Ret (MSighash.tap_from_str s)).
Definition ser_tap_type (t : MSighash.tap_type) : sval := ser_text (MSighash.tap_display t).
Definition de_ecdsa_type : req MSighash.ecdsa_type := de_text (fun s => Ret (MSighash.ecdsa_from_str s)).
Definition ser_ecdsa_type (t : MSighash.ecdsa_type) : sval := ser_text (MSighash.ecdsa_display t).
Definition de_network : req MPow.network := de_text (fun s => Ret (MNetwork.net_from_str s)).
Definition ser_network (n : MPow.network) : sval := ser_text (MNetwork.net_display n).
Definition de_core_arg : req MPow.network := de_text (fun s => Ret (MNetwork.from_core_arg s)).
Definition ser_core_arg (n : MPow.network) : sval := ser_text (MNetwork.to_core_arg n).
Definition de_rel_path : req MBip32.path := de_text (fun s => Ret (MBip32.rel_from_str s)).
Definition ser_rel_path (p : MBip32.path) : sval := ser_text (MBip32.rel_display false p).
Definition de_abs_path : req MBip32.path := de_text (fun s => Ret (MBip32.abs_from_str s)).
Definition ser_abs_path (p : MBip32.path) : sval := ser_text (MBip32.abs_display false p).
Definition ser_xpriv (x : MBip32.xpriv) : rust sval := rbind (MBip32.xpriv_display x) (fun s => Ret (ser_text s)).
Definition de_xpriv (C : MBip32.ecurve) : req MBip32.xpriv := de_text (MBip32.xpriv_from_str C).
Definition ser_xpub (C : MBip32.ecurve) (x : MBip32.xpub C) : rust sval := rbind (MBip32.xpub_display C x) (fun s => Ret (ser_text s)).
Definition de_xpub (C : MBip32.ecurve) : req (MBip32.xpub C) := de_text (MBip32.xpub_from_str C).
Definition ser_address (sha256d : bytes -> bytes) (a : MAddress.address) : rust sval := rbind (MAddress.display sha256d false a) (fun s => Ret (ser_text s)).
Definition de_address (sha256d : bytes -> bytes) : req MAddress.address := de_text (MAddress.from_str sha256d).

(** ** crypto/src/key.rs: WifKey :1272-1317 (the text in every format, read from bytes too), LegacyPublicKey :1345-1416,
    FullPublicKey :1420-1492, XOnlyPublicKey :1321-1340.  The serde of secp256k1::XOnlyPublicKey is external: 64 hexadecimal
    digits, or an array of 32 bytes; the parity is not part of it *)
Section Keys.
  Variable sha256d : bytes -> bytes.
  Variable C : MKey.kcurve.
  Definition ser_wif (k : MKey.wif_key) : rust sval := rbind (MKey.to_wif sha256d k) (fun s => Ret (SvStr s)).
  Definition de_wif : req MKey.wif_key := RStr true (fun s => r_ok (MKey.from_wif sha256d C s)).
  Definition ser_legacy (human : bool) (k : MKey.legacy C) : sval := if human then SvStr (MKey.lk_display C k) else SvBytes (MKey.lk_serialize C k).
  Definition de_legacy (human : bool) : req (MKey.legacy C) :=
    if human then RStr true (fun s => r_ok (MKey.lk_from_str C s)) else RBytes (fun b => r_ok (MKey.lk_from_slice C b)).
  Definition ser_full (human : bool) (k : MKey.full C) : sval := if human then SvStr (MKey.fk_display C k) else SvBytes (MKey.fk_to_bytes C k).
  Definition de_full (human : bool) : req (MKey.full C) :=
    if human then RStr true (fun s => Ret (ok_only (MKey.fk_from_str C s)))
    else RBytes (fun b => if lenN b =? 33 then Ret (MKey.fk_from_bytes C b) else none).
End Keys.
Section XOnly.
  Variable C : MTaproot.curve.
  Definition ser_xonly (human : bool) (k : MTaproot.xonly C) : sval := if human then SvStr (hex_bytes false (MTaproot.xonly_ser k)) else ser_array (MTaproot.xonly_ser k).
  Definition de_xonly (human : bool) : req (MTaproot.xonly C) :=
    if human then RStr false (fun s => match decode_to_array 32 s with Ok b => Ret (MTaproot.xonly_parse b) | Err _ => none end)
    else RArr 32 (fun b => Ret (MTaproot.xonly_parse b)).
End XOnly.

(** ** U256 (in Target and Work, derived): units/src/pow.rs:497-567 *)
Definition ser_u256 (human : bool) (u : MU256.u256) : sval := if human then SvStr (hex_bytes false (MU256.to_be_bytes u)) else SvBytes (MU256.to_be_bytes u).
Definition u256_of (n : N) : MU256.u256 := MU256.U (n / 2 ^ 128) (n mod 2 ^ 128).
Definition de_u256 (human : bool) : req MU256.u256 :=
  if human then RStr false (fun s => if str_len s =? 64 then match hex_u256_unprefixed s with Ok n => some (u256_of n) | Err _ => none end else none)
  else RBytes (fun b => if lenN b =? 32 then some (MU256.from_be_bytes b) else none).

(** ** Plain numbers: ChildNumber key_expression/src/bip32.rs:397-414, BlockHeight, BlockHeightInterval, BlockMtp,
    BlockMtpInterval units/src/block.rs:87-106, BlockTime time.rs:99-118, Sequence sequence.rs:35, CompactTarget pow.rs:248,
    transaction Version (u32); NumberOfBlocks and NumberOf512Seconds relative/mod.rs:502-521, 654-673 (u16); Weight
    weight.rs:301-320 (u64); block Version (i32) *)
Definition ser_uint (bits n : N) : sval := SvU bits n.
Definition de_uint (bits : N) : req N := RUint bits some.
Definition ser_block_version (z : Z) : sval := SvI 32 z.
Definition de_block_version : req Z := RInt 32 some.
(** ** WitnessVersion: primitives/src/witness_version.rs:164-182 *)
Definition ser_witness_version (v : N) : sval := SvU 8 v.
Definition de_witness_version : req N := RUint 8 (fun n => if n <=? 16 then some n else none).
(** ** Lock times: absolute/mod.rs:482-501, 602-621, 755-774, relative/mod.rs:389-409 *)
Definition ser_abs_lock (l : MLock.abs_lock) : sval := SvU 32 (MLock.abs_to_consensus l).
Definition de_abs_lock : req MLock.abs_lock := RUint 32 (fun n => rbind (MLock.abs_from_consensus n) some).
Definition ser_height (n : N) : sval := SvU 32 n.
Definition de_height : req N := RUint 32 (fun n => Ret (ok_only (MLock.height_from_u32 n))).
Definition ser_mtp (n : N) : sval := SvU 32 n.
Definition de_mtp : req N := RUint 32 (fun n => Ret (ok_only (MLock.mtp_from_u32 n))).
Definition ser_rel_lock (l : MLock.rel_lock) : sval := SvU 32 (MLock.rel_to_consensus l).
Definition de_rel_lock : req MLock.rel_lock := RUint 32 (fun n => Ret (ok_only (MLock.rel_from_consensus n))).

(** ** Amounts: units/src/amount/serde.rs.  Into<SignedAmount> and TryFrom<SignedAmount> of Amount; for SignedAmount they are the identity *)
Definition into_signed (signed : bool) (a : Z) : rust Z := if signed then Ret a else MAmount.amount_to_signed a.
Definition try_from_signed (signed : bool) (a : Z) : outcome Z := if signed then some a else r_ok (MAmount.signed_to_unsigned a).
(** as_sat :68-86, opt :103-145, vec :167-209 (the elements are read as SignedAmount and converted at once) *)
Definition ser_sat (signed : bool) (a : Z) : rust sval := rbind (into_signed signed a) (fun x => Ret (SvI 64 x)).
Definition de_sat (signed : bool) : req Z := RInt 64 (fun z => obind (Ret (ok_only (MAmount.signed_from_sat z))) (try_from_signed signed)).
Definition ser_sat_opt (signed : bool) (o : option Z) : rust sval := match o with Some a => rbind (ser_sat signed a) (fun v => Ret (SvSome v)) | None => Ret SvNone end.
Definition de_sat_opt (signed : bool) : req (option Z) := ROpt (de_sat signed).
Fixpoint ser_each {A} (f : A -> rust sval) (l : list A) : rust (list sval) :=
  match l with [] => Ret [] | a :: l' => rbind (f a) (fun v => rbind (ser_each f l') (fun r => Ret (v :: r))) end.
Definition ser_sat_vec (signed : bool) (l : list Z) : rust sval := rbind (ser_each (ser_sat signed) l) (fun vs => Ret (SvSeq vs)).
Definition de_sat_vec (signed : bool) : req (list Z) := RSeq (de_sat signed) some.
(** as_str :397-417, opt :434-479 (Some is written without serialize_some), vec :500-545; String::deserialize takes bytes too *)
Definition ser_btc_str (signed : bool) (a : Z) : rust sval :=
  rbind (into_signed signed a) (fun x => rbind (MAmountText.signed_to_string_in x MAmountText.Bitcoin) (fun s => Ret (SvStr s))).
Definition de_btc_str (signed : bool) : req Z :=
  RStr true (fun s => obind (r_ok (MAmountText.signed_from_str_in s MAmountText.Bitcoin)) (try_from_signed signed)).
Definition ser_btc_str_opt (signed : bool) (o : option Z) : rust sval := match o with Some a => ser_btc_str signed a | None => Ret SvNone end.
Definition de_btc_str_opt (signed : bool) : req (option Z) := ROpt (de_btc_str signed).
Definition ser_btc_str_vec (signed : bool) (l : list Z) : rust sval := rbind (ser_each (ser_btc_str signed) l) (fun vs => Ret (SvSeq vs)).
Definition de_btc_str_vec (signed : bool) : req (list Z) := RSeq (de_btc_str signed) some.

(** ** Fee rates: units/src/fee_rate/serde.rs:39-51 (per 1000 weight units, rounded down), :161-174 and :286-299 (per virtual
    byte, rounded down or up); opt and vec of each *)
Inductive fee_unit := KwuFloor | VbFloor | VbCeil.
Definition fee_written (u : fee_unit) (r : Z) : Z :=
  match u with KwuFloor => MAmount.feerate_to_kwu_floor r | VbFloor => MAmount.feerate_to_vb_floor r | VbCeil => MAmount.feerate_to_vb_ceil r end.
Definition fee_read (u : fee_unit) (n : N) : outcome Z :=
  match MAmount.amount_from_sat (Z.of_N n) with
  | Err _ => none
  | Ok a => match (match u with KwuFloor => MAmount.feerate_from_per_kwu a | _ => MAmount.feerate_from_per_vb a end) with
            | MAmount.Valid r => some r
            | MAmount.Error _ => none
            end
  end.
Definition ser_fee (u : fee_unit) (r : Z) : sval := SvU 64 (Z.to_N (fee_written u r)).
Definition de_fee (u : fee_unit) : req Z := RUint 64 (fee_read u).
Definition ser_fee_opt (u : fee_unit) (o : option Z) : sval := match o with Some r => SvSome (ser_fee u r) | None => SvNone end.
Definition de_fee_opt (u : fee_unit) : req (option Z) := ROpt (de_fee u).
Definition ser_fee_vec (u : fee_unit) (l : list Z) : sval := SvSeq (map (ser_fee u) l).
Definition de_fee_vec (u : fee_unit) : req (list Z) := RSeq (de_fee u) some.
