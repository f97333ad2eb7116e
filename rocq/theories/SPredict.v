(** Signatures as pairs of numbers in DER, and inputs that spend the outputs of keys.  The functions that build spends are in MForms.v. *)
From Verif Require Import Base MDec MWitness MTx MScript MSighash MBip32 MKey MSig SSig MTxSize MForms MPredict.
Local Open Scope N_scope.

(** The order of the group of secp256k1; both numbers of a signature are below it. *)
Definition ORDER : N := 0xFFFFFFFFFFFFFFFFFFFFFFFFFFFFFFFEBAAEDCE6AF48A03BBFD25E8CD0364141.
(** An integer in DER takes the least number of bytes in which it is a non-negative two's complement number. *)
Definition int_len (x : N) : N := N.size x / 8 + 1.
Definition der_int (x : N) : bytes := 2 :: int_len x :: be_bytes (N.to_nat (int_len x)) x.
Definition der (r s : N) : bytes := let b := der_int r ++ der_int s in 48 :: lenN b :: b.
(** signatures are pairs of numbers *)
Record der_curve (E : ecurve) (rs : ec_sig E -> N * N) : Prop := {
  dc_der : forall s, ec_der E s = der (fst (rs s)) (snd (rs s));
  dc_back : forall s, ec_from_der E (ec_der E s) = Some s;
  dc_range : forall s, fst (rs s) < ORDER /\ snd (rs s) < ORDER }.
(** The second number is in the lower half, as signing makes it and as nodes ask for. *)
Definition low_s (x : N * N) : Prop := snd x <= ORDER / 2.

(** Which prediction is taken; [Some g] is for signatures ground by [g] bytes. *)
Inductive use := UWpkh (g : option N) | UNested (g : option N) | UPkh (g : option N) | UPkhUncompressed | UTapDefault | UTapOther.
Definition prediction (u : use) : rust iwp :=
  match u with
  | UWpkh None => Ret P2WPKH_MAX
  | UWpkh (Some g) => ground_p2wpkh g
  | UNested None => Ret NESTED_P2WPKH_MAX
  | UNested (Some g) => ground_nested_p2wpkh g
  | UPkh None => Ret P2PKH_COMPRESSED_MAX
  | UPkh (Some g) => ground_p2pkh_compressed g
  | UPkhUncompressed => Ret P2PKH_UNCOMPRESSED_MAX
  | UTapDefault => Ret P2TR_KEY_DEFAULT_SIGHASH
  | UTapOther => Ret P2TR_KEY_NON_DEFAULT_SIGHASH
  end.
(** the length that a signature with its type byte should have, and the weight of a byte of it *)
Definition expected (u : use) : N :=
  match u with
  | UWpkh g | UNested g | UPkh g => 72 - match g with Some g => g | None => 0 end
  | UPkhUncompressed => 72
  | UTapDefault => 64
  | UTapOther => 65
  end.
Definition byte_weight (u : use) : N := match u with UPkh _ | UPkhUncompressed => 4 | _ => 1 end.

Section Spent.
  Variable hash160 : bytes -> bytes.
  Variable K : kcurve.
  Variable E : ecurve.
  (** a signature of one kind or the other, and its bytes *)
  Definition sig_bytes (x : esig E + tsig) : bytes := match x with inl s => es_to_vec E s | inr s => ts_to_vec s end.
  (** Input [i] spends an output of the kind of [u] with the signature. *)
  Inductive spent : use -> txin -> esig E + tsig -> Prop :=
  | s_wpkh : forall g i (s : esig E) (k : full K), ti_script i = [] -> w_p2wpkh K E s k = Ret (ti_witness i) ->
      spent (UWpkh g) i (inl s)
  | s_nested : forall g i (s : esig E) (k : full K), p2sh_p2wpkh hash160 K k = Ret (ti_script i) -> w_p2wpkh K E s k = Ret (ti_witness i) ->
      spent (UNested g) i (inl s)
  | s_pkh : forall g i (s : esig E) (k : full K), ti_script i = sb_push_slice (sb_push_slice [] (es_to_vec E s)) (fk_to_bytes K k) ->
      ti_witness i = wit_new -> spent (UPkh g) i (inl s)
  | s_pkh_uncompressed : forall i (s : esig E) (k : legacy K), lk_compressed K k = false ->
      ti_script i = sb_push_slice (sb_push_slice [] (es_to_vec E s)) (lk_serialize K k) ->
      ti_witness i = wit_new -> spent UPkhUncompressed i (inl s)
  | s_tap_default : forall i (s : tsig), ti_script i = [] -> lenN (ts_sig s) = 64 -> ts_type s = TDefault ->
      w_p2tr_key_spend s = Ret (ti_witness i) -> spent UTapDefault i (inr s)
  | s_tap_other : forall i (s : tsig), ti_script i = [] -> lenN (ts_sig s) = 64 -> ts_type s <> TDefault ->
      w_p2tr_key_spend s = Ret (ti_witness i) -> spent UTapOther i (inr s).
End Spent.
