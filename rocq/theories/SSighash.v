(** What a signature signs: BIP 341 (taproot), BIP 143 (segwit v0) and the original algorithm, on transactions as
    records and with the wire format of SWire.v.  Only the types of values are shared with the model. *)
From Coq Require Import String.
From Verif Require Import Base MDec MWitness MTx SWire MText MSighash.
Local Open Scope N_scope.

Definition cat {A} (f : A -> bytes) (l : list A) : bytes := concat (map f l).
Definition nthN {A} (l : list A) (i : N) : option A := nth_error l (N.to_nat i).
(** ANYONECANPAY is bit 0x80; the low bits say which outputs are signed *)
Definition anyone (ty : N) : bool := N.land ty 0x80 =? 0x80.

(** values that fit their machine types *)
Definition txin_repr (i : txin) : Prop :=
  lenN (op_txid (ti_prevout i)) = 32 /\ is_u32 (op_vout (ti_prevout i)) /\ is_u32 (ti_sequence i) /\ is_u64 (lenN (ti_script i)).
Definition txout_repr (o : txout) : Prop := is_u64 (to_amount o) /\ is_u64 (lenN (to_script o)).
Definition tx_repr (tx : transaction) : Prop :=
  is_u32 (tx_version tx) /\ is_u32 (tx_lock_time tx) /\ Forall txin_repr (tx_inputs tx) /\ Forall txout_repr (tx_outputs tx) /\
  is_u64 (lenN (tx_inputs tx)) /\ is_u64 (lenN (tx_outputs tx)).

Section Hash.
  Variable H : bytes -> bytes.
  (** BIP 340 *)
  Definition tagged (tag m : bytes) : bytes := H (H tag ++ H tag ++ m).

  (** * BIP 341 *)
  (** what a taproot signature for input [i] depends on: the outputs spent by all inputs, the output spent by this one,
      the annex, and for script path spends the leaf hash and code separator position *)
  Record tap_args := { ta_ty : N; ta_tx : transaction; ta_i : N; ta_spent : list txout; ta_prev : txout; ta_annex : option bytes; ta_leaf : option (bytes * N) }.
  Definition at_input {A} (a : tap_args) (f : txin -> list A) : list A := match nthN (tx_inputs (ta_tx a)) (ta_i a) with Some x => f x | None => [] end.
  Definition at_output {A} (a : tap_args) (f : txout -> list A) : list A := match nthN (tx_outputs (ta_tx a)) (ta_i a) with Some x => f x | None => [] end.
  Definition bip341_hashed (a : tap_args) : list bytes :=
    let ty := ta_ty a in let tx := ta_tx a in
    (if anyone ty then [] else
       [cat (fun i => wire_outpoint (ti_prevout i)) (tx_inputs tx); cat (fun o => le_bytes 8 (to_amount o)) (ta_spent a);
        cat (fun o => wire_bytes (to_script o)) (ta_spent a); cat (fun i => le_bytes 4 (ti_sequence i)) (tx_inputs tx)]) ++
    (if (N.land ty 3 =? 2) || (N.land ty 3 =? 3) then [] else [cat wire_txout (tx_outputs tx)]).
  Definition bip341_hashed2 (a : tap_args) : list bytes * list bytes :=
    (match ta_annex a with Some x => [wire_bytes x] | None => [] end,
     if N.land (ta_ty a) 3 =? 3 then at_output a (fun o => [wire_txout o]) else []).
  (** SigMsg of BIP 341 with the extension of BIP 342 *)
  Definition sig_msg (a : tap_args) : bytes :=
    [ta_ty a] ++ le_bytes 4 (tx_version (ta_tx a)) ++ le_bytes 4 (tx_lock_time (ta_tx a)) ++
    cat H (bip341_hashed a) ++
    [2 * (match ta_leaf a with Some _ => 1 | None => 0 end) + (match ta_annex a with Some _ => 1 | None => 0 end)] ++
    (if anyone (ta_ty a) then
       at_input a (fun x => wire_outpoint (ti_prevout x) ++ le_bytes 8 (to_amount (ta_prev a)) ++ wire_bytes (to_script (ta_prev a)) ++ le_bytes 4 (ti_sequence x))
     else le_bytes 4 (ta_i a)) ++
    cat H (fst (bip341_hashed2 a)) ++ cat H (snd (bip341_hashed2 a)) ++
    match ta_leaf a with Some (h, pos) => h ++ [0] ++ le_bytes 4 pos | None => [] end.
  Definition bip341_hash (a : tap_args) : bytes := tagged (lit "TapSighash") (0 :: sig_msg a).
  (** every message hashed on the way, the last one included *)
  Definition tap_messages (a : tap_args) : list bytes :=
    bip341_hashed a ++ fst (bip341_hashed2 a) ++ snd (bip341_hashed2 a) ++ [H (lit "TapSighash") ++ H (lit "TapSighash") ++ 0 :: sig_msg a].
  (** the index is one of an input, and with SINGLE of an output *)
  Definition tap_valid (a : tap_args) : Prop :=
    ta_i a < lenN (tx_inputs (ta_tx a)) /\ (N.land (ta_ty a) 3 = 3 -> ta_i a < lenN (tx_outputs (ta_tx a))).
  Definition tap_repr (a : tap_args) : Prop :=
    tx_repr (ta_tx a) /\ Forall txout_repr (ta_spent a) /\ txout_repr (ta_prev a) /\ is_u32 (ta_i a) /\
    (forall x, ta_annex a = Some x -> is_u64 (lenN x)) /\ (forall h p, ta_leaf a = Some (h, p) -> lenN h = 32 /\ is_u32 p).
  (** two requests agree on all that their type covers *)
  Definition tap_agree (a b : tap_args) : Prop :=
    ta_ty a = ta_ty b /\ tx_version (ta_tx a) = tx_version (ta_tx b) /\ tx_lock_time (ta_tx a) = tx_lock_time (ta_tx b) /\
    ta_annex a = ta_annex b /\ ta_leaf a = ta_leaf b /\
    (anyone (ta_ty a) = false ->
       map ti_prevout (tx_inputs (ta_tx a)) = map ti_prevout (tx_inputs (ta_tx b)) /\ map ti_sequence (tx_inputs (ta_tx a)) = map ti_sequence (tx_inputs (ta_tx b)) /\
       ta_spent a = ta_spent b /\ ta_i a = ta_i b) /\
    (anyone (ta_ty a) = true ->
       option_map ti_prevout (nthN (tx_inputs (ta_tx a)) (ta_i a)) = option_map ti_prevout (nthN (tx_inputs (ta_tx b)) (ta_i b)) /\
       option_map ti_sequence (nthN (tx_inputs (ta_tx a)) (ta_i a)) = option_map ti_sequence (nthN (tx_inputs (ta_tx b)) (ta_i b)) /\
       ta_prev a = ta_prev b) /\
    (N.land (ta_ty a) 3 <> 2 -> N.land (ta_ty a) 3 <> 3 -> tx_outputs (ta_tx a) = tx_outputs (ta_tx b)) /\
    (N.land (ta_ty a) 3 = 3 -> nthN (tx_outputs (ta_tx a)) (ta_i a) = nthN (tx_outputs (ta_tx b)) (ta_i b)).

  (** * BIP 143 *)
  Definition double (m : bytes) : bytes := H (H m).
  Record v0_args := { va_ty : N; va_tx : transaction; va_i : N; va_code : bytes; va_amount : N }.
  Definition plain (ty : N) : bool := negb (N.land ty 0x1f =? 2) && negb (N.land ty 0x1f =? 3).
  Definition v0_prevouts (a : v0_args) : option bytes := if anyone (va_ty a) then None else Some (cat (fun i => wire_outpoint (ti_prevout i)) (tx_inputs (va_tx a))).
  Definition v0_sequences (a : v0_args) : option bytes :=
    if negb (anyone (va_ty a)) && plain (va_ty a) then Some (cat (fun i => le_bytes 4 (ti_sequence i)) (tx_inputs (va_tx a))) else None.
  Definition v0_outputs (a : v0_args) : option bytes :=
    if plain (va_ty a) then Some (cat wire_txout (tx_outputs (va_tx a)))
    else if N.land (va_ty a) 0x1f =? 3 then option_map wire_txout (nthN (tx_outputs (va_tx a)) (va_i a)) else None.
  Definition or_zero (m : option bytes) : bytes := match m with Some m => double m | None => repeat 0 32 end.
  Definition bip143_msg (a : v0_args) : bytes :=
    le_bytes 4 (tx_version (va_tx a)) ++ or_zero (v0_prevouts a) ++ or_zero (v0_sequences a) ++
    match nthN (tx_inputs (va_tx a)) (va_i a) with
    | Some x => wire_outpoint (ti_prevout x) ++ wire_bytes (va_code a) ++ le_bytes 8 (va_amount a) ++ le_bytes 4 (ti_sequence x)
    | None => []
    end ++
    or_zero (v0_outputs a) ++ le_bytes 4 (tx_lock_time (va_tx a)) ++ le_bytes 4 (va_ty a).
  Definition opt_list {A} (o : option A) : list A := match o with Some x => [x] | None => [] end.
  Definition v0_parts (a : v0_args) : list bytes := opt_list (v0_prevouts a) ++ opt_list (v0_sequences a) ++ opt_list (v0_outputs a) ++ [bip143_msg a].
  (** the messages hashed, twice each *)
  Definition v0_messages (a : v0_args) : list bytes := v0_parts a ++ map H (v0_parts a).
  Definition v0_repr (a : v0_args) : Prop := tx_repr (va_tx a) /\ is_u32 (va_ty a) /\ is_u64 (va_amount a) /\ is_u64 (lenN (va_code a)).
  Definition v0_agree (a b : v0_args) : Prop :=
    va_ty a = va_ty b /\ tx_version (va_tx a) = tx_version (va_tx b) /\ tx_lock_time (va_tx a) = tx_lock_time (va_tx b) /\
    va_code a = va_code b /\ va_amount a = va_amount b /\
    option_map ti_prevout (nthN (tx_inputs (va_tx a)) (va_i a)) = option_map ti_prevout (nthN (tx_inputs (va_tx b)) (va_i b)) /\
    option_map ti_sequence (nthN (tx_inputs (va_tx a)) (va_i a)) = option_map ti_sequence (nthN (tx_inputs (va_tx b)) (va_i b)) /\
    (anyone (va_ty a) = false -> map ti_prevout (tx_inputs (va_tx a)) = map ti_prevout (tx_inputs (va_tx b))) /\
    (anyone (va_ty a) = false -> plain (va_ty a) = true -> map ti_sequence (tx_inputs (va_tx a)) = map ti_sequence (tx_inputs (va_tx b))) /\
    (plain (va_ty a) = true -> tx_outputs (va_tx a) = tx_outputs (va_tx b)) /\
    (N.land (va_ty a) 0x1f = 3 -> nthN (tx_outputs (va_tx a)) (va_i a) = nthN (tx_outputs (va_tx b)) (va_i b)).
End Hash.

(** * The original algorithm: serialize a changed copy of the transaction, and the type *)
Fixpoint mapi {A B} (f : N -> A -> B) (n : N) (l : list A) : list B := match l with [] => [] | x :: l' => f n x :: mapi f (n + 1) l' end.
Definition copy_input (ty i : N) (code : bytes) (n : N) (x : txin) : txin :=
  {| ti_prevout := ti_prevout x;
     ti_script := if n =? i then code else [];
     ti_sequence := if (n =? i) || plain ty then ti_sequence x else 0;
     ti_witness := ti_witness x |}.
Definition blank : txout := {| to_amount := 2 ^ 64 - 1; to_script := [] |}.
Definition legacy_copy (ty i : N) (code : bytes) (tx : transaction) : transaction :=
  let ins := mapi (copy_input ty i code) 0 (tx_inputs tx) in
  {| tx_version := tx_version tx;
     tx_lock_time := tx_lock_time tx;
     tx_inputs := if anyone ty then match nthN ins i with Some x => [x] | None => [] end else ins;
     tx_outputs := if N.land ty 0x1f =? 2 then []
                   else if N.land ty 0x1f =? 3 then repeat blank (N.to_nat i) ++ match nthN (tx_outputs tx) i with Some o => [o] | None => [] end
                   else tx_outputs tx |}.
Definition legacy_msg (ty i : N) (code : bytes) (tx : transaction) : bytes := wire_legacy (legacy_copy ty i code tx) ++ le_bytes 4 ty.
Definition legacy_agree (ty i : N) (a b : transaction) : Prop :=
  tx_version a = tx_version b /\ tx_lock_time a = tx_lock_time b /\
  option_map ti_prevout (nthN (tx_inputs a) i) = option_map ti_prevout (nthN (tx_inputs b) i) /\
  option_map ti_sequence (nthN (tx_inputs a) i) = option_map ti_sequence (nthN (tx_inputs b) i) /\
  (anyone ty = false -> map ti_prevout (tx_inputs a) = map ti_prevout (tx_inputs b)) /\
  (anyone ty = false -> plain ty = true -> map ti_sequence (tx_inputs a) = map ti_sequence (tx_inputs b)) /\
  (plain ty = true -> tx_outputs a = tx_outputs b) /\
  (N.land ty 0x1f = 3 -> nthN (tx_outputs a) i = nthN (tx_outputs b) i).

(** * What a request to the cache stands for *)
(** A taproot request is refused when the number of spent outputs given is wrong, when one spent output is given and all
    are needed or it is another input's, when ANYONECANPAY names no input and when SINGLE names no output.  Otherwise
    it stands for the arguments of BIP 341. *)
Definition tap_outcome (tx : transaction) (i : N) (p : prevouts) (annex : option bytes) (leaf : option (bytes * N)) (ty : tap_type) : result tap_args tap_err :=
  let t := tap_u8 ty in
  let ins := lenN (tx_inputs tx) in let outs := lenN (tx_outputs tx) in
  let ok spent prev := if (N.land t 3 =? 3) && (outs <=? i) then Err (ESingleMissing i outs)
    else Ok {| ta_ty := t; ta_tx := tx; ta_i := i; ta_spent := spent; ta_prev := prev; ta_annex := annex; ta_leaf := leaf |} in
  match p with
  | PAll os =>
      if negb (lenN os =? ins) then Err EPrevoutsSize
      else if anyone t && (ins <=? i) then Err (EInputsIndex i ins) else ok os (match nthN os i with Some o => o | None => blank end)
  | POne j o =>
      if negb (anyone t) then Err EPrevoutsKind
      else if ins <=? i then Err (EInputsIndex i ins) else if i =? j then ok [] o else Err EOneIndex
  end.
(** A history of requests gives the same list of spent outputs whenever all are needed. *)
Definition same_spent (tx : transaction) (ps : list txout) (k : call) : Prop :=
  match k with CTap i (PAll os) _ _ ty => anyone (tap_u8 ty) = true \/ lenN os <> lenN (tx_inputs tx) \/ os = ps | _ => True end.
