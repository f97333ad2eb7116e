(** Hexadecimal forms of encodable values: primitives/src/hex_codec.rs, the string driver of
    consensus_encoding/src/decode/mod.rs and the types that use them (transaction.rs, block.rs, witness.rs,
    script/owned.rs and script/borrowed.rs of primitives).  A formatter is its options; writing to it is modelled as the
    text written, so failures of the underlying writer are not.  The bytes an encoder yields are those of MTx.v and
    MWitness.v (C04 proves that byte iteration yields them). *)
From Verif Require Import Base MDec MText MWitness MTx MKey.
From Coq Require Import String.
From Verif Require MP2p.
Local Open Scope N_scope.

(** core::fmt::Alignment and the options of core::fmt::Formatter *)
Inductive align := ALeft | ACenter | ARight.
Record fmt := { f_alt : bool; f_width : option N; f_prec : option N; f_align : option align; f_fill : N }.
(** "{}", "{:x}", "{:X}": no options *)
Definition plain : fmt := {| f_alt := false; f_width := None; f_prec := None; f_align := None; f_fill := 32 |}.

(** hex_codec.rs:65-79: BytesToHexIter (hex crate) yields the two digits of each byte *)
Fixpoint emit (upper : bool) (b : bytes) (remaining : N) : str :=
  match b with
  | [] => []
  | x :: b' =>
      if remaining =? 0 then []
      else hex_char upper (x / 16) ::
        (let remaining := remaining - 1 in
         if remaining =? 0 then [] else hex_char upper (x mod 16) :: emit upper b' (remaining - 1))
  end.
(** fmt_hex hex_codec.rs:26-85; [len * 2] cannot overflow for bytes in memory.  Subtractions on N saturate. *)
Definition fmt_hex (f : fmt) (upper : bool) (b : bytes) : str :=
  let len := lenN b * 2 in
  let extra_len := if f_alt f then 2 else 0 in
  let total_len := len + extra_len in
  let pad_width := match f_width f with Some w => w | None => total_len end in
  let trunc_width := match f_prec f with Some v => v - extra_len | None => len end in
  let pad_diff := pad_width - total_len in
  let left_pad := match f_align f with
                  | Some ALeft => 0
                  | Some ACenter => pad_diff / 2
                  | Some ARight => pad_diff
                  | None => 0
                  end in
  repeat (f_fill f) (N.to_nat left_pad) ++
  (if f_alt f then (if upper then lit "0X"%string else lit "0x"%string) else []) ++
  emit upper b trunc_width ++
  repeat (f_fill f) (N.to_nat (pad_diff - left_pad)).

(** hex::HexSliceToBytesIter (hex crate): one result per two bytes of the string *)
Fixpoint hex_items (b : bytes) : list (option N) :=
  match b with
  | x :: y :: b' => match to_digit 16 x, to_digit 16 y with Some h, Some l => Some (16 * h + l) | _, _ => None end :: hex_items b'
  | _ => []
  end.
(** decode_from_hex decode/mod.rs:141-231: [hex_loop] in MDec.v is the loop *)
Inductive from_hex_err (E : Type) := FhOddLength (n : N) | FhOther (e : hex_err (E := E)).
Arguments FhOddLength {E} _. Arguments FhOther {E} _.
Definition decode_from_hex_str {A E} (D : decoder A E) (s : str) : rust (result A (from_hex_err E)) :=
  let b := MP2p.as_bytes s in
  if negb (lenN b mod 2 =? 0) then Ret (Err (FhOddLength (lenN b)))
  else rbind (decode_from_hex D (hex_items b)) (fun r => Ret (match r with Ok v => Ok v | Err e => Err (FhOther e) end)).

(** FromStr, Display, LowerHex, UpperHex of Transaction: transaction.rs:245-272 *)
Definition tx_from_str (s : str) := decode_from_hex_str tx_dec s.
Definition tx_fmt (f : fmt) (upper : bool) (tx : transaction) : str := fmt_hex f upper (tx_encode tx).
(** ... of Block: block.rs:305-342 *)
Definition block_from_str (s : str) := decode_from_hex_str block_dec s.
Definition block_fmt (f : fmt) (upper : bool) (b : block) : str := fmt_hex f upper (block_encode b).
(** ... of Header: block.rs:498-524 *)
Definition header_from_str (s : str) := decode_from_hex_str header_dec s.
Definition header_fmt (f : fmt) (upper : bool) (h : header) : str := fmt_hex f upper (header_encode h).
(** LowerHex, UpperHex of Witness: witness.rs:602-614; from_hex :243-257 *)
Definition witness_fmt (f : fmt) (upper : bool) (w : witness) : str := fmt_hex f upper (wit_encode w).
Fixpoint decode_all (l : list str) : result (list bytes) hex_array_err :=
  match l with
  | [] => Ok []
  | s :: l' => match decode_to_vec s with
               | Err e => Err e
               | Ok b => match decode_all l' with Ok r => Ok (b :: r) | Err e => Err e end
               end
  end.
Definition witness_from_hex (l : list str) : rust (result witness hex_array_err) :=
  match decode_all l with
  | Err e => Ret (Err e)
  | Ok ls => rbind (from_slice ls) (fun w => Ret (Ok w))
  end.
(** script/owned.rs:65-87, script/borrowed.rs:152-169 *)
Definition script_from_hex_prefixed (s : str) := decode_from_hex_str script_dec s.
Definition script_from_hex_no_length_prefix (s : str) : result bytes hex_array_err := decode_to_vec s.
Definition script_to_hex_prefixed (s : bytes) : str := flat_map (fun x => [hex_char false (x / 16); hex_char false (x mod 16)]) (script_encode s).
Definition script_to_hex_no_length_prefix (s : bytes) : str := hex_bytes false s.
