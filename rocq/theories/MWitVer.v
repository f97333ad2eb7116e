(** Conversions of witness versions: primitives/src/witness_version.rs and bitcoin/src/blockdata/script/witness_version.rs.
    A version is its number 0..16, an opcode its byte (as in MScript.v, whose [version_to_opcode] is the conversion back to
    an opcode).  Hexadecimal, octal and binary forms are those of the number (MRadix.v). *)
From Verif Require Import Base MText MScript.
Local Open Scope N_scope.

Definition U8t := {| i_bits := 8; i_signed := false |}.
(** TryFrom<u8> :114-139; the error carries the number *)
Definition wv_try_from_u8 (no : N) : result N N := if no <=? 16 then Ok no else Err no.
(** TryFrom<Opcode> :141-152; the error carries the opcode's byte *)
Definition wv_try_from_opcode (op : N) : result N N :=
  if op =? 0 then Ok 0
  else if (OP_1 <=? op) && (op <=? OP_16) then wv_try_from_u8 (op - OP_1 + 1)
  else Err op.
(** FromStr :104-112 *)
Inductive wv_parse_err := WvUnparsable (e : parse_int_error) | WvInvalid (no : N).
Definition wv_from_str (s : str) : result N wv_parse_err :=
  match int_from_str U8t s with
  | Err e => Err (WvUnparsable e)
  | Ok z => match wv_try_from_u8 (Z.to_N z) with Ok v => Ok v | Err e => Err (WvInvalid e) end
  end.
(** Display :80-82 *)
Definition wv_display (v : N) : str := fmt_u v.
(** TryFrom<Instruction>: bitcoin witness_version.rs:19-29 *)
Inductive wv_instr_err := WvTryFrom (op : N) | WvDataPush.
Definition wv_try_from_instruction (i : instr) : result N wv_instr_err :=
  match i with
  | Op op => match wv_try_from_opcode op with Ok v => Ok v | Err e => Err (WvTryFrom e) end
  | PushBytes [] => Ok 0
  | PushBytes _ => Err WvDataPush
  end.
