(** Hexadecimal, octal and binary forms of BIP32 child numbers: key_expression/src/bip32.rs:317-373.  Width, fill and
    precision of the formatter are not modelled. *)
From Coq Require Import String.
From Verif Require Import Base MText MBip32.
Local Open Scope N_scope.

(** LowerHex, UpperHex, Octal and Binary for u32 (core::fmt::num): digits by repeated division, the alternate form with a prefix *)
Inductive form := FLowerHex | FUpperHex | FOctal | FBinary.
Definition radix (f : form) : N := match f with FLowerHex | FUpperHex => 16 | FOctal => 8 | FBinary => 2 end.
Fixpoint radix_rev (fuel : nat) (upper : bool) (r n : N) : str :=
  match fuel with
  | O => []
  | S k => hex_char upper (n mod r) :: (if n / r =? 0 then [] else radix_rev k upper r (n / r))
  end.
Definition fmt_radix (f : form) (alt : bool) (n : N) : str :=
  (if alt then match f with FLowerHex | FUpperHex => lit "0x" | FOctal => lit "0o" | FBinary => lit "0b" end else []) ++
  rev (radix_rev (S (N.to_nat (N.log2 n))) (match f with FUpperHex => true | _ => false end) (radix f) n).
(** format_with :317-334; LowerHex :351-355, UpperHex :357-361, Octal :363-367, Binary :369-373 *)
Definition cn_format (f : form) (alt : bool) (c : child_number) : str :=
  let index := cn_index c in
  if is_hardened c then fmt_radix f alt index ++ (if alt then match f with FUpperHex => lit "H" | _ => lit "h" end else lit "'")
  else fmt_radix f alt index.
