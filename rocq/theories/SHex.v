(** Specification of hexadecimal text with formatting options. *)
From Verif Require Import Base MText SText MHex.
Local Open Scope N_scope.

(** the prefix of the alternate form *)
Definition prefix_of (f : fmt) (upper : bool) : str := if f_alt f then 48 :: [if upper then 88 else 120] else [].
(** the digits of one case spelling [b] *)
Definition digit_case (upper : bool) (c : N) : Prop := 48 <= c <= 57 \/ (if upper then 65 <= c <= 70 else 97 <= c <= 102).
Definition spells (upper : bool) (s : str) (b : bytes) : Prop := hex_of s b /\ Forall (digit_case upper) s.
(** [n] fill characters, [l] of them on the left, as core::fmt aligns (left when no alignment is given) *)
Definition aligned (a : option align) (n l : N) : Prop :=
  match a with
  | None | Some ALeft => l = 0
  | Some ARight => l = n
  | Some ACenter => l = n / 2
  end.
