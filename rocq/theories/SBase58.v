(** Base58 as numbers: leading zero bytes are leading '1's, the rest is the same number in base 256
    and in base 58.  Independent of the code. *)
From Coq Require Import String.
From Verif Require Import Base MText.
Local Open Scope N_scope.

Definition alphabet : bytes := lit "123456789ABCDEFGHJKLMNPQRSTUVWXYZabcdefghijkmnopqrstuvwxyz".
(** [c] is the character of the digit [d]. *)
Definition digit58 (c d : N) : Prop := nth_error alphabet (N.to_nat d) = Some c.
(** The number of a list of digits, most significant first. *)
Definition number (base : N) (digits : list N) : N := fold_left (fun n d => n * base + d) digits 0.
(** A numeral without leading zeros (zero is the empty one). *)
Definition no_leading_zero (digits : list N) : Prop := hd 1 digits <> 0.
(** [s] is the base58 text of [data]. *)
Definition base58 (data s : bytes) : Prop :=
  exists z rest digits chars,
    data = repeat 0 z ++ rest /\ bytes_ok rest /\ no_leading_zero rest /\
    s = repeat 49 z ++ chars /\ Forall2 digit58 chars digits /\ no_leading_zero digits /\
    number 256 rest = number 58 digits.
