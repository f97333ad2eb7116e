(** Signed amounts from small integers, and signs: units/src/amount/signed.rs, internals/src/const_casts.rs (the casts widen and
    keep the value). *)
From Verif Require Import Base MAmount.
Local Open Scope Z_scope.

(** from_sat_i32 signed.rs:126-132; the panic branch is kept *)
Definition signed_from_sat_i32 (s : Z) : rust Z :=
  match signed_from_sat s with Ok a => Ret a | Err _ => Panic end.
(** from_btc_i16 :183-191, and through it from_int_btc :175-177; the multiplication is of i64 and panics on overflow *)
Definition signed_from_btc_i16 (b : Z) : rust Z :=
  let sats := b * 100000000 in
  if (-9223372036854775808 <=? sats) && (sats <=? 9223372036854775807)
  then match signed_from_sat sats with Ok a => Ret a | Err _ => Panic end
  else Panic.
(** signum :415, is_positive :422, is_negative :429 (those of i64) *)
Definition signed_signum (a : Z) : Z := if a <? 0 then -1 else if a =? 0 then 0 else 1.
Definition signed_is_positive (a : Z) : bool := 0 <? a.
Definition signed_is_negative (a : Z) : bool := a <? 0.
