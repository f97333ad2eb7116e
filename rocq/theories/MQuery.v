(** Small queries: the out-of-range error of amounts (units/src/amount/error.rs:120-185), transaction versions
    (primitives/src/transaction.rs:1164-1197) and median-time intervals (units/src/block.rs:420-455). *)
From Coq Require Import String.
From Verif Require Import Base MAmount MText MLock.

(** OutOfRangeError::valid_range, error.rs:132-137: (i64::MIN, i64::MAX as u64) or (0, u64::MAX) *)
Definition valid_range (e : out_of_range) : Z * Z :=
  if is_signed e then (-9223372036854775808, 9223372036854775807)%Z else (0, 18446744073709551615)%Z.
(** is_above_max :142, is_below_min :146 *)
Definition is_above_max (e : out_of_range) : bool := is_greater_than_max e.
Definition is_below_min (e : out_of_range) : bool := negb (is_greater_than_max e).
(** Display :176-184 *)
Definition range_message (e : out_of_range) : str :=
  if is_greater_than_max e then (lit "the amount is greater than " ++ fmt_i (snd (valid_range e)))%list
  else (lit "the amount is less than " ++ fmt_i (fst (valid_range e)))%list.

(** Version, transaction.rs:1165-1174: a u32; ONE, TWO, THREE :1169-1175; is_standard :1193-1195 *)
Definition V_ONE : N := 1.
Definition V_TWO : N := 2.
Definition V_THREE : N := 3.
Definition version_is_standard (v : N) : bool := ((v =? V_ONE) || (v =? V_TWO) || (v =? V_THREE))%N.

(** BlockMtp - BlockMtp, block.rs:484-584 (checked: [None] on underflow :362-371); to_relative_mtp_interval_floor :435-439, _ceil :451-455 *)
Definition mtp_checked_sub (a b : N) : option N := checked_sub32 a b.
Definition to_relative_mtp_interval_floor (n : N) : result N N := secs_floor n.
Definition to_relative_mtp_interval_ceil (n : N) : result N N := secs_ceil n.
