(** Model of the arithmetic of the [units] crate: amounts, fee rates, weights.
    Unsigned and signed machine integers are [Z]; every place where the Rust code
    tests or relies on a machine range is explicit.
    Files: units/src/amount/{unsigned,signed,result}.rs, units/src/{result,fee,weight}.rs,
    units/src/fee_rate/mod.rs. *)
From Verif Require Import Base.
Local Open Scope Z_scope.

Definition U64_MAX : Z := 18446744073709551615.
Definition I64_MAX : Z := 9223372036854775807.
Definition I64_MIN : Z := -9223372036854775808.

(** Rust core: u64::checked_add/sub/mul/div/rem. *)
Definition u64_checked_add (a b : Z) : option Z := if a + b <=? U64_MAX then Some (a + b) else None.
Definition u64_checked_sub (a b : Z) : option Z := if b <=? a then Some (a - b) else None.
Definition u64_checked_mul (a b : Z) : option Z := if a * b <=? U64_MAX then Some (a * b) else None.
Definition u64_checked_div (a b : Z) : option Z := if b =? 0 then None else Some (a / b).
Definition u64_checked_rem (a b : Z) : option Z := if b =? 0 then None else Some (a mod b).
(** Rust core: u64::div_ceil (panics on a zero divisor; callers below never pass zero). *)
Definition u64_div_ceil (a b : Z) : Z := let q := a / b in if 0 <? a mod b then q + 1 else q.

(** Rust core: i64::checked_*; division truncates towards zero ([Z.quot]/[Z.rem]). *)
Definition i64_in (x : Z) : bool := (I64_MIN <=? x) && (x <=? I64_MAX).
Definition i64_checked_add (a b : Z) : option Z := if i64_in (a + b) then Some (a + b) else None.
Definition i64_checked_sub (a b : Z) : option Z := if i64_in (a - b) then Some (a - b) else None.
Definition i64_checked_mul (a b : Z) : option Z := if i64_in (a * b) then Some (a * b) else None.
Definition i64_checked_div (a b : Z) : option Z :=
  if (b =? 0) || ((a =? I64_MIN) && (b =? -1)) then None else Some (Z.quot a b).
Definition i64_checked_rem (a b : Z) : option Z :=
  if (b =? 0) || ((a =? I64_MIN) && (b =? -1)) then None else Some (Z.rem a b).

Record out_of_range := { is_signed : bool; is_greater_than_max : bool }.

(** units/src/result.rs:358-375 *)
Inductive math_op := OpAdd | OpSub | OpMul | OpDiv | OpRem | OpNeg.

(** units/src/result.rs:95-100 *)
Inductive num_op_result (A : Type) := Valid (a : A) | Error (op : math_op).
Arguments Valid {A} _.
Arguments Error {A} _.

(** units/src/result.rs:343-348 *)
Definition valid_or_error {A} (o : option A) (op : math_op) : num_op_result A :=
  match o with Some a => Valid a | None => Error op end.

(** units/src/result.rs:216-224, 106-111 *)
Definition nor_and_then {A} (r : num_op_result A) (f : A -> num_op_result A) : num_op_result A :=
  match r with Valid a => f a | Error e => Error e end.
Definition nor_map {A B} (r : num_op_result A) (f : A -> B) : num_op_result B :=
  match r with Valid a => Valid (f a) | Error e => Error e end.

(** ** Amount (units/src/amount/unsigned.rs).  The newtype is its inner u64. *)

(** unsigned.rs:61, 120: MAX = 21_000_000 * 100_000_000 *)
Definition AMOUNT_MAX : Z := 21000000 * 100000000.

(** unsigned.rs:94-100 *)
Definition amount_from_sat (s : Z) : result Z out_of_range :=
  if AMOUNT_MAX <? s then Err {| is_signed := false; is_greater_than_max := true |} else Ok s.

(** unsigned.rs:131-138; a panic branch is kept. *)
Definition amount_from_sat_u32 (s : Z) : rust Z :=
  match amount_from_sat s with Ok a => Ret a | Err _ => Panic end.

(** unsigned.rs:173-181 *)
Definition amount_from_btc_u16 (b : Z) : rust Z :=
  match amount_from_sat (b * 100000000) with Ok a => Ret a | Err _ => Panic end.

Definition ok_opt {A E} (r : result A E) : option A :=
  match r with Ok a => Some a | Err _ => None end.

(** unsigned.rs:387-391.  The addition is a plain [u64] addition: it panics (debug) or wraps
    (release) above [U64_MAX]; modelled as the panic. *)
Definition amount_checked_add (a b : Z) : rust (option Z) :=
  if a + b <=? U64_MAX then Ret (ok_opt (amount_from_sat (a + b))) else Panic.

(** unsigned.rs:398-402 *)
Definition amount_checked_sub (a b : Z) : option Z :=
  match u64_checked_sub a b with None => None | Some s => ok_opt (amount_from_sat s) end.
(** unsigned.rs:409-413 *)
Definition amount_checked_mul (a k : Z) : option Z :=
  match u64_checked_mul a k with None => None | Some s => ok_opt (amount_from_sat s) end.
(** unsigned.rs:422-426 *)
Definition amount_checked_div (a k : Z) : option Z :=
  match u64_checked_div a k with None => None | Some s => ok_opt (amount_from_sat s) end.
(** unsigned.rs:433-437 *)
Definition amount_checked_rem (a k : Z) : option Z :=
  match u64_checked_rem a k with None => None | Some s => ok_opt (amount_from_sat s) end.

(** ** SignedAmount (units/src/amount/signed.rs) *)
Definition SIGNED_MIN : Z := -21000000 * 100000000.

(** signed.rs:89-97 *)
Definition signed_from_sat (s : Z) : result Z out_of_range :=
  if s <? SIGNED_MIN then Err {| is_signed := true; is_greater_than_max := false |}
  else if AMOUNT_MAX <? s then Err {| is_signed := true; is_greater_than_max := true |}
  else Ok s.

(** signed.rs:436-488 *)
Definition signed_checked_add (a b : Z) : option Z :=
  match i64_checked_add a b with None => None | Some s => ok_opt (signed_from_sat s) end.
Definition signed_checked_sub (a b : Z) : option Z :=
  match i64_checked_sub a b with None => None | Some s => ok_opt (signed_from_sat s) end.
Definition signed_checked_mul (a b : Z) : option Z :=
  match i64_checked_mul a b with None => None | Some s => ok_opt (signed_from_sat s) end.
Definition signed_checked_div (a b : Z) : option Z :=
  match i64_checked_div a b with None => None | Some s => ok_opt (signed_from_sat s) end.
Definition signed_checked_rem (a b : Z) : option Z :=
  match i64_checked_rem a b with None => None | Some s => ok_opt (signed_from_sat s) end.

(** signed.rs:392-398 *)
Definition signed_abs (a : Z) : rust Z :=
  if a =? I64_MIN then Panic
  else match signed_from_sat (Z.abs a) with Ok x => Ret x | Err _ => Panic end.

(** signed.rs:510-518.  [as u64] on a non-negative i64 is the identity. *)
Definition signed_to_unsigned (a : Z) : rust (result Z out_of_range) :=
  if a <? 0 then Ret (Err {| is_signed := false; is_greater_than_max := false |})
  else match amount_from_sat a with Ok x => Ret (Ok x) | Err _ => Panic end.

(** signed.rs:404-406 *)
Definition signed_unsigned_abs (a : Z) : rust Z :=
  rbind (signed_abs a) (fun x =>
  rbind (signed_to_unsigned x) (fun r => match r with Ok y => Ret y | Err _ => Panic end)).

(** signed.rs:495-501 *)
Definition signed_positive_sub (a b : Z) : option Z :=
  if (a <? 0) || (b <? 0) || (a <? b) then None else signed_checked_sub a b.

(** unsigned.rs:443-446: [as i64] modelled as wrap-around. *)
Definition wrap_i64 (x : Z) : Z := (x + 9223372036854775808) mod 18446744073709551616 - 9223372036854775808.
Definition amount_to_signed (a : Z) : rust Z :=
  match signed_from_sat (wrap_i64 a) with Ok x => Ret x | Err _ => Panic end.

(** ** Operators of units/src/amount/result.rs *)

(** result.rs:39 and amount/result.rs:44: Amount + Amount. *)
Definition amount_add (a b : Z) : rust (num_op_result Z) :=
  rbind (amount_checked_add a b) (fun o => Ret (valid_or_error o OpAdd)).
(** amount/result.rs:50, 66, 87, 114 *)
Definition amount_sub (a b : Z) : num_op_result Z := valid_or_error (amount_checked_sub a b) OpSub.
Definition amount_mul (a k : Z) : num_op_result Z := valid_or_error (amount_checked_mul a k) OpMul.
Definition amount_div (a k : Z) : num_op_result Z := valid_or_error (amount_checked_div a k) OpDiv.
Definition amount_rem (a k : Z) : num_op_result Z := valid_or_error (amount_checked_rem a k) OpRem.

(** amount/result.rs:125, 136, 152, 173, 200 *)
Definition signed_add (a b : Z) : num_op_result Z := valid_or_error (signed_checked_add a b) OpAdd.
Definition signed_sub (a b : Z) : num_op_result Z := valid_or_error (signed_checked_sub a b) OpSub.
Definition signed_mul (a k : Z) : num_op_result Z := valid_or_error (signed_checked_mul a k) OpMul.
Definition signed_div (a k : Z) : num_op_result Z := valid_or_error (signed_checked_div a k) OpDiv.
Definition signed_rem (a k : Z) : num_op_result Z := valid_or_error (signed_checked_rem a k) OpRem.

(** unsigned.rs:454-457 *)
Definition amount_signed_sub (a b : Z) : rust Z :=
  rbind (amount_to_signed a) (fun x => rbind (amount_to_signed b) (fun y =>
  match signed_sub x y with Valid z => Ret z | Error _ => Panic end)).

(** amount/result.rs:104: Amount / NonZeroU64 *)
Definition amount_div_nonzero (a k : Z) : rust Z :=
  match amount_from_sat (a / k) with Ok x => Ret x | Err _ => Panic end.

(** amount/result.rs:235-237: -SignedAmount;  225-229: -Amount *)
Definition signed_neg (a : Z) : rust Z :=
  if a =? I64_MIN then Panic else match signed_from_sat (- a) with Ok x => Ret x | Err _ => Panic end.
Definition amount_neg (a : Z) : rust Z := rbind (amount_to_signed a) signed_neg.

(** units/src/result.rs:248-253 (NumOpResult + NumOpResult) *)
Definition nor_add (x y : num_op_result Z) : rust (num_op_result Z) :=
  match x, y with
  | Valid a, Valid b => amount_add a b
  | _, _ => Ret (Error OpAdd)
  end.
(** units/src/result.rs:271-276 *)
Definition nor_sub (x y : num_op_result Z) : num_op_result Z :=
  match x, y with
  | Valid a, Valid b => amount_sub a b
  | _, _ => Error OpSub
  end.
Definition nor_sadd (x y : num_op_result Z) : num_op_result Z :=
  match x, y with Valid a, Valid b => signed_add a b | _, _ => Error OpAdd end.
Definition nor_ssub (x y : num_op_result Z) : num_op_result Z :=
  match x, y with Valid a, Valid b => signed_sub a b | _, _ => Error OpSub end.

(** amount/result.rs:252-260: Sum for NumOpResult<Amount> (fold from ZERO). *)
Definition amount_sum (l : list Z) : rust (num_op_result Z) :=
  fold_left (fun acc x => rbind acc (fun r => nor_add r (Valid x))) l (Ret (Valid 0)).

(** ** FeeRate (units/src/fee_rate/mod.rs): the inner value is sat per million virtual bytes. *)
(** fee_rate/mod.rs:72-75, 89-92, 106-109: plain u64 products of a u32; panic branch kept. *)
Definition u64_mul (a b : Z) : rust Z := if a * b <=? U64_MAX then Ret (a * b) else Panic.
Definition feerate_from_sat_per_kwu (x : Z) : rust Z := u64_mul x 4000.
Definition feerate_from_sat_per_vb (x : Z) : rust Z := u64_mul x 1000000.
Definition feerate_from_sat_per_kvb (x : Z) : rust Z := u64_mul x 1000.
(** fee_rate/mod.rs:79-85, 96-102, 113-119 *)
Definition feerate_from_per_kwu (a : Z) : num_op_result Z := valid_or_error (amount_checked_mul a 4000) OpMul.
Definition feerate_from_per_vb (a : Z) : num_op_result Z := valid_or_error (amount_checked_mul a 1000000) OpMul.
Definition feerate_from_per_kvb (a : Z) : num_op_result Z := valid_or_error (amount_checked_mul a 1000) OpMul.
(** fee_rate/mod.rs:123-143 *)
Definition feerate_to_kwu_floor (r : Z) : Z := r / 4000.
Definition feerate_to_kwu_ceil (r : Z) : Z := u64_div_ceil r 4000.
Definition feerate_to_vb_floor (r : Z) : Z := r / 1000000.
Definition feerate_to_vb_ceil (r : Z) : Z := u64_div_ceil r 1000000.
Definition feerate_to_kvb_floor (r : Z) : Z := r / 1000.
Definition feerate_to_kvb_ceil (r : Z) : Z := u64_div_ceil r 1000.
(** fee_rate/mod.rs:150-187 *)
Definition feerate_checked_mul := u64_checked_mul.
Definition feerate_checked_div := u64_checked_div.
Definition feerate_checked_add := u64_checked_add.
Definition feerate_checked_sub := u64_checked_sub.

(** fee_rate/mod.rs:212-221 *)
Definition feerate_mul_by_weight (r wu : Z) : num_op_result Z :=
  match u64_checked_mul (feerate_to_kwu_ceil r) wu with
  | Some fee_kwu =>
      match amount_from_sat (u64_div_ceil fee_kwu 1000) with
      | Ok f => Valid f
      | Err _ => Error OpMul
      end
  | None => Error OpMul
  end.
(** fee_rate/mod.rs:199-205 *)
Definition feerate_to_fee (r wu : Z) : Z :=
  match feerate_mul_by_weight r wu with Valid f => f | Error _ => AMOUNT_MAX end.

(** unsigned.rs:463-478 *)
Definition amount_div_by_weight_floor (a wu : Z) : num_op_result Z :=
  match u64_checked_mul a 1000 with
  | Some sats =>
      match u64_checked_div sats wu with
      | Some q => match amount_from_sat q with
                  | Ok x => feerate_from_per_kwu x
                  | Err _ => Error OpMul
                  end
      | None => Error OpDiv
      end
  | None => Error OpMul
  end.
(** unsigned.rs:496-512 *)
Definition amount_div_by_weight_ceil (a wu : Z) : num_op_result Z :=
  if wu =? 0 then Error OpDiv
  else match u64_checked_mul a 1000 with
       | Some sats => match amount_from_sat (u64_div_ceil sats wu) with
                      | Ok x => feerate_from_per_kwu x
                      | Err _ => Error OpMul
                      end
       | None => Error OpMul
       end.
(** unsigned.rs:519-526; [self.to_sat() * 1_000] is a plain product (panic kept). *)
Definition amount_div_by_fee_rate_floor (a r : Z) : rust (num_op_result Z) :=
  rbind (u64_mul a 1000) (fun msats =>
  Ret (valid_or_error (u64_checked_div msats (feerate_to_kwu_ceil r)) OpDiv)).
(** unsigned.rs:532-543 *)
Definition amount_div_by_fee_rate_ceil (a r : Z) : rust (num_op_result Z) :=
  let rate := feerate_to_kwu_ceil r in
  if rate =? 0 then Ret (Error OpDiv)
  else rbind (u64_mul a 1000) (fun msats => Ret (Valid (u64_div_ceil msats rate))).

(** ** Weight (units/src/weight.rs) *)
Definition WITNESS_SCALE_FACTOR : Z := 4.
(** weight.rs:71-81: checked products *)
Definition weight_from_kwu (x : Z) : option Z := u64_checked_mul x 1000.
Definition weight_from_vb (x : Z) : option Z := u64_checked_mul x WITNESS_SCALE_FACTOR.
(** weight.rs:119-136 *)
Definition weight_to_kwu_floor (w : Z) : Z := w / 1000.
Definition weight_to_kwu_ceil (w : Z) : Z := u64_div_ceil w 1000.
Definition weight_to_vb_floor (w : Z) : Z := w / WITNESS_SCALE_FACTOR.
Definition weight_to_vb_ceil (w : Z) : Z := u64_div_ceil w WITNESS_SCALE_FACTOR.
