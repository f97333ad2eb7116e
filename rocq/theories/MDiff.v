(** The difficulty as a floating point number: bitcoin/src/pow.rs:105-115 and :141-144, bitcoin/src/blockdata/block.rs:59-61.
    The division of two f64 is the one of the processor: IEEE 754, to nearest with ties to even. *)
From Verif Require Import Base MTx MU256 MPow MFloat.
Local Open Scope N_scope.

(** f64::from_bits, which ends U256::to_f64 (MU256.to_f64_bits); NaN payloads are not kept *)
Definition f64_of_bits (b : N) : f64 :=
  let neg := N.testbit b 63 in
  let e := (b / 2 ^ 52) mod 2 ^ 11 in
  let f := b mod 2 ^ 52 in
  if e =? 2047 then (if f =? 0 then Inf neg else NaN)
  else if e =? 0 then Fin neg f 0
  else Fin neg (2 ^ 52 + f) (e - 1).
(** the operator / of f64 *)
Definition f64_div (x y : f64) : f64 :=
  match x, y with
  | NaN, _ | _, NaN | Inf _, Inf _ => NaN
  | Inf a, Fin b _ _ => Inf (xorb a b)
  | Fin a _ _, Inf b => Fin (xorb a b) 0 0
  | Fin a m s, Fin b m' s' =>
      if m' =? 0 then (if m =? 0 then NaN else Inf (xorb a b)) else round_f64 (xorb a b) (m * 2 ^ s) (m' * 2 ^ s')
  end.
(** units/src/pow.rs:362-394 *)
Definition u256_to_f64 (u : u256) : rust f64 := rbind (to_f64_bits u) (fun b => Ret (f64_of_bits b)).
(** pow.rs:105-115 *)
Definition difficulty_float_with_max (t max : u256) : rust f64 :=
  let self_inner := to_inner t in
  if u_eqb self_inner U_ZERO then Panic
  else
    let max_inner := to_inner max in
    rbind (u256_to_f64 max_inner) (fun x => rbind (u256_to_f64 self_inner) (fun y => Ret (f64_div x y))).
(** :141-144 *)
Definition difficulty_float (t : u256) (p : params) : rust f64 := difficulty_float_with_max t (p_max_attainable_target p).
(** block.rs:59-61 *)
Definition header_difficulty_float (h : header) (p : params) : rust f64 := rbind (header_target h) (fun t => difficulty_float t p).
