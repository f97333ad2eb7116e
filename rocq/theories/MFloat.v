(** Amounts and floating point: units/src/amount/unsigned.rs:158-160, 241-243, 259, 270-279, 288-307 and signed.rs:168-170, 246-248,
    259-280, 296, 307-311, and the serde module as_btc of units/src/amount/serde.rs:228-248.
    The standard library's conversions between decimal text and f64 are external.  [parse_f64] is the correctly rounded reading, on plain
    decimal texts only (no exponent, "inf" or "nan"; the code reads only texts it has written itself).  The writing, [f64::to_string],
    is a parameter. *)
From Verif Require Import Base MText MAmount MAmountText.
Local Open Scope N_scope.

(** An f64.  [Fin neg m s] is the number m * 2^s / 2^1074, negated if [neg]: the stored exponent is counted from the
    smallest one *)
Inductive f64 := NaN | Inf (neg : bool) | Fin (neg : bool) (m s : N).
Definition MANT : N := 9007199254740992.
Definition HALF_MANT : N := 4503599627370496.
Definition UNITS : N := 2 ^ 1074.
(** IEEE 754 rounding of num/den to nearest, ties to even *)
Definition round_f64 (neg : bool) (num den : N) : f64 :=
  let n := num * UNITS in
  let s := N.log2 (n / den) - 52 in
  let d := den * 2 ^ s in
  let q := n / d in
  let r := n mod d in
  let m := if 2 * r <? d then q else if d <? 2 * r then q + 1 else if N.even q then q else q + 1 in
  let '(m, s) := if m =? MANT then (HALF_MANT, s + 1) else (m, s) in
  if 2045 <? s then Inf neg else Fin neg m s.
(** digits with at most one point and at least one digit: the digits read as a number, and how many follow the point *)
Fixpoint read_dec (s : str) (dot any : bool) (v k : N) : option (N * N) :=
  match s with
  | [] => if any then Some (v, k) else None
  | c :: s' => if c =? 46 then (if dot then None else read_dec s' true any v k)
               else if (48 <=? c) && (c <=? 57) then read_dec s' dot true (10 * v + (c - 48)) (if dot then k + 1 else k)
               else None
  end.
(** str::parse::<f64> *)
Definition parse_f64 (s : str) : option f64 :=
  let '(neg, t) := match s with c :: t => if c =? 45 then (true, t) else (false, s) | [] => (false, s) end in
  match read_dec t false false 0 0 with Some (v, k) => Some (round_f64 neg v (10 ^ k)) | None => None end.
(** [x < 0.0] *)
Definition negative (x : f64) : bool := match x with NaN => false | Inf neg => neg | Fin neg m _ => neg && negb (m =? 0) end.
(** [Result::unwrap] of the reading *)
Definition parsed (s : str) : rust f64 := match parse_f64 s with Some x => Ret x | None => Panic end.

(** unsigned.rs:241-243, 259; signed.rs:246-248, 296 *)
Definition amount_to_float_in (a : Z) (d : denom) : rust f64 := rbind (amount_to_string_in a d) parsed.
Definition amount_to_btc (a : Z) : rust f64 := amount_to_float_in a Bitcoin.
Definition signed_to_float_in (a : Z) (d : denom) : rust f64 := rbind (signed_to_string_in a d) parsed.
Definition signed_to_btc (a : Z) : rust f64 := signed_to_float_in a Bitcoin.
Section Show.
  Variable show : f64 -> str.
  (** unsigned.rs:270-279, 158-160 *)
  Definition amount_from_float_in (x : f64) (d : denom) : rust (result Z parse_amount_err) :=
    if negative x then Ret (Err (PaOutOfRange {| is_signed := false; is_greater_than_max := false |}))
    else amount_from_str_in (show x) d.
  Definition amount_from_btc (x : f64) : rust (result Z parse_amount_err) := amount_from_float_in x Bitcoin.
  (** signed.rs:307-311, 168-170 *)
  Definition signed_from_float_in (x : f64) (d : denom) : rust (result Z parse_amount_err) := signed_from_str_in (show x) d.
  Definition signed_from_btc (x : f64) : rust (result Z parse_amount_err) := signed_from_float_in x Bitcoin.
  (** as_btc: serde.rs:228-234 writes the f64 of the signed amount; :237-248 reads an f64 and converts *)
  Definition btc_serialize (signed : bool) (a : Z) : rust f64 :=
    rbind (if signed then Ret a else amount_to_signed a) (fun x => signed_to_float_in x Bitcoin).
  Definition btc_deserialize (signed : bool) (x : f64) : rust (option Z) :=
    rbind (signed_from_btc x) (fun r =>
    match r with
    | Err _ => Ret None
    | Ok a => if signed then Ret (Some a)
              else rbind (signed_to_unsigned a) (fun u => Ret (match u with Ok b => Some b | Err _ => None end))
    end).
  (** as_btc::vec serde.rs:331-339, 359-372: element by element *)
  Fixpoint btc_serialize_vec (signed : bool) (l : list Z) : rust (list f64) :=
    match l with
    | [] => Ret []
    | a :: l' => rbind (btc_serialize signed a) (fun x => rbind (btc_serialize_vec signed l') (fun xs => Ret (x :: xs)))
    end.
  Fixpoint btc_deserialize_vec (signed : bool) (l : list f64) : rust (option (list Z)) :=
    match l with
    | [] => Ret (Some [])
    | x :: l' => rbind (btc_deserialize signed x) (fun r =>
        match r with
        | None => Ret None
        | Some a => rbind (btc_deserialize_vec signed l') (fun r' => Ret (match r' with Some l => Some (a :: l) | None => None end))
        end)
    end.
End Show.

(** unsigned.rs:288-307, signed.rs:259-280: satoshis in hexadecimal, with or without prefix.  signed.rs:259-280 goes through
    [from_sat_u64], which checks the same bound. *)
Inductive hex_amount_err := HaPrefixed (e : prefixed_err) | HaUnprefixed (e : unprefixed_err) | HaOutOfRange (e : out_of_range).
Definition amount_from_sat_hex (s : str) : result Z hex_amount_err :=
  match hex_prefixed 64 s with
  | Err e => Err (HaPrefixed e)
  | Ok n => match amount_from_sat (Z.of_N n) with Ok a => Ok a | Err e => Err (HaOutOfRange e) end
  end.
Definition amount_from_sat_unprefixed_hex (s : str) : result Z hex_amount_err :=
  match hex_unprefixed 64 s with
  | Err e => Err (HaUnprefixed e)
  | Ok n => match amount_from_sat (Z.of_N n) with Ok a => Ok a | Err e => Err (HaOutOfRange e) end
  end.
(** signed.rs:141-148 *)
Definition signed_from_sat_u64 (n : N) : result Z hex_amount_err :=
  if 9223372036854775807 <? n then Err (HaOutOfRange {| is_signed := true; is_greater_than_max := true |})
  else match signed_from_sat (Z.of_N n) with Ok a => Ok a | Err e => Err (HaOutOfRange e) end.
Definition signed_from_sat_hex (s : str) : result Z hex_amount_err :=
  match hex_prefixed 64 s with Err e => Err (HaPrefixed e) | Ok n => signed_from_sat_u64 n end.
Definition signed_from_sat_unprefixed_hex (s : str) : result Z hex_amount_err :=
  match hex_unprefixed 64 s with Err e => Err (HaUnprefixed e) | Ok n => signed_from_sat_u64 n end.
