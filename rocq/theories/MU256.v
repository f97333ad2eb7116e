(** include/u256.rs: 256-bit unsigned integers in two 128-bit limbs.  Panics (overflow checks, debug
    assertions, index out of bounds) are kept. *)
From Verif Require Import Base MText.
Local Open Scope N_scope.

(** * u128 (core) *)
Definition W64 : N := 18446744073709551616.
Definition W128 : N := 340282366920938463463374607431768211456.
(** overflowing_add, wrapping_add *)
Definition overflowing_add128 (a b : N) : N * bool := ((a + b) mod W128, W128 <=? a + b).
(** [+] with overflow checks *)
Definition add128 (a b : N) : rust N := if a + b <? W128 then Ret (a + b) else Panic.
Definition mul128 (a b : N) : rust N := if a * b <? W128 then Ret (a * b) else Panic.
(** [<<] and [>>] by less than 128, and wrapping_shl, wrapping_shr, which mask the shift *)
Definition shl128 (a s : N) : N := (a * 2 ^ s) mod W128.
Definition shr128 (a s : N) : N := a / 2 ^ s.
Definition wrapping_shl128 (a s : N) : N := shl128 a (s mod 128).
Definition wrapping_shr128 (a s : N) : N := shr128 a (s mod 128).
(** leading_zeros *)
Definition leading_zeros128 (a : N) : N := 128 - N.size a.
(** [!] *)
Definition not128 (a : N) : N := W128 - 1 - a.

(** u256.rs:12-22: the first field is the high half *)
Record u256 := U { hi : N; lo : N }.
Definition U_MAX : u256 := U (W128 - 1) (W128 - 1).
Definition U_ZERO : u256 := U 0 0.
Definition U_ONE : u256 := U 0 1.
(** :25-54, split_in_half :515-523 *)
Definition from_be_bytes (a : bytes) : u256 := U (be_val (firstn 16 a)) (be_val (skipn 16 a)).
Definition from_le_bytes (a : bytes) : u256 := U (le_val (skipn 16 a)) (le_val (firstn 16 a)).
Definition to_be_bytes (u : u256) : bytes := be_bytes 16 (hi u) ++ be_bytes 16 (lo u).
Definition to_le_bytes (u : u256) : bytes := le_bytes 16 (lo u) ++ le_bytes 16 (hi u).
(** derived comparison :12 *)
Definition u_eqb (a b : u256) : bool := (hi a =? hi b) && (lo a =? lo b).
Definition u_ltb (a b : u256) : bool := (hi a <? hi b) || ((hi a =? hi b) && (lo a <? lo b)).
Definition u_leb (a b : u256) : bool := negb (u_ltb b a).
(** :82-105 *)
Definition is_zero (u : u256) : bool := (hi u =? 0) && (lo u =? 0).
Definition is_one (u : u256) : bool := (hi u =? 0) && (lo u =? 1).
Definition is_max (u : u256) : bool := (hi u =? W128 - 1) && (lo u =? W128 - 1).
Definition low_u32 (u : u256) : N := lo u mod 4294967296.
Definition low_u64 (u : u256) : N := lo u mod W64.
(** From<T: Into<u128>> :397-399 *)
Definition u_from (x : N) : u256 := U 0 x.
Definition saturating_to_u128 (u : u256) : N := if u_ltb (u_from (W128 - 1)) u then W128 - 1 else lo u.
(** :108-114 *)
Definition bits (u : u256) : N := if 0 <? hi u then 256 - leading_zeros128 (hi u) else 128 - leading_zeros128 (lo u).
(** :122-138 *)
Fixpoint mul_words (rhs : N) (ws : list N) (carry : N) : rust (list N * N) :=
  match ws with
  | [] => Ret ([], carry)
  | w :: ws' =>
      rbind (mul128 rhs w) (fun m => rbind (add128 carry m) (fun n =>
      rbind (mul_words rhs ws' (n / W64)) (fun '(r, c) => Ret (n mod W64 :: r, c))))
  end.
Definition mul_u64 (u : u256) (rhs : N) : rust (u256 * bool) :=
  rbind (mul_words rhs [lo u mod W64; (lo u / W64) mod W64; hi u mod W64; (hi u / W64) mod W64] 0) (fun '(ws, carry) =>
  match ws with
  | [w0; w1; w2; w3] => Ret (U (N.lor w2 (shl128 w3 64)) (N.lor w0 (shl128 w1 64)), negb (carry =? 0))
  | _ => Panic
  end).
(** :189-206 *)
Definition overflowing_add (a b : u256) : u256 * bool :=
  let '(h, o1) := overflowing_add128 (hi a) (hi b) in
  let '(l, o2) := overflowing_add128 (lo a) (lo b) in
  if o2 then let '(h, o3) := overflowing_add128 h 1 in (U h l, o1 || o3) else (U h l, o1).
Definition wrapping_add (a b : u256) : u256 := fst (overflowing_add a b).
(** :438-442 *)
Definition u_not (a : u256) : u256 := U (not128 (hi a)) (not128 (lo a)).
(** :213-217 *)
Definition overflowing_sub (a b : u256) : u256 * bool := (wrapping_add (wrapping_add a (u_not b)) U_ONE, u_ltb a b).
Definition wrapping_sub (a b : u256) : u256 := fst (overflowing_sub a b).
(** :273-283 *)
Definition wrapping_inc (a : u256) : u256 :=
  let l := (lo a + 1) mod W128 in
  if l =? 0 then U ((hi a + 1) mod W128) l else U (hi a) l.
(** :292-309; the assertion-free arithmetic [+=] is checked *)
Definition wrapping_shl (a : u256) (rhs : N) : rust u256 :=
  let shift := rhs mod 256 in
  let word_shift := 128 <=? shift in
  let bit_shift := shift mod 128 in
  if word_shift then Ret (U (shl128 (lo a) bit_shift) 0)
  else
    let h := shl128 (hi a) bit_shift in
    rbind (if 0 <? bit_shift then add128 h (wrapping_shr128 (lo a) (128 - bit_shift)) else Ret h) (fun h =>
    Ret (U h (shl128 (lo a) bit_shift))).
(** :318-335 *)
Definition wrapping_shr (a : u256) (rhs : N) : rust u256 :=
  let shift := rhs mod 256 in
  let word_shift := 128 <=? shift in
  let bit_shift := shift mod 128 in
  if word_shift then Ret (U 0 (shr128 (hi a) bit_shift))
  else
    let l := shr128 (lo a) bit_shift in
    rbind (if 0 <? bit_shift then add128 l (wrapping_shl128 (hi a) (128 - bit_shift)) else Ret l) (fun l =>
    Ret (U (shr128 (hi a) bit_shift) l)).
(** :225-244 *)
Fixpoint mul_loop (a rhs : u256) (is : list N) (ret : u256) (ov : bool) : rust (u256 * bool) :=
  match is with
  | [] => Ret (ret, ov)
  | i :: is' =>
      rbind (wrapping_shr rhs (64 * i)) (fun sh =>
      let to_mul := low_u64 sh in
      rbind (mul_u64 a to_mul) (fun '(mul_res, overflow) =>
      let ov := ov || overflow in
      rbind (if 0 <? i then wrapping_shr mul_res (256 - 64 * i) else Ret U_ZERO) (fun overflow_bits =>
      let ov := ov || u_ltb U_ZERO overflow_bits in
      rbind (wrapping_shl mul_res (64 * i)) (fun shifted =>
      let '(sum, overflow) := overflowing_add ret shifted in
      mul_loop a rhs is' sum (ov || overflow)))))
  end.
Definition overflowing_mul (a rhs : u256) : rust (u256 * bool) := mul_loop a rhs [0; 1; 2; 3] U_ZERO false.
(** :401-426: the operators, with their debug assertions *)
Definition u_add (a b : u256) : rust u256 := let '(r, o) := overflowing_add a b in if o then Panic else Ret r.
Definition u_sub (a b : u256) : rust u256 := let '(r, o) := overflowing_sub a b in if o then Panic else Ret r.
Definition u_mul (a b : u256) : rust u256 := rbind (overflowing_mul a b) (fun '(r, o) => if o then Panic else Ret r).
(** :150-182; the loop runs for shift, shift - 1, ..., 0 *)
Fixpoint div_loop (shift : nat) (sub_copy shift_copy : u256) (r0 r1 : N) : rust (u256 * u256) :=
  let s := N.of_nat shift in
  let '(sub_copy, r0, r1) :=
    if u_leb shift_copy sub_copy then
      (wrapping_sub sub_copy shift_copy,
       if s / 128 =? 1 then N.lor r0 (shl128 1 (s mod 128)) else r0,
       if s / 128 =? 1 then r1 else N.lor r1 (shl128 1 (s mod 128)))
    else (sub_copy, r0, r1) in
  rbind (wrapping_shr shift_copy 1) (fun shift_copy =>
  match shift with
  | O => Ret (U r0 r1, sub_copy)
  | S n => div_loop n sub_copy shift_copy r0 r1
  end).
Definition div_rem (a rhs : u256) : rust (u256 * u256) :=
  let my_bits := bits a in
  let your_bits := bits rhs in
  if your_bits =? 0 then Panic
  else if my_bits <? your_bits then Ret (U_ZERO, a)
  else
    let shift := my_bits - your_bits in
    rbind (wrapping_shl rhs shift) (fun shift_copy => div_loop (N.to_nat shift) a shift_copy 0 0).
(** :428-436 *)
Definition u_div (a b : u256) : rust u256 := rbind (div_rem a b) (fun '(q, _) => Ret q).
Definition u_rem (a b : u256) : rust u256 := rbind (div_rem a b) (fun '(_, r) => Ret r).
(** :63-80 *)
Definition inverse (u : u256) : rust u256 :=
  if is_zero u then Ret U_MAX
  else if is_one u then Ret U_MAX
  else if is_max u then Ret U_ONE
  else rbind (u_div (u_not u) (wrapping_inc u)) (fun ret => Ret (wrapping_inc ret)).

(** * Text *)
(** fmt_decimal :339-358 and Display :454-462 without width or flags: the digits written from the end
    of a buffer of 78 bytes; running off its front is [Panic] *)
Fixpoint decimal_loop (n : nat) (cur : u256) (acc : str) : rust str :=
  match n with
  | O => Panic
  | S n' =>
      rbind (u_rem cur (U 0 10)) (fun r =>
      let acc := (lo r mod 256 + 48) :: acc in
      rbind (u_div cur (U 0 10)) (fun cur => if is_zero cur then Ret acc else decimal_loop n' cur acc))
  end.
Definition u_display (u : u256) : rust str := if is_zero u then Ret [48] else decimal_loop 78 u [].
(** Binary :468-489 and Octal :491-512 without width or flags: [k] bits a digit, [n] bytes of buffer *)
Fixpoint bits_loop (k : N) (n : nat) (value : u256) (acc : str) : rust str :=
  if u_ltb U_ZERO value then
    match n with
    | O => Panic
    | S n' => rbind (wrapping_shr value k) (fun v => bits_loop k n' v ((48 + low_u64 value mod 2 ^ k) :: acc))
    end
  else Ret acc.
Definition u_binary (u : u256) : rust str := if is_zero u then Ret [48] else bits_loop 1 256 u [].
Definition u_octal (u : u256) : rust str := if is_zero u then Ret [48] else bits_loop 3 86 u [].
(** LowerHex, UpperHex units/src/pow.rs:467-494, and the alternate form *)
Definition u_hex (upper alternate : bool) (u : u256) : str :=
  (if alternate then [48; 120] else []) ++ hex_bytes upper (to_be_bytes u).
(** FromStr :526-555.  [s] is given by its UTF-8 bytes; a chunk that is not UTF-8 and a chunk that is
    no number are one error here. *)
Definition POW10_38 : N := 100000000000000000000000000000000000000.
(** slice::rchunks(38).rev(): the first chunk is the short one *)
Fixpoint chunks (fuel : nat) (s : bytes) : list bytes :=
  match fuel with
  | O => []
  | S f => match s with [] => [] | _ => firstn 38 s :: chunks f (skipn 38 s) end
  end.
Definition rchunks_rev (s : bytes) : list bytes :=
  let r := (length s mod 38)%nat in
  match r with
  | O => chunks (length s) s
  | _ => firstn r s :: chunks (length s) (skipn r s)
  end.
Inductive u256_err := UOverflow | UEmpty | UInvalid.
Fixpoint parse_chunks (cs : list bytes) (acc : u256) : rust (result u256 u256_err) :=
  match cs with
  | [] => Ret (Ok acc)
  | c :: cs' =>
      match from_str_radix false 0 (W128 - 1) 10 c with
      | Err _ => Ret (Err UInvalid)
      | Ok v =>
          rbind (overflowing_mul acc (u_from POW10_38)) (fun '(res, carry1) =>
          let '(res, carry2) := overflowing_add res (u_from (Z.to_N v)) in
          if carry1 || carry2 then Ret (Err UOverflow) else parse_chunks cs' res)
      end
  end.
Definition u_from_str (s : bytes) : rust (result u256 u256_err) :=
  match s with [] => Ret (Err UEmpty) | _ => parse_chunks (rchunks_rev s) U_ZERO end.

(** to_f64 :362-394: the bits of the f64; u64 and u128 arithmetic with overflow checks.
    The cast [as u64] of the mantissa is exact or truncates. *)
Definition to_f64_bits (u : u256) : rust N :=
  let leading_zeroes := 256 - bits u in
  rbind (wrapping_shl u leading_zeroes) (fun left_aligned =>
  rbind (wrapping_shr left_aligned 75) (fun middle_aligned =>
  let mantissa := hi middle_aligned in
  let dropped_bits := N.lor (lo middle_aligned) (N.land (lo left_aligned) 0x7FFFFFFFFFFFFFFFFFF) in
  let sub := N.land (shr128 dropped_bits 127) (not128 mantissa) in
  if dropped_bits <? sub then Panic else
  rbind (add128 mantissa (shr128 (dropped_bits - sub) 127)) (fun mantissa =>
  let mantissa := mantissa mod W64 in
  let exponent := if u_eqb u U_ZERO then 0 else 1277 - leading_zeroes in
  let v := (exponent * 2 ^ 52) mod W64 + mantissa in
  if v <? W64 then Ret v else Panic))).
