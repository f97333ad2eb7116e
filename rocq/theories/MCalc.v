(** Model of the operators between amounts, signed amounts, fee rates and weights, plain or wrapped in
    NumOpResult: units/src/result.rs (methods and generic operators), units/src/amount/result.rs,
    units/src/fee.rs, units/src/fee_rate/mod.rs, units/src/weight.rs and the assignment operators of
    units/src/internal_macros.rs.  Numbers are the inner integers of the types, as in MAmount.  The operators
    taking references forward to these (internal_macros.rs:12-69) and are not modelled apart.  Plain u64
    arithmetic panics on overflow, as with overflow checks on. *)
From Verif Require Import Base MAmount SCalc.
Local Open Scope Z_scope.

(** Rust types: NumOpResult<T> when the flag is set, T otherwise. *)
Definition den (res : bool) : Type := if res then num_op_result Z else Z.

(** ** Plain amount operators, [m]: SignedAmount *)
(** amount/result.rs:39, 125 *)
Definition add_p (m : bool) (x y : Z) : rust (num_op_result Z) := if m then Ret (signed_add x y) else amount_add x y.
(** amount/result.rs:50, 136 *)
Definition sub_p (m : bool) (x y : Z) : num_op_result Z := if m then signed_sub x y else amount_sub x y.
(** amount/result.rs:66, 152 *)
Definition mul_p (m : bool) (x k : Z) : num_op_result Z := if m then signed_mul x k else amount_mul x k.
(** amount/result.rs:87, 173 *)
Definition div_p (m : bool) (x k : Z) : num_op_result Z := if m then signed_div x k else amount_div x k.
(** amount/result.rs:114, 200 *)
Definition rem_p (m : bool) (x k : Z) : num_op_result Z := if m then signed_rem x k else amount_rem x k.

(** [and_then] with a function that may panic: result.rs:216-224 *)
Definition nor_then {A B} (r : num_op_result A) (f : A -> rust (num_op_result B)) : rust (num_op_result B) :=
  match r with Valid a => f a | Error e => Ret (Error e) end.
(** [map] with a function that may panic: result.rs:106-111 *)
Definition nor_map_r {A B} (r : num_op_result A) (f : A -> rust B) : rust (num_op_result B) :=
  match r with Valid a => rbind (f a) (fun b => Ret (Valid b)) | Error e => Ret (Error e) end.

(** T + NumOpResult<T>: amount/result.rs:44, 130 *)
Definition add_pr (m : bool) (x : Z) (y : num_op_result Z) : rust (num_op_result Z) := nor_then y (fun a => add_p m a x).
(** NumOpResult<T> + NumOpResult<T>: result.rs:248-253 *)
Definition add_rr (m : bool) (x y : num_op_result Z) : rust (num_op_result Z) :=
  match x, y with Valid a, Valid b => add_p m a b | _, _ => Ret (Error OpAdd) end.
(** NumOpResult<T> + T forwards with the operands swapped: result.rs:262 *)
Definition m_add (m a b : bool) : den a -> den b -> rust (num_op_result Z) :=
  match a, b with
  | false, false => fun x y => add_p m x y
  | false, true => fun x y => add_pr m x y
  | true, false => fun x y => add_pr m y x
  | true, true => fun x y => add_rr m x y
  end.
(** T - NumOpResult<T>: amount/result.rs:55-60, 141-146; NumOpResult<T> - T: result.rs:285-290; NumOpResult<T> -
    NumOpResult<T>: result.rs:271-276 *)
Definition m_sub (m a b : bool) : den a -> den b -> num_op_result Z :=
  match a, b with
  | false, false => fun x y => sub_p m x y
  | false, true => fun x y => match y with Valid v => sub_p m x v | Error e => Error e end
  | true, false => fun x y => match x with Valid v => sub_p m v y | Error e => Error e end
  | true, true => fun x y => match x, y with Valid v, Valid w => sub_p m v w | _, _ => Error OpSub end
  end.
(** NumOpResult<T> += T and += NumOpResult<T>: internal_macros.rs:99-117 *)
Definition m_add_assign_p (m : bool) (x : num_op_result Z) (y : Z) : rust (num_op_result Z) :=
  match x with Error _ => Ret (Error OpAdd) | Valid v => add_p m v y end.
Definition m_add_assign (m b : bool) : num_op_result Z -> den b -> rust (num_op_result Z) :=
  match b with
  | false => fun x y => m_add_assign_p m x y
  | true => fun x y => match x, y with Valid _, Valid w => m_add_assign_p m x w | _, _ => Ret (Error OpAdd) end
  end.
(** NumOpResult<T> -= T and -= NumOpResult<T>: internal_macros.rs:133-151 *)
Definition m_sub_assign_p (m : bool) (x : num_op_result Z) (y : Z) : num_op_result Z :=
  match x with Error _ => Error OpSub | Valid v => sub_p m v y end.
Definition m_sub_assign (m b : bool) : num_op_result Z -> den b -> num_op_result Z :=
  match b with
  | false => fun x y => m_sub_assign_p m x y
  | true => fun x y => match x, y with Valid _, Valid w => m_sub_assign_p m x w | _, _ => Error OpSub end
  end.
(** T * k, NumOpResult<T> * k: amount/result.rs:66-71, 152-157; k * T, k * NumOpResult<T>: 76-81, 162-167; *= is * (internal_macros.rs:175) *)
Definition m_mul (m a : bool) (flip : bool) : den a -> Z -> num_op_result Z :=
  match a with
  | false => fun x k => mul_p m x k
  | true => fun x k => nor_and_then x (fun v => mul_p m v k)
  end.
(** amount/result.rs:87-92, 173-178 *)
Definition m_div (m a : bool) : den a -> Z -> num_op_result Z :=
  match a with
  | false => fun x k => div_p m x k
  | true => fun x k => nor_and_then x (fun v => div_p m v k)
  end.
(** amount/result.rs:114-119, 200-205 *)
Definition m_rem (m a : bool) : den a -> Z -> num_op_result Z :=
  match a with
  | false => fun x k => rem_p m x k
  | true => fun x k => nor_and_then x (fun v => rem_p m v k)
  end.
(** T / T: amount/result.rs:97-99, 183-185 *)
Definition m_ratio (m : bool) (x y : Z) : num_op_result Z :=
  valid_or_error ((if m then i64_checked_div else u64_checked_div) x y) OpDiv.
(** SignedAmount / NonZeroI64: amount/result.rs:190.  i64::MIN / -1 panics. *)
Definition signed_div_nonzero (x k : Z) : rust Z :=
  if (x =? I64_MIN) && (k =? -1) then Panic
  else match signed_from_sat (Z.quot x k) with Ok y => Ret y | Err _ => Panic end.
(** T / NonZero: amount/result.rs:104, 190; NumOpResult<T> / NonZero: 109, 195 *)
Definition m_div_nonzero_p (m : bool) (x k : Z) : rust Z := if m then signed_div_nonzero x k else amount_div_nonzero x k.
Definition m_div_nonzero (m a : bool) : den a -> Z -> rust (den a) :=
  match a with
  | false => fun x k => m_div_nonzero_p m x k
  | true => fun x k => nor_map_r x (fun v => m_div_nonzero_p m v k)
  end.
(** Unary minus: amount/result.rs:228, 235-237; on results: 243, 249 *)
Definition m_neg_p (m : bool) (x : Z) : rust Z := if m then signed_neg x else amount_neg x.
Definition m_neg (m a : bool) : den a -> rust (den a) :=
  match a with
  | false => fun x => m_neg_p m x
  | true => fun x => nor_map_r x (m_neg_p m)
  end.

(** ** Fee operators: units/src/fee.rs *)
(** FeeRate * Weight in the four combinations: fee.rs:68-101 *)
Definition rate_mul (a b : bool) : den a -> den b -> num_op_result Z :=
  match a, b with
  | false, false => fun r w => feerate_mul_by_weight r w
  | true, false => fun r w => match r with Valid l => feerate_mul_by_weight l w | Error e => Error e end
  | false, true => fun r w => match w with Valid v => feerate_mul_by_weight r v | Error e => Error e end
  | true, true => fun r w =>
      match r with
      | Valid l => match w with Valid v => feerate_mul_by_weight l v | Error e => Error e end
      | Error e => Error e
      end
  end.
(** Weight * FeeRate in the four combinations: fee.rs:33-66 *)
Definition weight_mul (b a : bool) : den b -> den a -> num_op_result Z :=
  match b, a with
  | false, false => fun w r => feerate_mul_by_weight r w
  | true, false => fun w r => match w with Valid l => feerate_mul_by_weight r l | Error e => Error e end
  | false, true => fun w r => match r with Valid v => feerate_mul_by_weight v w | Error e => Error e end
  | true, true => fun w r =>
      match w with
      | Valid l => match r with Valid v => feerate_mul_by_weight v l | Error e => Error e end
      | Error e => Error e
      end
  end.
(** Amount / Weight: fee.rs:103-142 *)
Definition amount_div_weight (a b : bool) : den a -> den b -> num_op_result Z :=
  match a, b with
  | false, false => fun x w => amount_div_by_weight_floor x w
  | true, false => fun x w => match x with Valid l => amount_div_by_weight_floor l w | Error e => Error e end
  | false, true => fun x w => match w with Valid v => amount_div_by_weight_floor x v | Error e => Error e end
  | true, true => fun x w =>
      match x with
      | Valid l => match w with Valid v => amount_div_by_weight_floor l v | Error e => Error e end
      | Error e => Error e
      end
  end.
(** Amount / FeeRate: fee.rs:144-183 *)
Definition amount_div_rate (a b : bool) : den a -> den b -> rust (num_op_result Z) :=
  match a, b with
  | false, false => fun x r => amount_div_by_fee_rate_floor x r
  | true, false => fun x r => match x with Valid l => amount_div_by_fee_rate_floor l r | Error e => Ret (Error e) end
  | false, true => fun x r => match r with Valid v => amount_div_by_fee_rate_floor x v | Error e => Ret (Error e) end
  | true, true => fun x r =>
      match x with
      | Valid l => match r with Valid v => amount_div_by_fee_rate_floor l v | Error e => Ret (Error e) end
      | Error e => Ret (Error e)
      end
  end.

(** ** Plain u64 arithmetic behind FeeRate (fee_rate/mod.rs:225-241) and Weight (weight.rs:213-258): panics *)
Definition u64_add_p (x y : Z) : rust Z := if x + y <=? U64_MAX then Ret (x + y) else Panic.
Definition u64_sub_p (x y : Z) : rust Z := if y <=? x then Ret (x - y) else Panic.
Definition u64_div_p (x y : Z) : rust Z := if y =? 0 then Panic else Ret (x / y).
Definition u64_rem_p (x y : Z) : rust Z := if y =? 0 then Panic else Ret (x mod y).
(** NumOpResult<T> += T, += NumOpResult<T> for a T with its own +=: result.rs:295-312; T += T is internal_macros.rs:75-78 *)
Definition q_add_assign_p (x : num_op_result Z) (y : Z) : rust (num_op_result Z) :=
  match x with Valid v => rbind (u64_add_p v y) (fun z => Ret (Valid z)) | Error e => Ret (Error e) end.
Definition q_add_assign (b : bool) : num_op_result Z -> den b -> rust (num_op_result Z) :=
  match b with
  | false => fun x y => q_add_assign_p x y
  | true => fun x y => match x, y with Valid _, Valid w => q_add_assign_p x w | _, _ => Ret (Error OpAdd) end
  end.
(** result.rs:315-332 *)
Definition q_sub_assign_p (x : num_op_result Z) (y : Z) : rust (num_op_result Z) :=
  match x with Valid v => rbind (u64_sub_p v y) (fun z => Ret (Valid z)) | Error e => Ret (Error e) end.
Definition q_sub_assign (b : bool) : num_op_result Z -> den b -> rust (num_op_result Z) :=
  match b with
  | false => fun x y => q_sub_assign_p x y
  | true => fun x y => match x, y with Valid _, Valid w => q_sub_assign_p x w | _, _ => Ret (Error OpSub) end
  end.

(** result.rs:124-145: expect, unwrap *)
Definition nor_unwrap (r : num_op_result Z) : rust Z := match r with Valid x => Ret x | Error _ => Panic end.
(** result.rs:170-175 *)
Definition nor_unwrap_or (r : num_op_result Z) (d : Z) : Z := match r with Valid x => x | Error _ => d end.

(** result.rs:379-385 *)
Definition is_overflow (op : math_op) : bool := match op with OpAdd | OpSub | OpMul | OpNeg => true | _ => false end.
Definition is_div_by_zero (op : math_op) : bool := negb (is_overflow op).

(** Running a calculation: operands left to right, then the overload the operand types select. *)
Fixpoint run {a t} (e : calc a t) : rust (den a) :=
  match e in calc a t return rust (den a) with
  | Lit _ z => Ret z
  | Into _ x => rbind (run x) (fun v => Ret (Valid v))
  | Unwrap _ x => rbind (run x) (fun r => nor_unwrap r)
  | UnwrapOr _ x d => rbind (run x) (fun r => rbind (run d) (fun v => Ret (nor_unwrap_or r v)))
  | MAdd m a b x y => rbind (run x) (fun u => rbind (run y) (fun v => m_add m a b u v))
  | MSub m a b x y => rbind (run x) (fun u => rbind (run y) (fun v => Ret (m_sub m a b u v)))
  | MAddTo m b x y => rbind (run x) (fun u => rbind (run y) (fun v => m_add_assign m b u v))
  | MSubTo m b x y => rbind (run x) (fun u => rbind (run y) (fun v => Ret (m_sub_assign m b u v)))
  | MMul m a flip x k => rbind (run x) (fun u => rbind (run k) (fun v => Ret (m_mul m a flip u v)))
  | MDiv m a x k => rbind (run x) (fun u => rbind (run k) (fun v => Ret (m_div m a u v)))
  | MRem m a x k => rbind (run x) (fun u => rbind (run k) (fun v => Ret (m_rem m a u v)))
  | MRatio m x y => rbind (run x) (fun u => rbind (run y) (fun v => Ret (m_ratio m u v)))
  | MDivNZ m a x k => rbind (run x) (fun u => m_div_nonzero m a u k)
  | MNeg m a x => rbind (run x) (fun u => m_neg m a u)
  | Fee a b flip r w => rbind (run r) (fun u => rbind (run w) (fun v =>
      Ret (if flip then weight_mul b a v u else rate_mul a b u v)))
  | DivW a b x w => rbind (run x) (fun u => rbind (run w) (fun v => Ret (amount_div_weight a b u v)))
  | DivR a b x r => rbind (run x) (fun u => rbind (run r) (fun v => amount_div_rate a b u v))
  | QAdd _ x y => rbind (run x) (fun u => rbind (run y) (fun v => u64_add_p u v))
  | QSub _ x y => rbind (run x) (fun u => rbind (run y) (fun v => u64_sub_p u v))
  | QDivNZ _ x k => rbind (run x) (fun u => u64_div_p u k)
  | QAddTo _ b x y => rbind (run x) (fun u => rbind (run y) (fun v => q_add_assign b u v))
  | QSubTo _ b x y => rbind (run x) (fun u => rbind (run y) (fun v => q_sub_assign b u v))
  | WMul _ x k => rbind (run x) (fun u => rbind (run k) (fun v => u64_mul u v))
  | WDiv x k => rbind (run x) (fun u => rbind (run k) (fun v => u64_div_p u v))
  | WRem x k => rbind (run x) (fun u => rbind (run k) (fun v => u64_rem_p u v))
  | WRatio x y => rbind (run x) (fun u => rbind (run y) (fun v => u64_div_p u v))
  | WMod x y => rbind (run x) (fun u => rbind (run y) (fun v => u64_rem_p u v))
  end.
