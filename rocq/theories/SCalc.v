(** Specification for C65: what a calculation written with the operators of amounts, fee rates and
    weights means in exact integer arithmetic, written without the model. *)
From Verif Require Import Base SAmount.
Local Open Scope Z_scope.

(** Amount, SignedAmount, FeeRate (satoshi per million virtual bytes), Weight, u64, i64. *)
Inductive ty := TA | TS | TR | TW | TU | TI.
Definition in_range (t : ty) (z : Z) : bool :=
  match t with
  | TA => (0 <=? z) && (z <=? SUPPLY)
  | TS => (- SUPPLY <=? z) && (z <=? SUPPLY)
  | TR | TW | TU => (0 <=? z) && (z <? 2 ^ 64)
  | TI => (- 2 ^ 63 <=? z) && (z <? 2 ^ 63)
  end.

(** The two amount types and their scalars; the two plain quantities. *)
Definition mty (signed : bool) : ty := if signed then TS else TA.
Definition scalar (signed : bool) : ty := if signed then TI else TU.
Definition qty (weight : bool) : ty := if weight then TW else TR.

(** [calc res t]: a calculation of type [t], or of type [NumOpResult<t>] when [res] is true.  [a] and [b]
    say which of the two types an operand has, so that one constructor stands for all the overloads. *)
Inductive calc : bool -> ty -> Type :=
| Lit t (z : Z) : calc false t
| Into t (x : calc false t) : calc true t                                     (* NumOpResult::Valid(x), x.into() *)
| Unwrap t (x : calc true t) : calc false t                                   (* x.unwrap(), x.expect(..) *)
| UnwrapOr t (x : calc true t) (d : calc false t) : calc false t              (* x.unwrap_or(d) *)
| MAdd m a b (x : calc a (mty m)) (y : calc b (mty m)) : calc true (mty m)    (* x + y *)
| MSub m a b (x : calc a (mty m)) (y : calc b (mty m)) : calc true (mty m)    (* x - y *)
| MAddTo m b (x : calc true (mty m)) (y : calc b (mty m)) : calc true (mty m) (* x += y *)
| MSubTo m b (x : calc true (mty m)) (y : calc b (mty m)) : calc true (mty m) (* x -= y *)
| MMul m a (flip : bool) (x : calc a (mty m)) (k : calc false (scalar m)) : calc true (mty m)  (* x * k, k * x, x *= k *)
| MDiv m a (x : calc a (mty m)) (k : calc false (scalar m)) : calc true (mty m)                (* x / k, x /= k *)
| MRem m a (x : calc a (mty m)) (k : calc false (scalar m)) : calc true (mty m)                (* x % k, x %= k *)
| MRatio m (x y : calc false (mty m)) : calc true (scalar m)                                   (* x / y *)
| MDivNZ m a (x : calc a (mty m)) (k : Z) : calc a (mty m)                                     (* x / k, k: NonZero *)
| MNeg m a (x : calc a (mty m)) : calc a TS                                                    (* -x *)
| Fee a b (flip : bool) (r : calc a TR) (w : calc b TW) : calc true TA        (* r * w, w * r *)
| DivW a b (x : calc a TA) (w : calc b TW) : calc true TR                     (* x / w *)
| DivR a b (x : calc a TA) (r : calc b TR) : calc true TW                     (* x / r *)
| QAdd q (x y : calc false (qty q)) : calc false (qty q)                      (* x + y, x += y *)
| QSub q (x y : calc false (qty q)) : calc false (qty q)                      (* x - y, x -= y *)
| QDivNZ q (x : calc false (qty q)) (k : Z) : calc false (qty q)              (* x / k, k: NonZero *)
| QAddTo q b (x : calc true (qty q)) (y : calc b (qty q)) : calc true (qty q) (* x += y on a NumOpResult *)
| QSubTo q b (x : calc true (qty q)) (y : calc b (qty q)) : calc true (qty q) (* x -= y on a NumOpResult *)
| WMul (flip : bool) (x : calc false TW) (k : calc false TU) : calc false TW  (* x * k, k * x, x *= k *)
| WDiv (x : calc false TW) (k : calc false TU) : calc false TW                (* x / k, x /= k *)
| WRem (x : calc false TW) (k : calc false TU) : calc false TW                (* x % k, x %= k *)
| WRatio (x y : calc false TW) : calc false TU                                (* x / y *)
| WMod (x y : calc false TW) : calc false TW.                                 (* x % y *)

(** The literals are values of their types, and a NonZero is not zero. *)
Fixpoint lits_ok {a t} (e : calc a t) : Prop :=
  match e with
  | Lit t z => in_range t z = true
  | Into _ x | Unwrap _ x => lits_ok x
  | UnwrapOr _ x d => lits_ok x /\ lits_ok d
  | MAdd _ _ _ x y | MSub _ _ _ x y | MAddTo _ _ x y | MSubTo _ _ x y => lits_ok x /\ lits_ok y
  | MMul _ _ _ x k | MDiv _ _ x k | MRem _ _ x k => lits_ok x /\ lits_ok k
  | MRatio _ x y => lits_ok x /\ lits_ok y
  | MDivNZ m _ x k => lits_ok x /\ in_range (scalar m) k = true /\ k <> 0
  | MNeg _ _ x => lits_ok x
  | Fee _ _ _ x y => lits_ok x /\ lits_ok y
  | DivW _ _ x y => lits_ok x /\ lits_ok y
  | DivR _ _ x y => lits_ok x /\ lits_ok y
  | QAdd _ x y | QSub _ x y | QAddTo _ _ x y | QSubTo _ _ x y => lits_ok x /\ lits_ok y
  | QDivNZ _ x k => lits_ok x /\ in_range TU k = true /\ k <> 0
  | WMul _ x k | WDiv x k | WRem x k => lits_ok x /\ lits_ok k
  | WRatio x y | WMod x y => lits_ok x /\ lits_ok y
  end.

(** What a calculation comes to: a number, a reported failure, or a panic. *)
Inductive outcome := Value (z : Z) | Failed | Crashed.

(** Both operands are evaluated; a panic in either is a panic, else a failure of either is a failure. *)
Definition with2 (x y : outcome) (f : Z -> Z -> outcome) : outcome :=
  match x, y with
  | Crashed, _ | _, Crashed => Crashed
  | Failed, _ | _, Failed => Failed
  | Value a, Value b => f a b
  end.
Definition with1 (x : outcome) (f : Z -> outcome) : outcome := match x with Value a => f a | o => o end.
Definition fit (t : ty) (z : Z) : outcome := if in_range t z then Value z else Failed.
Definition fit_or_crash (t : ty) (z : Z) : outcome := if in_range t z then Value z else Crashed.

(** Division rounding up. *)
Definition cdiv (n d : Z) : Z := - ((- n) / d).
(** The fee for a weight: the rate is first brought to whole satoshi per 1000 weight units, rounding up. *)
Definition fee_for (r w : Z) : Z := cdiv (cdiv r 4000 * w) 1000.

(** The exact meaning.  Results of amount operators, and of the operators between amounts, rates and
    weights, that do not exist or do not fit are failures.  Results of the operators of weights and of fee
    rates that do not exist or do not fit are panics, also when the left side is an accumulator of type
    NumOpResult. *)
Fixpoint exact {a t} (e : calc a t) : outcome :=
  match e with
  | Lit _ z => Value z
  | Into _ x => exact x
  | Unwrap _ x => match exact x with Failed => Crashed | o => o end
  | UnwrapOr _ x d => match exact x, exact d with
                      | Crashed, _ | _, Crashed => Crashed
                      | Failed, o => o
                      | o, _ => o
                      end
  | MAdd m _ _ x y => with2 (exact x) (exact y) (fun a b => fit (mty m) (a + b))
  | MAddTo m _ x y => with2 (exact x) (exact y) (fun a b => fit (mty m) (a + b))
  | MSub m _ _ x y => with2 (exact x) (exact y) (fun a b => fit (mty m) (a - b))
  | MSubTo m _ x y => with2 (exact x) (exact y) (fun a b => fit (mty m) (a - b))
  | MMul m _ _ x k => with2 (exact x) (exact k) (fun a b => fit (mty m) (a * b))
  | MDiv m _ x k => with2 (exact x) (exact k) (fun a b => if b =? 0 then Failed else Value (Z.quot a b))
  | MRem m _ x k => with2 (exact x) (exact k) (fun a b => if b =? 0 then Failed else Value (Z.rem a b))
  | MRatio m x y => with2 (exact x) (exact y) (fun a b => if b =? 0 then Failed else Value (Z.quot a b))
  | MDivNZ _ _ x k => with1 (exact x) (fun a => Value (Z.quot a k))
  | MNeg _ _ x => with1 (exact x) (fun a => Value (- a))
  | Fee _ _ _ r w => with2 (exact r) (exact w) (fun a b => fit TA (fee_for a b))
  | DivW _ _ x w => with2 (exact x) (exact w) (fun a b =>
      if b =? 0 then Failed else fit TA (4000 * (1000 * a / b)))
  | DivR _ _ x r => with2 (exact x) (exact r) (fun a b =>
      if b =? 0 then Failed else Value (1000 * a / cdiv b 4000))
  | QAdd q x y => with2 (exact x) (exact y) (fun a b => fit_or_crash (qty q) (a + b))
  | QAddTo q _ x y => with2 (exact x) (exact y) (fun a b => fit_or_crash (qty q) (a + b))
  | QSub q x y => with2 (exact x) (exact y) (fun a b => fit_or_crash (qty q) (a - b))
  | QSubTo q _ x y => with2 (exact x) (exact y) (fun a b => fit_or_crash (qty q) (a - b))
  | QDivNZ _ x k => with1 (exact x) (fun a => Value (a / k))
  | WMul _ x k => with2 (exact x) (exact k) (fun a b => fit_or_crash TW (a * b))
  | WDiv x k => with2 (exact x) (exact k) (fun a b => if b =? 0 then Crashed else Value (a / b))
  | WRem x k => with2 (exact x) (exact k) (fun a b => if b =? 0 then Crashed else Value (a mod b))
  | WRatio x y => with2 (exact x) (exact y) (fun a b => if b =? 0 then Crashed else Value (a / b))
  | WMod x y => with2 (exact x) (exact y) (fun a b => if b =? 0 then Crashed else Value (a mod b))
  end.

(** A failed step divided (or took a remainder) by zero somewhere in the calculation. *)
Definition is_zero (o : outcome) : Prop := o = Value 0.
Fixpoint divides_by_zero {a t} (e : calc a t) : Prop :=
  match e with
  | Lit _ _ => False
  | Into _ x | Unwrap _ x => divides_by_zero x
  | UnwrapOr _ x d => divides_by_zero x \/ divides_by_zero d
  | MAdd _ _ _ x y | MSub _ _ _ x y | MAddTo _ _ x y | MSubTo _ _ x y => divides_by_zero x \/ divides_by_zero y
  | MMul _ _ _ x k => divides_by_zero x \/ divides_by_zero k
  | MDiv _ _ x k | MRem _ _ x k => divides_by_zero x \/ divides_by_zero k \/ is_zero (exact k)
  | MRatio _ x y => divides_by_zero x \/ divides_by_zero y \/ is_zero (exact y)
  | MDivNZ _ _ x _ | MNeg _ _ x => divides_by_zero x
  | Fee _ _ _ x y => divides_by_zero x \/ divides_by_zero y
  | DivW _ _ x y => divides_by_zero x \/ divides_by_zero y \/ is_zero (exact y)
  | DivR _ _ x y => divides_by_zero x \/ divides_by_zero y \/ is_zero (exact y)
  | QAdd _ x y | QSub _ x y | QAddTo _ _ x y | QSubTo _ _ x y => divides_by_zero x \/ divides_by_zero y
  | QDivNZ _ x _ => divides_by_zero x
  | WMul _ x k => divides_by_zero x \/ divides_by_zero k
  | WDiv x k | WRem x k => divides_by_zero x \/ divides_by_zero k \/ is_zero (exact k)
  | WRatio x y | WMod x y => divides_by_zero x \/ divides_by_zero y \/ is_zero (exact y)
  end.

(** The calculation keeps to results: it unwraps nothing and uses no operator of plain weights or plain fee
    rates; [to] says whether it may accumulate weights or fee rates in a NumOpResult. *)
Fixpoint guarded (to : bool) {a t} (e : calc a t) : bool :=
  match e with
  | Lit _ _ => true
  | Into _ x => guarded to x
  | Unwrap _ _ => false
  | UnwrapOr _ x d => guarded to x && guarded to d
  | MAdd _ _ _ x y | MSub _ _ _ x y | MAddTo _ _ x y | MSubTo _ _ x y => guarded to x && guarded to y
  | MMul _ _ _ x k | MDiv _ _ x k | MRem _ _ x k => guarded to x && guarded to k
  | MRatio _ x y => guarded to x && guarded to y
  | MDivNZ _ _ x _ | MNeg _ _ x => guarded to x
  | Fee _ _ _ x y => guarded to x && guarded to y
  | DivW _ _ x y => guarded to x && guarded to y
  | DivR _ _ x y => guarded to x && guarded to y
  | QAddTo _ _ x y | QSubTo _ _ x y => to && (guarded to x && guarded to y)
  | QAdd _ _ _ | QSub _ _ _ | WMul _ _ _ | WDiv _ _ | WRem _ _ | WRatio _ _ | WMod _ _ => false
  | QDivNZ _ x _ => guarded to x
  end.

(** The operators of the steps that failed (a step with a failed operand has failed too).  A fee rate per
    weight is a division followed by the multiplication into the unit of the type. *)
Inductive sign := Plus | Minus | Times | Over | Modulo.
Definition when_failed (o : outcome) (l : list sign) : list sign := match o with Failed => l | _ => [] end.
Fixpoint failing {a t} (e : calc a t) : list sign :=
  match e with
  | Lit _ _ => []
  | Into _ x => failing x
  | Unwrap _ x => failing x
  | UnwrapOr _ x d => failing x ++ failing d
  | MAdd _ _ _ x y => when_failed (exact e) [Plus] ++ failing x ++ failing y
  | MAddTo _ _ x y => when_failed (exact e) [Plus] ++ failing x ++ failing y
  | MSub _ _ _ x y => when_failed (exact e) [Minus] ++ failing x ++ failing y
  | MSubTo _ _ x y => when_failed (exact e) [Minus] ++ failing x ++ failing y
  | MMul _ _ _ x k => when_failed (exact e) [Times] ++ failing x ++ failing k
  | MDiv _ _ x k => when_failed (exact e) [Over] ++ failing x ++ failing k
  | MRem _ _ x k => when_failed (exact e) [Modulo] ++ failing x ++ failing k
  | MRatio _ x y => when_failed (exact e) [Over] ++ failing x ++ failing y
  | MDivNZ _ _ x _ | MNeg _ _ x => failing x
  | Fee _ _ _ x y => when_failed (exact e) [Times] ++ failing x ++ failing y
  | DivW _ _ x y => when_failed (exact e) [Over; Times] ++ failing x ++ failing y
  | DivR _ _ x y => when_failed (exact e) [Over] ++ failing x ++ failing y
  | QAdd _ x y | QSub _ x y => failing x ++ failing y
  | QAddTo _ _ x y => when_failed (exact e) [Plus] ++ failing x ++ failing y
  | QSubTo _ _ x y => when_failed (exact e) [Minus] ++ failing x ++ failing y
  | QDivNZ _ x _ => failing x
  | WMul _ x k | WDiv x k | WRem x k => failing x ++ failing k
  | WRatio x y | WMod x y => failing x ++ failing y
  end.
