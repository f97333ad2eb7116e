(** How chains of operators run through the NumOpResult overloads (model side). *)
From Verif Require Import Base MAmount SAmount.
Local Open Scope Z_scope.

(** Amount chains.  Overloads: units/src/result.rs:241-292 (NumOpResult op NumOpResult,
    NumOpResult op T), units/src/amount/result.rs:41-61 (T op NumOpResult), 68-120 (by u64). *)
Fixpoint run_amount (c : chain) : rust (num_op_result Z) :=
  match c with
  | Const a => Ret (Valid a)
  | Add x y => rbind (run_amount x) (fun rx => rbind (run_amount y) (fun ry => nor_add rx ry))
  | Sub x y => rbind (run_amount x) (fun rx => rbind (run_amount y) (fun ry => Ret (nor_sub rx ry)))
  | CAdd a x | AddC x a => (* result.rs:262 forwards to amount/result.rs:44: rhs.and_then(|x| x + self) *)
      rbind (run_amount x) (fun rx => match rx with Valid b => amount_add b a | Error e => Ret (Error e) end)
  | SubC x a => (* result.rs:285-290 *)
      rbind (run_amount x) (fun rx => Ret (nor_and_then rx (fun b => amount_sub b a)))
  | CSub a x => (* amount/result.rs:55-60 *)
      rbind (run_amount x) (fun rx => Ret (nor_and_then rx (fun b => amount_sub a b)))
  | MulK x k => rbind (run_amount x) (fun rx => Ret (nor_and_then rx (fun b => amount_mul b k)))
  | DivK x k => rbind (run_amount x) (fun rx => Ret (nor_and_then rx (fun b => amount_div b k)))
  | RemK x k => rbind (run_amount x) (fun rx => Ret (nor_and_then rx (fun b => amount_rem b k)))
  end.

(** SignedAmount chains: same overloads, units/src/amount/result.rs:122-206. *)
Fixpoint run_signed (c : chain) : num_op_result Z :=
  match c with
  | Const a => Valid a
  | Add x y => nor_sadd (run_signed x) (run_signed y)
  | Sub x y => nor_ssub (run_signed x) (run_signed y)
  | CAdd a x | AddC x a => nor_and_then (run_signed x) (fun b => signed_add b a)
  | SubC x a => nor_and_then (run_signed x) (fun b => signed_sub b a)
  | CSub a x => nor_and_then (run_signed x) (fun b => signed_sub a b)
  | MulK x k => nor_and_then (run_signed x) (fun b => signed_mul b k)
  | DivK x k => nor_and_then (run_signed x) (fun b => signed_div b k)
  | RemK x k => nor_and_then (run_signed x) (fun b => signed_rem b k)
  end.

(** units/src/result.rs:193-198: [NumOpResult::ok]. *)
Definition nor_ok {A} (r : num_op_result A) : option A :=
  match r with Valid a => Some a | Error _ => None end.
