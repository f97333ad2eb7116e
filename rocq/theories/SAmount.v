(** Specification for C17 and C19: exact integer arithmetic, written without the model. *)
From Verif Require Import Base.
Local Open Scope Z_scope.

(** The money supply in satoshi. *)
Definition SUPPLY : Z := 2100000000000000.
Definition valid_amount (a : Z) : Prop := 0 <= a <= SUPPLY.
Definition valid_signed (a : Z) : Prop := - SUPPLY <= a <= SUPPLY.
Definition is_u64 (a : Z) : Prop := 0 <= a < 2 ^ 64.
Definition is_i64 (a : Z) : Prop := - 2 ^ 63 <= a < 2 ^ 63.

(** [Some x] iff [x] is within the bounds. *)
Definition within (lo hi x : Z) : option Z := if (lo <=? x) && (x <=? hi) then Some x else None.

(** A chain of amount operations as a user writes it; constants are amounts, [k] are plain
    integers.  Forms with [C] take a constant amount on one side, which in the API is a
    different overload. *)
Inductive chain :=
| Const (a : Z)
| Add (x y : chain) | Sub (x y : chain)
| AddC (x : chain) (a : Z) | CAdd (a : Z) (x : chain)
| SubC (x : chain) (a : Z) | CSub (a : Z) (x : chain)
| MulK (x : chain) (k : Z) | DivK (x : chain) (k : Z) | RemK (x : chain) (k : Z).

(** Exact evaluation: every intermediate value must stay within [lo, hi]; division and
    remainder (truncated) by zero are errors. *)
Fixpoint exact (lo hi : Z) (c : chain) : option Z :=
  let bin f x y := match x, y with Some a, Some b => within lo hi (f a b) | _, _ => None end in
  match c with
  | Const a => within lo hi a
  | Add x y => bin Z.add (exact lo hi x) (exact lo hi y)
  | Sub x y => bin Z.sub (exact lo hi x) (exact lo hi y)
  | AddC x a | CAdd a x => bin Z.add (exact lo hi x) (within lo hi a)
  | SubC x a => bin Z.sub (exact lo hi x) (within lo hi a)
  | CSub a x => bin Z.sub (within lo hi a) (exact lo hi x)
  | MulK x k => bin Z.mul (exact lo hi x) (Some k)
  | DivK x k => if k =? 0 then None else bin Z.quot (exact lo hi x) (Some k)
  | RemK x k => if k =? 0 then None else bin Z.rem (exact lo hi x) (Some k)
  end.

(** The literals of a chain are values the types admit. *)
Fixpoint chain_ok (amount scalar : Z -> Prop) (c : chain) : Prop :=
  match c with
  | Const a => amount a
  | Add x y | Sub x y => chain_ok amount scalar x /\ chain_ok amount scalar y
  | AddC x a | CAdd a x | SubC x a | CSub a x => chain_ok amount scalar x /\ amount a
  | MulK x k | DivK x k | RemK x k => chain_ok amount scalar x /\ scalar k
  end.

(** [c] is the least integer with [num <= c * den]. *)
Definition is_ceil_div (num den c : Z) : Prop := den * (c - 1) < num <= den * c.
Definition is_floor_div (num den c : Z) : Prop := den * c <= num < den * (c + 1).
