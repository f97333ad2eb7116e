(** Specification for C67: a byte string of less than 2^32 bytes. *)
From Coq Require Import List NArith.
From Verif Require Import Base MPush.
Local Open Scope N_scope.

Definition LIMIT : N := 2 ^ 32 - 1.
Definition len (l : bytes) : N := N.of_nat (length l).
(** Vectors and slices never hold more than isize::MAX bytes. *)
Definition op_ok (o : op) : Prop :=
  match o with
  | OPush b => b < 256 | OExtend bs => len bs < 2 ^ 63 /\ bytes_ok bs | OSet i b => i < 2 ^ 64 /\ b < 256
  | OWrite _ _ bs => bytes_ok bs | _ => True end.

(** The range [a, b) selected by two bounds, when it lies in [0, n]. *)
Definition from (lo : bound) : N := match lo with Included k => k | Excluded k => k + 1 | Unbounded => 0 end.
Definition upto (n : N) (hi : bound) : N := match hi with Included k => k + 1 | Excluded k => k | Unbounded => n end.
Definition inside (n : N) (lo hi : bound) : Prop := from lo <= upto n hi /\ upto n hi <= n.

(** What each call is allowed to do: [before], the call, its answer, [after]. *)
Inductive does : bytes -> op -> answer -> bytes -> Prop :=
| push_fits : forall s b, len s + 1 <= LIMIT -> does s (OPush b) Done (s ++ [b])
| push_full : forall s b, LIMIT < len s + 1 -> does s (OPush b) (Refused (len s + 1)) s
| extend_fits : forall s t, len s + len t <= LIMIT -> does s (OExtend t) Done (s ++ t)
| extend_full : forall s t, LIMIT < len s + len t -> does s (OExtend t) (Refused (len s + len t)) s
| pop_last : forall s b, does (s ++ [b]) OPop (Byte (Some b)) s
| pop_empty : does [] OPop (Byte None) []
| remove_at : forall l b r, does (l ++ b :: r) (ORemove (len l)) (Byte (Some b)) (l ++ r)
| remove_out : forall s i, len s <= i -> does s (ORemove i) Panicked s
| clear_all : forall s, does s OClear Done []
| truncate_cut : forall l r, does (l ++ r) (OTruncate (len l)) Done l
| truncate_keep : forall s n, len s <= n -> does s (OTruncate n) Done s
| set_at : forall l x b r, does (l ++ x :: r) (OSet (len l) b) Done (l ++ b :: r)
| set_out : forall s i b, len s <= i -> does s (OSet i b) Panicked s
| write_at : forall l m r m' lo hi, len m = len m' -> from lo = len l -> upto (len (l ++ m ++ r)) hi = len l + len m ->
    does (l ++ m ++ r) (OWrite lo hi m') Done (l ++ m' ++ r)
| write_out : forall s lo hi m, ~ (inside (len s) lo hi /\ upto (len s) hi - from lo = len m) -> does s (OWrite lo hi m) Panicked s.

(** A whole history, call after call. *)
Inductive history : bytes -> list op -> list answer -> bytes -> Prop :=
| over : forall s, history s [] [] s
| call : forall s o a t os l u, does s o a t -> history t os l u -> history s (o :: os) (a :: l) u.
