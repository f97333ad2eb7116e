(** What the serde forms of numbers, amounts and fee rates mean. *)
From Verif Require Import Base MSerde MSerde2 SAmount.
Local Open Scope N_scope.

(** the format delivers the unsigned number [n] (in an integer of any width), the number [z], a list of small numbers *)
Definition offers_uint (v : sval) (n : N) : Prop := exists width, v = SvU width n.
Definition offers_int (v : sval) (z : Z) : Prop := exists width, v = SvI width z \/ exists n, v = SvU width n /\ z = Z.of_N n.
Definition offers_array (v : sval) (b : bytes) : Prop := exists l, (v = SvSeq l \/ v = SvTuple l) /\ Forall2 (fun x n => offers_uint x n /\ n < 256) l b.
(** amounts and signed amounts *)
Definition valid (signed : bool) (a : Z) : Prop := if signed then valid_signed a else valid_amount a.
(** satoshis per million virtual bytes in one unit of the form *)
Definition unit_size (u : fee_unit) : Z := match u with KwuFloor => 4000 | VbFloor | VbCeil => 1000000 end.
(** [q] is the rate [r] in that unit, rounded the way the form says *)
Definition in_units (u : fee_unit) (r q : Z) : Prop := match u with VbCeil => is_ceil_div r (unit_size u) q | _ => is_floor_div r (unit_size u) q end.
