(** Specification side of witness stacks: a witness is a list of byte strings. *)
From Verif Require Import Base MDec MWitness.
Local Open Scope N_scope.

(** The wire form of one element and of the elements of a stack. *)
Definition elem_bytes (e : bytes) : bytes := cs_encode (lenN e) ++ e.
Definition flat (ls : list bytes) : bytes := flat_map elem_bytes ls.
(** The wire form of a stack. *)
Definition stack_bytes (ls : list bytes) : bytes := cs_encode (lenN ls) ++ flat ls.

(** Offsets of the elements in the wire form of the elements, starting from [at]. *)
Fixpoint offs (ls : list bytes) (at_ : N) : list N :=
  match ls with
  | [] => []
  | e :: ls' => at_ :: offs ls' (at_ + lenN (elem_bytes e))
  end.

(** Every element starts within the first 2^32 bytes. *)
Definition fits (ls : list bytes) : Prop := Forall (fun o => o <= U32_MAX) (offs ls 0).

(** [w] represents the stack [ls]. *)
Definition repr (ls : list bytes) (w : witness) : Prop := from_slice ls = Ret w.
