(** Specification for the io crate's drivers: the outcome of a decoder on a byte string, and writers that get on. *)
From Verif Require Import Base MDec MIo SIo.
Local Open Scope N_scope.

(** The decoder given the whole of the input at once: a value and what it left, an error, or a panic. *)
Definition whole {A E} (D : decoder A E) (d : bytes) : run A E := feed_chunks D (init D) [d].
(** The only failures of filling the buffer are interruptions. *)
Definition patient_fill (R : reader) (at_ : rstate R -> bytes -> Prop) : Prop :=
  forall st d e st', at_ st d -> rfill R st = Ret (Err e, st') -> e = Interrupted.
(** [m st] bounds the failures a writer has still to come. *)
Definition settles_w (W : writer) (m : wstate W -> nat) : Prop :=
  forall st buf, match wwrite W st buf with Ret (Ok _, st') => m st' <= m st | Ret (Err _, st') => m st' < m st | Panic => False end%nat.
(** In the states [inv], which writing keeps, a writer fails only by being interrupted and takes at least one byte. *)
Definition willing (W : writer) (inv : wstate W -> Prop) : Prop :=
  forall st buf, inv st -> buf <> [] -> match wwrite W st buf with
    | Ret (Ok n, st') => 0 < n /\ inv st'
    | Ret (Err e, st') => e = Interrupted /\ inv st'
    | Panic => False
    end.
(** A schedule on which a world's writer is willing. *)
Definition willing_event (e : event) : Prop := match e with Give k => 0 < k | Fail e => e = Interrupted end.
Definition willing_world (s : bytes * list event) : Prop := Forall willing_event (snd s).
