(** Specification of encoders: the bytes an encoder still has to give. *)
From Verif Require Import Base MEnc.
Local Open Scope N_scope.

(** A composite encoder gives the concatenation of what its parts give. *)
Fixpoint content (e : enc) : bytes :=
  match e with
  | EBytes b => b
  | EOpt None => []
  | EOpt (Some e) => content e
  | EIter None => []
  | EIter (Some (c, rem)) => content c ++ concat (map content rem)
  | EN i es => concat (skipn i (map content es))
  end.

(** Constructed, or advanced without having finished: the index is in range. *)
Fixpoint sound (e : enc) : Prop :=
  match e with
  | EBytes _ => True
  | EOpt None => True
  | EOpt (Some e) => sound e
  | EIter None => True
  | EIter (Some (c, rem)) => sound c /\ fold_right and True (map sound rem)
  | EN i es => (i < length es)%nat /\ fold_right and True (map sound es)
  end.

(** Just constructed, and of the kinds that have an exact length. *)
Fixpoint fresh_exact (e : enc) : Prop :=
  match e with
  | EBytes _ => True
  | EOpt None => True
  | EOpt (Some e) => fresh_exact e
  | EIter _ => False
  | EN i es => i = 0%nat /\ fold_right and True (map fresh_exact es)
  end.

(** More steps than the encoder takes: enough fuel for every loop. *)
Fixpoint steps (e : enc) : nat :=
  match e with
  | EBytes _ => 1
  | EOpt None => 1
  | EOpt (Some e) => steps e
  | EIter None => 1
  | EIter (Some (c, rem)) => steps c + list_sum (map steps rem)
  | EN i es => list_sum (skipn i (map steps es))
  end.

(** A writer: what it has received so far, and its [write_all], which appends all of the buffer, or
    fails having appended some prefix of it. *)
Definition writer_law {W IoE} (got : W -> bytes) (write_all : W -> bytes -> W * result unit IoE) : Prop :=
  forall w b, match write_all w b with
              | (w', Ok _) => got w' = got w ++ b
              | (w', Err _) => exists p q, b = p ++ q /\ got w' = got w ++ p
              end.
