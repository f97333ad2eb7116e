(** Specification: a witness is a list of byte strings. *)
From Verif Require Import Base MWitness MWitness2 SWire.
Local Open Scope N_scope.

(** the same history on a list *)
Definition list_op (ls : list bytes) (o : wop) : list bytes :=
  match o with
  | OpPush e => ls ++ [e]
  | OpExtend es => ls ++ es
  | OpClear => []
  | OpFrom xs => xs
  end.
Definition list_ops (ls : list bytes) (os : list wop) : list bytes := fold_left list_op os ls.

(** the serialized elements, which must fit 32-bit offsets *)
Definition elements_size (ls : list bytes) : N := lenN (concat (map wire_bytes ls)).
Definition short_elements (ls : list bytes) : Prop := Forall (fun e => lenN e <= MAX_LEN) ls.

(** BIP341: the annex is the last of at least two elements when it starts with 0x50.  Without it, one
    element is a key path spend, and otherwise the last is the control block and the one before the
    leaf script. *)
Definition bip341_annex (ls : list bytes) : option bytes :=
  match rev ls with
  | (80 :: a) :: _ :: _ => Some (80 :: a)
  | _ => None
  end.
Definition bip341_rest (ls : list bytes) : list bytes :=
  match bip341_annex ls with Some _ => removelast ls | None => ls end.
(** (leaf script, control block bytes) *)
Definition bip341_script (ls : list bytes) : option (bytes * bytes) :=
  match rev (bip341_rest ls) with
  | cb :: s :: _ => Some (s, cb)
  | _ => None
  end.
