(** What a vector of bounded capacity should be: a list of at most that many items. *)
From Verif Require Import Base MDec MArrayVec.
Local Open Scope N_scope.

(** the safe operations, and the way unsafe callers fill the spare capacity (write some items there, then set the length) *)
Inductive op (T : Type) := OPush (x : T) | OTryPush (x : T) | OPop | OExtend (s : list T) | OSet (i : N) (x : T) | OClone | OTruncate (n : N) | OLook.
Arguments OPush {T}. Arguments OTryPush {T}. Arguments OPop {T}. Arguments OExtend {T}. Arguments OSet {T}. Arguments OClone {T}. Arguments OTruncate {T}. Arguments OLook {T}.
(** what the caller sees *)
Inductive seen (T : Type) := SNone | STry (r : result unit N) | SPop (x : option T) | SLook (l : list T).
Arguments SNone {T}. Arguments STry {T}. Arguments SPop {T}. Arguments SLook {T}.

Section Spec.
  Context {T : Type}.
  Definition put (l : list T) (i : N) (x : T) : list T := firstn (N.to_nat i) l ++ x :: skipn (S (N.to_nat i)) l.
  (** the list operation; [None] is a panic, which happens exactly when the capacity or the index is exceeded *)
  Definition list_op (c : N) (l : list T) (o : op T) : option (list T * seen T) :=
    match o with
    | OPush x => if lenN l <? c then Some (l ++ [x], SNone) else None
    | OTryPush x => if lenN l <? c then Some (l ++ [x], STry (Ok tt)) else Some (l, STry (Err c))
    | OPop => match rev l with [] => Some ([], SPop None) | x :: r => Some (rev r, SPop (Some x)) end
    | OExtend s => if lenN l + lenN s <=? c then Some (l ++ s, SNone) else None
    | OSet i x => if i <? lenN l then Some (put l i x, SNone) else None
    | OClone => Some (l, SNone)
    | OTruncate n => Some (firstn (N.to_nat n) l, SNone)
    | OLook => Some (l, SLook l)
    end.
  (** the operation of the model; OTruncate obeys the contract of [set_len]: the length does not grow *)
  Definition vec_op (v : avec T) (o : op T) : mem (avec T * seen T) :=
    match o with
    | OPush x => mbind (push v x) (fun v => Done (v, SNone))
    | OTryPush x => mbind (try_push v x) (fun '(v, r) => Done (v, STry r))
    | OPop => mbind (pop v) (fun '(v, x) => Done (v, SPop x))
    | OExtend s => mbind (extend_from_slice v s) (fun v => Done (v, SNone))
    | OSet i x => mbind (av_set v i x) (fun v => Done (v, SNone))
    | OClone => mbind (av_clone v) (fun v => Done (v, SNone))
    | OTruncate n => mbind (set_len v (N.min n (av_len v))) (fun v => Done (v, SNone))
    | OLook => mbind (as_slice v) (fun l => Done (v, SLook l))
    end.
  Fixpoint list_ops (c : N) (l : list T) (os : list (op T)) : option (list T * list (seen T)) :=
    match os with
    | [] => Some (l, [])
    | o :: os => match list_op c l o with None => None | Some (l, s) => match list_ops c l os with None => None | Some (l, ss) => Some (l, s :: ss) end end
    end.
  Fixpoint vec_ops (v : avec T) (os : list (op T)) : mem (avec T * list (seen T)) :=
    match os with
    | [] => Done (v, [])
    | o :: os => mbind (vec_op v o) (fun '(v, s) => mbind (vec_ops v os) (fun '(v, ss) => Done (v, s :: ss)))
    end.
End Spec.
