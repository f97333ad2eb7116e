(** More of primitives/src/witness.rs, and the taproot accessors of bitcoin/src/blockdata/witness.rs. *)
From Verif Require Import Base MDec MWitness.
Local Open Scope N_scope.

(** witness.rs:669-673 Extend (and 662-667 FromIterator, 741-799 From: all through [from_slice]) *)
Fixpoint wit_extend (w : witness) (es : list bytes) : rust witness :=
  match es with
  | [] => Ret w
  | e :: es' => rbind (push_slice w e) (fun w' => wit_extend w' es')
  end.

(** witness.rs:645-649: the iterator after [current] items *)
Definition iter_size_hint (w : witness) (current : N) : rust N :=
  if lenN (wt_content w) <? wt_start w then Panic
  else let total := (lenN (wt_content w) - wt_start w) / 4 in
       if total <? current then Panic else Ret (total - current).

(** witness.rs:629 Index *)
Definition wit_index (w : witness) (i : N) : rust bytes :=
  rbind (wit_get w i) (fun o => match o with Some e => Ret e | None => Panic end).

(** A history of operations on one witness. *)
Inductive wop := OpPush (e : bytes) | OpExtend (es : list bytes) | OpClear | OpFrom (ls : list bytes).
Definition wit_op (w : witness) (o : wop) : rust witness :=
  match o with
  | OpPush e => push_slice w e
  | OpExtend es => wit_extend w es
  | OpClear => Ret (wit_clear w)
  | OpFrom ls => from_slice ls
  end.
Fixpoint wit_ops (w : witness) (os : list wop) : rust witness :=
  match os with [] => Ret w | o :: os' => rbind (wit_op w o) (fun w' => wit_ops w' os') end.

(** ** bitcoin/src/blockdata/witness.rs:146-223 P2TrSpend *)
Section P2tr.
(** [ControlBlock::decode_borrowed] *)
Context {C : Type} (decode_cb : bytes -> option C).
Inductive p2tr_spend :=
| SpendKey (annex : option bytes)
| SpendScript (leaf_script : bytes) (control_block : C) (annex : option bytes).
Definition expect {A} (o : option A) : rust A := match o with Some a => Ret a | None => Panic end.
(** starts_with(&[TAPROOT_ANNEX_PREFIX]), 0x50 *)
Definition has_annex_prefix (e : bytes) : bool := match e with b :: _ => b =? 80 | [] => false end.
(** :171-215 *)
Definition from_witness (w : witness) : rust (option p2tr_spend) :=
  if wit_len w =? 0 then Ret None
  else if wit_len w =? 1 then Ret (Some (SpendKey None))
  else
    rbind (wit_last w) (fun lo => rbind (expect lo) (fun last =>
    if (wit_len w =? 2) && has_annex_prefix last then
      rbind (wit_last w) (fun a => Ret (Some (SpendKey a)))
    else if (3 <=? wit_len w) && has_annex_prefix last then
      rbind (wit_get_back w 1) (fun co => rbind (expect co) (fun cbytes =>
      match decode_cb cbytes with
      | None => Ret None
      | Some cb =>
          rbind (wit_get_back w 2) (fun so => rbind (expect so) (fun s =>
          rbind (wit_last w) (fun a => Ret (Some (SpendScript s cb a)))))
      end))
    else
      match decode_cb last with
      | None => Ret None
      | Some cb =>
          rbind (wit_get_back w 1) (fun so => rbind (expect so) (fun s =>
          Ret (Some (SpendScript s cb None))))
      end)).
(** :80-85, 98-105 (script part), 115-120, 123-125 *)
Definition taproot_leaf_script (w : witness) : rust (option (bytes * C)) :=
  rbind (from_witness w) (fun o => Ret match o with Some (SpendScript s cb _) => Some (s, cb) | _ => None end).
Definition taproot_control_block (w : witness) : rust (option C) :=
  rbind (from_witness w) (fun o => Ret match o with Some (SpendScript _ cb _) => Some cb | _ => None end).
Definition taproot_annex (w : witness) : rust (option bytes) :=
  rbind (from_witness w) (fun o => Ret match o with
    | Some (SpendKey a) => a | Some (SpendScript _ _ a) => a | None => None end).
End P2tr.
(** :133 *)
Definition wit_witness_script (w : witness) : rust (option bytes) := wit_last w.
