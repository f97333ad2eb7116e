(** Model of PushBytes and PushBytesBuf (primitives/src/script/push_bytes.rs) on a 64-bit processor: a buffer is
    the bytes of its vector.  Capacity is not modelled. *)
From Verif Require Import Base MDec MWitness MScript.
Local Open Scope N_scope.

Definition USIZE_MAX : N := 18446744073709551615.
Definition saturating_add (a b : N) : N := N.min (a + b) USIZE_MAX.
(** push_bytes.rs:34-40; the error carries the length *)
Definition check_limit (len : N) : result unit N := if len <? 4294967296 then Ok tt else Err len.

(** push_bytes.rs:132-135 and :141-144 (slices), :283-287 (vectors) *)
Definition pb_try_from (b : bytes) : result bytes N := match check_limit (lenN b) with Err n => Err n | Ok _ => Ok b end.
(** push_bytes.rs:150-188: arrays of 0 to 76 bytes; there is no impl for other sizes *)
Definition pb_from_array (b : bytes) : option bytes := if lenN b <=? 76 then Some b else None.
(** push_bytes.rs:72, 208 *)
Definition pb_new : bytes := [].

(** What a method call leaves behind: its answer, or a panic *)
Inductive answer := Done | Byte (b : option N) | Refused (len : N) | Panicked.
(** Bounds of a range argument: core's Bound; [a..b] is Included a, Excluded b and so on *)
Inductive bound := Included (n : N) | Excluded (n : N) | Unbounded.

(** core::slice::index: the range a pair of bounds selects; [None] is a panic *)
Definition into_range (len : N) (lo hi : bound) : option (N * N) :=
  let start := match lo with Included n => Some n | Excluded n => if n =? USIZE_MAX then None else Some (n + 1) | Unbounded => Some 0 end in
  let stop := match hi with Included n => if n =? USIZE_MAX then None else Some (n + 1) | Excluded n => Some n | Unbounded => Some len end in
  match start, stop with
  | Some a, Some b => if (a <=? b) && (b <=? len) then Some (a, b) else None
  | _, _ => None
  end.
(** push_bytes.rs:81-113: indexing by a range gives a PushBytes again *)
Definition pb_index_range (s : bytes) (lo hi : bound) : rust bytes :=
  match into_range (lenN s) lo hi with Some (a, b) => Ret (takeN (b - a) (dropN a s)) | None => Panic end.
(** push_bytes.rs:115-121 *)
Definition pb_index (s : bytes) (i : N) : rust N := match dropN i s with x :: _ => Ret x | [] => Panic end.

Inductive op :=
| OPush (b : N) | OExtend (bs : bytes) | OPop | ORemove (i : N) | OClear | OTruncate (n : N)
| OSet (i b : N)                                  (* buf[i] = b *)
| OWrite (lo hi : bound) (bs : bytes).            (* buf[range].copy_from_slice(bs) *)

(** [Vec::pop] *)
Fixpoint vec_pop (s : bytes) : option N * bytes :=
  match s with [] => (None, []) | [x] => (Some x, []) | x :: s' => let '(r, t) := vec_pop s' in (r, x :: t) end.
Definition pb_step (s : bytes) (o : op) : answer * bytes :=
  match o with
  | OPush b =>                                                        (* push_bytes.rs:224-229 *)
      match check_limit (saturating_add (lenN s) 1) with Err n => (Refused n, s) | Ok _ => (Done, s ++ [b]) end
  | OExtend bs =>                                                     (* :236-241 *)
      match check_limit (saturating_add (lenN s) (lenN bs)) with Err n => (Refused n, s) | Ok _ => (Done, s ++ bs) end
  | OPop => let '(r, t) := vec_pop s in (Byte r, t)                   (* :244 *)
  | ORemove i =>                                                      (* :252; [Vec::remove] panics before it moves anything *)
      match dropN i s with x :: t => (Byte (Some x), takeN i s ++ t) | [] => (Panicked, s) end
  | OClear => (Done, [])                                              (* :255 *)
  | OTruncate n => (Done, takeN n s)                                  (* :258 *)
  | OSet i b =>                                                       (* :123-127, 339-341 *)
      match dropN i s with _ :: t => (Done, takeN i s ++ b :: t) | [] => (Panicked, s) end
  | OWrite lo hi bs =>                                                (* :94-100, :78 *)
      match into_range (lenN s) lo hi with
      | Some (a, b) => if lenN bs =? b - a then (Done, takeN a s ++ bs ++ dropN b s) else (Panicked, s)
      | None => (Panicked, s)
      end
  end.
(** A buffer used by a caller who goes on after a panic *)
Fixpoint pb_run (s : bytes) (os : list op) : list answer * bytes :=
  match os with [] => ([], s) | o :: os' => let '(a, t) := pb_step s o in let '(l, u) := pb_run t os' in (a :: l, u) end.
