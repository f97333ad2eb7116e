(** Model of the slice and array helpers of internals (internals/src/slice.rs, internals/src/array.rs).  Memory
    is a list of items; a slice is a view on it, a start and a length, so that the pointer casts of
    [from_raw_parts] can be told apart from what they point at.  Const parameters are arguments: a value the
    compile-time assertions reject is [None] ("does not compile"). *)
From Verif Require Import Base MDec.
Local Open Scope N_scope.

Record view := mk_view { v_start : N; v_len : N }.
Section Item.
  Context {T : Type}.
  Definition read (mem : list T) (v : view) : list T := takeN (v_len v) (dropN (v_start v) mem).
  (** *p = x for the item at an address *)
  Definition write (mem : list T) (p : N) (x : T) : list T := takeN p mem ++ x :: dropN (p + 1) mem.
End Item.

(** core [split_at] and [split_at_mut] *)
Definition split_at (v : view) (mid : N) : rust (view * view) :=
  if mid <=? v_len v then Ret (mk_view (v_start v) mid, mk_view (v_start v + mid) (v_len v - mid)) else Panic.
(** core [from_raw_parts] on a pointer cast to arrays of [n] items: the i-th array starts i * n items further *)
Fixpoint raw_parts (p n : N) (count : nat) : list view :=
  match count with O => [] | S k => mk_view p n :: raw_parts (p + n) n k end.
(** core [<&[T; N]>::try_from(slice)]: the lengths must agree *)
Definition to_array (n : N) (v : view) : option view := if v_len v =? n then Some v else None.
Definition expect_array (o : option view) : rust view := match o with Some v => Ret v | None => Panic end.
Definition usize_add (a b : N) : rust N := if a + b <? 2 ^ 64 then Ret (a + b) else Panic.

(** slice.rs:59-74 (and :76-96, the same on a mutable slice), with :130-136 *)
Definition as_chunks (n : N) (v : view) : option (rust (list view * view)) :=
  if n =? 0 then None
  else Some (let chunks_count := v_len v / n in
             let total_left_len := chunks_count * n in
             if total_left_len <? 2 ^ 64 then
               rbind (split_at v total_left_len) (fun '(front, back) => Ret (raw_parts (v_start front) n (N.to_nat chunks_count), back))
             else Panic).
(** slice.rs:98-104 *)
Definition get_array (n : N) (v : view) (offset : N) : rust (option view) :=
  rbind (usize_add offset n) (fun stop =>
    if (offset <=? stop) && (stop <=? v_len v) then rbind (expect_array (to_array n (mk_view (v_start v + offset) (stop - offset)))) (fun a => Ret (Some a))
    else Ret None).
(** slice.rs:106-114 *)
Definition split_first_chunk (n : N) (v : view) : rust (option (view * view)) :=
  if v_len v <? n then Ret None
  else rbind (split_at v n) (fun '(first, remainder) => rbind (expect_array (to_array n first)) (fun a => Ret (Some (a, remainder)))).
(** slice.rs:116-127 *)
Definition split_last_chunk (n : N) (v : view) : rust (option (view * view)) :=
  if v_len v <? n then Ret None
  else rbind (split_at v (v_len v - n)) (fun '(remainder, last) => rbind (expect_array (to_array n last)) (fun a => Ret (Some (remainder, a)))).

(** array.rs:78-83, :95-99; [v] is the array, its length the const N *)
Definition sub_array (offset len : N) (v : view) : option (rust view) :=
  if (offset + len <? 2 ^ 64) && (offset + len <=? v_len v) then Some (expect_array (to_array len (mk_view (v_start v + offset) (offset + len - offset)))) else None.
(** indexing an array by 0 *)
Definition item0 (v : view) : rust N := if 0 <? v_len v then Ret (v_start v) else Panic.
(** array.rs:20, :31: the address of the item *)
Definition get_static (index : N) (v : view) : option (rust N) :=
  match sub_array index 1 v with None => None | Some r => Some (rbind r item0) end.
Definition array_first (v : view) : option (rust N) := get_static 0 v.
(** array.rs:85-92, :101-105 *)
Definition split_array (left right : N) (v : view) : option (rust (view * view)) :=
  if (left + right <? 2 ^ 64) && (left + right =? v_len v) then
    match sub_array 0 left v, sub_array left right v with
    | Some a, Some b => Some (rbind a (fun x => rbind b (fun y => Ret (x, y))))
    | _, _ => None
    end
  else None.
(** array.rs:52-55, :69-72 *)
Definition split_first (right : N) (v : view) : option (rust (N * view)) :=
  match split_array 1 right v with None => None | Some r => Some (rbind r (fun '(first, remaining) => rbind (item0 first) (fun x => Ret (x, remaining)))) end.
Definition split_last (left : N) (v : view) : option (rust (N * view)) :=
  match split_array left 1 v with None => None | Some r => Some (rbind r (fun '(remaining, last) => rbind (item0 last) (fun x => Ret (x, remaining)))) end.
