(** Model of internals/src/array_vec.rs: a vector of bounded capacity in an array of possibly uninitialised cells.  A cell is
    [None] when uninitialised; reading such a cell through the slice is undefined behaviour, modelled by [UB], which no
    safe history may reach.  [debug_assert!] is on.  serde's [SeqAccess] is the size hint and the items it will give. *)
From Verif Require Import Base MDec.
Local Open Scope N_scope.

Inductive mem (A : Type) := Done (a : A) | Panicked | UB.
Arguments Done {A}. Arguments Panicked {A}. Arguments UB {A}.
Definition mbind {A B} (m : mem A) (f : A -> mem B) : mem B := match m with Done a => f a | Panicked => Panicked | UB => UB end.

Section Vec.
  Context {T : Type}.
  (** the struct :19-22; the capacity is the length of the array *)
  Record avec := mk_avec { av_len : N; av_data : list (option T) }.
  Definition cap (v : avec) : N := lenN (av_data v).
  Definition uninit (n : N) : list (option T) := repeat None (N.to_nat n).
  (** new :27, Default :148-150 *)
  Definition av_new (c : N) : avec := mk_avec 0 (uninit c).
  (** from_slice :34-45: the copying loop writes cell after cell *)
  Fixpoint fill (i : N) (s : list T) (data : list (option T)) : list (option T) :=
    match s with [] => data | x :: s' => fill (i + 1) s' (takeN i data ++ Some x :: dropN (i + 1) data) end.
  Definition av_from_slice (c : N) (s : list T) : mem avec :=
    if lenN s <=? c then Done (mk_avec (lenN s) (fill 0 s (uninit c))) else Panicked.
  (** as_slice :48-54, as_mut_slice :57-62, Deref :162-170: the first [len] cells seen as initialised; also undefined when
      they are not all within the array *)
  Fixpoint init (l : list (option T)) : mem (list T) :=
    match l with [] => Done [] | Some x :: l' => mbind (init l') (fun r => Done (x :: r)) | None :: _ => UB end.
  Definition as_slice (v : avec) : mem (list T) := if av_len v <=? cap v then init (takeN (av_len v) (av_data v)) else UB.
  (** an assignment through the mutable slice: indexing panics outside of it *)
  Definition av_set (v : avec) (i : N) (x : T) : mem avec :=
    mbind (as_slice v) (fun s => if i <? lenN s then Done (mk_avec (av_len v) (takeN i (av_data v) ++ Some x :: dropN (i + 1) (av_data v))) else Panicked).
  (** spare_capacity_mut :65-68: the cells after the first [len], unchecked *)
  Definition spare (v : avec) : mem (list (option T)) := if av_len v <=? cap v then Done (dropN (av_len v) (av_data v)) else UB.
  (** set_len :76-79 *)
  Definition set_len (v : avec) (n : N) : mem avec := if n <=? cap v then Done (mk_avec n (av_data v)) else Panicked.
  (** try_push :99-111: the error is the capacity *)
  Definition try_push (v : avec) (x : T) : mem (avec * result unit N) :=
    mbind (spare v) (fun sp =>
    match sp with
    | [] => Done (v, Err (cap v))
    | _ :: sp' =>
        let v := mk_avec (av_len v) (takeN (av_len v) (av_data v) ++ Some x :: sp') in
        mbind (set_len v (av_len v + 1)) (fun v => Done (v, Ok tt))
    end).
  (** push :90-92 *)
  Definition push (v : avec) (x : T) : mem avec := mbind (try_push v x) (fun '(v, r) => match r with Ok _ => Done v | Err _ => Panicked end).
  (** pop :118-126 *)
  Definition pop (v : avec) : mem (avec * option T) :=
    mbind (as_slice v) (fun s =>
    match rev s with
    | [] => Done (v, None)
    | x :: _ => mbind (set_len v (av_len v - 1)) (fun v => Done (v, Some x))
    end).
  (** extend_from_slice :133-145 *)
  Definition extend_from_slice (v : avec) (s : list T) : mem avec :=
    mbind (spare v) (fun sp =>
    if lenN s <=? lenN sp then set_len (mk_avec (av_len v) (takeN (av_len v) (av_data v) ++ map Some s ++ dropN (lenN s) sp)) (av_len v + lenN s) else Panicked).
  (** Clone :158-160 *)
  Definition av_clone (v : avec) : mem avec := mbind (as_slice v) (av_from_slice (cap v)).
  (** PartialEq between any capacities, and with slices and arrays :174-198; Ord and PartialOrd :200-210 *)
  Variable (eqb : T -> T -> bool) (cmp : T -> T -> comparison).
  Fixpoint slice_eqb (a b : list T) : bool :=
    match a, b with [], [] => true | x :: a', y :: b' => eqb x y && slice_eqb a' b' | _, _ => false end.
  Fixpoint slice_cmp (a b : list T) : comparison :=
    match a, b with [], [] => Eq | [], _ => Lt | _, [] => Gt | x :: a', y :: b' => match cmp x y with Eq => slice_cmp a' b' | r => r end end.
  Definition av_eqb (v w : avec) : mem bool := mbind (as_slice v) (fun a => mbind (as_slice w) (fun b => Done (slice_eqb a b))).
  Definition av_cmp (v w : avec) : mem comparison := mbind (as_slice v) (fun a => mbind (as_slice w) (fun b => Done (slice_cmp a b))).
  (** the serde visitor :286-303: the error is the invalid length; an item that fails to deserialize ends the sequence
      with its own error, not modelled *)
  Fixpoint visit_items (v : avec) (items : list T) : mem (result avec N) :=
    match items with
    | [] => Done (Ok v)
    | x :: items' => mbind (try_push v x) (fun '(v, r) => match r with Ok _ => visit_items v items' | Err _ => mbind (as_slice v) (fun s => Done (Err (lenN s + 1))) end)
    end.
  Definition visit_seq (c : N) (hint : option N) (items : list T) : mem (result avec N) :=
    match (match hint with Some h => if c <? h then Some h else None | None => None end) with
    | Some h => Done (Err h)
    | None => visit_items (av_new c) items
    end.
End Vec.
Arguments avec T : clear implicits.
