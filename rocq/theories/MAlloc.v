(** The vector decoders of MDec.v with the capacity of their buffer made visible.
    [size] is [mem::size_of::<D::Output>()].  [reserve_exact] is taken to reserve exactly what is
    asked.  The second component of the state is the capacity in items. *)
From Verif Require Import Base MDec.
Local Open Scope N_scope.

Section Alloc.
Context {A E : Type} (D : decoder A E) (size : N).

(** decode/decoders.rs:200-208 ExactVecDecoderWith::reserve *)
Definition ev_reserve (len length cap : N) : N :=
  if len =? cap then len + N.min (length - len) (MAX_VECTOR_ALLOCATE / N.max size 1) else cap.
(** alloc::vec::Vec::push when there is no room (amortized doubling, at least 4 items) *)
Definition vec_grow (len cap : N) : N := if len =? cap then N.max (2 * cap) 4 else cap.

(** decode/decoders.rs:221-241, as [ev_loop] *)
Fixpoint evc_loop (k : nat) (s : ev_state D) (cap : N) (l : bytes)
  : (ev_state D * N) * bytes * pstatus (vec_err E) :=
  match l with
  | [] => if lenN (ev_buffer D s) =? ev_length D s then ((s, cap), l, Ready) else ((s, cap), l, NeedsMore)
  | _ :: _ =>
      match k with
      | O => ((s, cap), l, PPanic)
      | S k' =>
          let cap1 := ev_reserve (lenN (ev_buffer D s)) (ev_length D s) cap in
          let d := match ev_decoder D s with Some d => d | None => init D end in
          match push D d l with
          | (d', l', PErr e) => (({| ev_length := ev_length D s; ev_buffer := ev_buffer D s; ev_decoder := None |}, cap1),
                                 l', PErr (VecItem e))
          | (d', l', PPanic) => ((s, cap1), l', PPanic)
          | (d', l', NeedsMore) =>
              (({| ev_length := ev_length D s; ev_buffer := ev_buffer D s; ev_decoder := Some d' |}, cap1),
               l', NeedsMore)
          | (d', l', Ready) =>
              match fin D d' with
              | Panic => ((s, cap1), l', PPanic)
              | Ret (Err e) =>
                  (({| ev_length := ev_length D s; ev_buffer := ev_buffer D s; ev_decoder := None |}, cap1),
                   l', PErr (VecItem e))
              | Ret (Ok a) =>
                  let cap2 := vec_grow (lenN (ev_buffer D s)) cap1 in
                  let s' := {| ev_length := ev_length D s; ev_buffer := ev_buffer D s ++ [a];
                               ev_decoder := None |} in
                  if lenN (ev_buffer D s') =? ev_length D s' then ((s', cap2), l', Ready)
                  else evc_loop k' s' cap2 l'
              end
          end
      end
  end.

(** decode/decoders.rs:213-219 *)
Definition evc_push (sc : ev_state D * N) (l : bytes) : (ev_state D * N) * bytes * pstatus (vec_err E) :=
  let '(s, cap) := sc in
  if lenN (ev_buffer D s) =? ev_length D s then ((s, cap), l, Ready)
  else evc_loop (N.to_nat (ev_length D s - lenN (ev_buffer D s))) s cap l.

Definition exactvec_alloc_dec (n : N) : decoder (list A) (vec_err E) :=
  {| st := ev_state D * N; init := (ev_new D n, 0); push := evc_push;
     fin := fun sc => ev_fin D (fst sc); lim := fun sc => ev_lim D (fst sc) |}.

(** decode/decoders.rs:276-423 VecDecoderWith: the item decoder is created, with an empty buffer,
    when the prefix is complete. *)
Definition vecc_push (limit : N) (sc : vec_state D * N) (l : bytes)
  : (vec_state D * N) * bytes * pstatus (vec_err E) :=
  let '(s, cap) := sc in
  let items s cap l :=
    match evc_push (vd_items D s, cap) l with
    | ((i', cap'), l', x) => (({| vd_prefix := vd_prefix D s; vd_items := i' |}, cap'), l', x)
    end in
  match vd_prefix D s with
  | Some p =>
      match cs_push p l with
      | (p', l', NeedsMore) => (({| vd_prefix := Some p'; vd_items := vd_items D s |}, cap), l', NeedsMore)
      | (p', l', PErr e) => (({| vd_prefix := None; vd_items := vd_items D s |}, cap), l', PErr (VecPrefix e))
      | (p', l', PPanic) => ((s, cap), l', PPanic)
      | (p', l', Ready) =>
          match cs_fin limit p' with
          | Ok n => items {| vd_prefix := None; vd_items := ev_new D n |} 0 l'
          | Err e => (({| vd_prefix := None; vd_items := vd_items D s |}, cap), l', PErr (VecPrefix e))
          end
      end
  | None => items s cap l
  end.

Definition vec_alloc_dec (limit : N) : decoder (list A) (vec_err E) :=
  {| st := vec_state D * N; init := ({| vd_prefix := Some []; vd_items := ev_new D 0 |}, 0);
     push := vecc_push limit; fin := fun sc => vec_fin D (fst sc); lim := fun sc => vec_lim D (fst sc) |}.
End Alloc.
