(** What a reader and a writer over byte strings are: io/src/lib.rs's contracts, independently of the implementations. *)
From Verif Require Import Base MDec MIo.
Local Open Scope N_scope.

(** [at_ st d]: the reader in state [st] has still the bytes [d] to give.  A read gives a prefix of them that fits the buffer, none
    only when it asks for none or there are no more, and takes it away; a failed read takes nothing.  A buffer filled is a prefix,
    empty only at the end; any part of it may then be consumed,
    and nothing at any time. *)
Definition reads_from (R : reader) (at_ : rstate R -> bytes -> Prop) : Prop :=
  (forall st d n, at_ st d -> exists r st', rread R st n = Ret (r, st') /\
     match r with
     | Ok bs => exists d', d = bs ++ d' /\ lenN bs <= n /\ (bs = [] -> n = 0 \/ d = []) /\ at_ st' d'
     | Err _ => at_ st' d
     end) /\
  (forall st d, at_ st d -> exists r st', rfill R st = Ret (r, st') /\ at_ st' d /\
     match r with
     | Ok bs => (bs = [] -> d = []) /\ exists d', d = bs ++ d' /\ forall k, k <= lenN bs -> exists st'', rconsume R st' k = Ret st'' /\ at_ st'' (dropN k d)
     | Err _ => True
     end) /\
  (forall st d, at_ st d -> exists st', rconsume R st 0 = Ret st' /\ at_ st' d).
(** [out st]: what the writer has taken.  A write takes a prefix and says how long; a failed one takes nothing. *)
Definition writes_to (W : writer) (out : wstate W -> bytes) : Prop :=
  forall st buf, exists r st', wwrite W st buf = Ret (r, st') /\
    match r with
    | Ok n => n <= lenN buf /\ out st' = out st ++ takeN n buf
    | Err _ => out st' = out st
    end.
(** The bytes a cursor has still to give. *)
Definition cursor_at (c : cursor) (d : bytes) : Prop := lenN (cu_inner c) < 2 ^ 64 /\ d = dropN (cu_pos c) (cu_inner c).
(** Those of a limited reader. *)
Definition take_at (R : reader) (at_ : rstate R -> bytes -> Prop) (s : rstate R * N) (d : bytes) : Prop :=
  exists all, at_ (fst s) all /\ d = takeN (snd s) all.
Definition world_at (w : world) (d : bytes) : Prop := d = w_buf w ++ w_rest w.
(** The bytes of [old] with [new] written over them from [pos] on. *)
Definition overwrite (old : bytes) (pos : N) (new : bytes) : bytes := takeN pos old ++ new ++ dropN (pos + lenN new) old.
(** [m st] bounds the failures still to come. *)
Definition settles (R : reader) (at_ : rstate R -> bytes -> Prop) (m : rstate R -> nat) : Prop :=
  (forall st d n, at_ st d -> match rread R st n with Ret (Ok _, st') => m st' <= m st | Ret (Err _, st') => m st' < m st | Panic => False end)%nat /\
  (forall st d, at_ st d -> match rfill R st with Ret (Ok _, st') => m st' <= m st | Ret (Err _, st') => m st' < m st | Panic => False end)%nat /\
  (forall st k st', rconsume R st k = Ret st' -> m st' <= m st)%nat.
(** The only failures are interruptions. *)
Definition patient (R : reader) (at_ : rstate R -> bytes -> Prop) : Prop :=
  forall st d n e st', at_ st d -> rread R st n = Ret (Err e, st') -> e = Interrupted.
Definition no_failure (e : event) : Prop := match e with Give _ | Fail Interrupted => True | Fail _ => False end.
(** The data of a world without failures. *)
Definition quiet_at (w : world) (d : bytes) : Prop := world_at w d /\ Forall no_failure (w_events w).
