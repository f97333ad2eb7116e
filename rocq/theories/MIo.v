(** The io crate: io/src/lib.rs and io/src/hash.rs.  usize has 64 bits; a read into a buffer of n bytes returns the bytes put at
    its start.  A reader or writer is a state with its operations; the drivers that may run for ever with a reader that keeps
    being interrupted have fuel, and give None when it runs out. *)
From Verif Require Import Base MDec MHash MSha2 MHash2 MHmac.
Local Open Scope N_scope.

(** io/src/error.rs:166-204; the other kinds by number *)
Inductive kind := Interrupted | UnexpectedEof | OtherKind (k : N).
Definition is_interrupted (k : kind) : bool := match k with Interrupted => true | _ => false end.

(** ** Readers *)
(** io/src/lib.rs:64-140 *)
Record reader := mk_reader {
  rstate : Type;
  rread : rstate -> N -> rust (result bytes kind * rstate);
  rfill : rstate -> rust (result bytes kind * rstate);
  rconsume : rstate -> N -> rust rstate }.
(** io/src/lib.rs:82-92.  [got] is the part of the buffer already filled; a reader that claims more bytes than the buffer has makes
    the slice panic. *)
Fixpoint read_exact (R : reader) (fuel : nat) (st : rstate R) (n : N) (got : bytes) : option (rust (result unit kind * bytes * rstate R)) :=
  if n =? 0 then Some (Ret (Ok tt, got, st)) else
  match fuel with
  | O => None
  | S fuel' =>
      match rread R st n with
      | Panic => Some Panic
      | Ret (Ok [], st') => Some (Ret (Err UnexpectedEof, got, st'))
      | Ret (Ok bs, st') => if n <? lenN bs then Some Panic else read_exact R fuel' st' (n - lenN bs) (got ++ bs)
      | Ret (Err e, st') => if is_interrupted e then read_exact R fuel' st' n got else Some (Ret (Err e, got, st'))
      end
  end.
(** io/src/lib.rs:96-101, 145-215: the reader and the bytes remaining *)
Definition take_read (R : reader) (s : rstate R * N) (n : N) : rust (result bytes kind * (rstate R * N)) :=
  let '(st, remaining) := s in
  rbind (rread R st (N.min n remaining)) (fun '(res, st') =>
  match res with
  | Err e => Ret (Err e, (st', remaining))
  | Ok bs => if remaining <? lenN bs then Panic else Ret (Ok bs, (st', remaining - lenN bs))
  end).
Definition take_fill (R : reader) (s : rstate R * N) : rust (result bytes kind * (rstate R * N)) :=
  let '(st, remaining) := s in
  if remaining =? 0 then Ret (Ok [], s) else
  rbind (rfill R st) (fun '(res, st') =>
  match res with
  | Err e => Ret (Err e, (st', remaining))
  | Ok bs => Ret (Ok (takeN (N.min (lenN bs) remaining) bs), (st', remaining))
  end).
Definition take_consume (R : reader) (s : rstate R * N) (amount : N) : rust (rstate R * N) :=
  let '(st, remaining) := s in
  if remaining <? amount then Panic else rbind (rconsume R st amount) (fun st' => Ret (st', remaining - amount)).
Definition take (R : reader) : reader := mk_reader (rstate R * N) (take_read R) (take_fill R) (take_consume R).
(** io/src/lib.rs:165-180 *)
Fixpoint read_to_end (R : reader) (fuel : nat) (s : rstate (take R)) (buf : bytes) (read : N) : option (rust (result N kind * bytes * rstate (take R))) :=
  match fuel with
  | O => None
  | S fuel' =>
      match rread (take R) s 64 with
      | Panic => Some Panic
      | Ret (Ok [], s') => Some (Ret (Ok read, buf, s'))
      | Ret (Ok bs, s') => read_to_end R fuel' s' (buf ++ bs) (read + lenN bs)
      | Ret (Err e, s') => if is_interrupted e then read_to_end R fuel' s' buf read else Some (Ret (Err e, buf, s'))
      end
  end.
(** io/src/lib.rs:120-122: the reader is left where the limited one stopped *)
Definition read_to_limit (R : reader) (fuel : nat) (st : rstate R) (buf : bytes) (limit : N) : option (rust (result N kind * bytes * rstate R)) :=
  match read_to_end R fuel (st, limit) buf 0 with
  | None => None
  | Some Panic => Some Panic
  | Some (Ret (r, buf', (st', _))) => Some (Ret (r, buf', st'))
  end.
(** io/src/lib.rs:233-250 *)
Definition slice_reader : reader := mk_reader bytes
  (fun s n => let cnt := N.min (lenN s) n in Ret (Ok (takeN cnt s), dropN cnt s))
  (fun s => Ret (Ok s, s))
  (fun s amount => if lenN s <? amount then Panic else Ret (dropN amount s)).
(** io/src/lib.rs:253-301 *)
Record cursor := mk_cursor { cu_inner : bytes; cu_pos : N }.
Definition cursor_new (inner : bytes) : cursor := mk_cursor inner 0.
Definition set_position (c : cursor) (p : N) : cursor := mk_cursor (cu_inner c) p.
Definition U64_MAX : N := 18446744073709551615.
(** io/src/lib.rs:303-329 *)
Definition cursor_read (c : cursor) (n : N) : rust (result bytes kind * cursor) :=
  if lenN (cu_inner c) <=? cu_pos c then Ret (Ok [], c) else
  let read := N.min (lenN (cu_inner c) - cu_pos c) n in
  Ret (Ok (takeN read (dropN (cu_pos c) (cu_inner c))), mk_cursor (cu_inner c) (N.min (cu_pos c + read) U64_MAX)).
Definition cursor_fill (c : cursor) : rust (result bytes kind * cursor) :=
  Ret (Ok (dropN (N.min (cu_pos c) (lenN (cu_inner c))) (cu_inner c)), c).
Definition cursor_consume (c : cursor) (amount : N) : rust cursor := Ret (mk_cursor (cu_inner c) (N.min (cu_pos c + amount) U64_MAX)).
Definition cursor_reader : reader := mk_reader cursor cursor_read cursor_fill cursor_consume.

(** ** Writers *)
(** io/src/lib.rs:348-363 *)
Record writer := mk_writer { wstate : Type; wwrite : wstate -> bytes -> rust (result N kind * wstate) }.
(** io/src/lib.rs:370-380 *)
Fixpoint write_all (W : writer) (fuel : nat) (st : wstate W) (buf : bytes) : option (rust (result unit kind * wstate W)) :=
  match buf with
  | [] => Some (Ret (Ok tt, st))
  | _ =>
      match fuel with
      | O => None
      | S fuel' =>
          match wwrite W st buf with
          | Panic => Some Panic
          | Ret (Ok n, st') => if n =? 0 then Some (Ret (Err UnexpectedEof, st')) else if lenN buf <? n then Some Panic else write_all W fuel' st' (dropN n buf)
          | Ret (Err e, st') => if is_interrupted e then write_all W fuel' st' buf else Some (Ret (Err e, st'))
          end
      end
  end.
(** io/src/lib.rs:395-404 *)
Definition vec_writer : writer := mk_writer bytes (fun v buf => Ret (Ok (lenN buf), v ++ buf)).
(** io/src/lib.rs:406-417: what was written before the slice, and the slice *)
Definition slice_writer : writer := mk_writer (bytes * bytes)
  (fun s buf => let '(done, room) := s in
     let cnt := N.min (lenN room) (lenN buf) in Ret (Ok cnt, (done ++ takeN cnt buf, dropN cnt room))).
(** io/src/lib.rs:331-343 *)
Definition cursor_write (c : cursor) (buf : bytes) : rust (result N kind * cursor) :=
  let pos := N.min (cu_pos c) (lenN (cu_inner c)) in
  let amt := N.min (lenN (cu_inner c) - pos) (lenN buf) in
  let inner := takeN pos (cu_inner c) ++ takeN amt buf ++ dropN (pos + amt) (cu_inner c) in
  if U64_MAX <? cu_pos c + amt then Panic else Ret (Ok amt, mk_cursor inner (cu_pos c + amt)).
Definition cursor_writer : writer := mk_writer cursor cursor_write.
(** io/src/lib.rs:422-434; its own write_all succeeds at once *)
Definition sink_writer : writer := mk_writer unit (fun _ buf => Ret (Ok (lenN buf), tt)).
Definition sink_write_all (_ : unit) (_ : bytes) : result unit kind := Ok tt.

(** ** Hashing a reader *)
(** io/src/hash.rs:140-158 *)
Fixpoint hash_loop (h : hasher) (R : reader) (fuel : nat) (st : rstate R) (e : engine256) : option (rust (result bytes kind)) :=
  match fuel with
  | O => None
  | S fuel' =>
      match rfill R st with
      | Panic => Some Panic
      | Ret (Err k, _) => Some (Ret (Err k))
      | Ret (Ok [], _) => Some (rbind (h_finalize h e) (fun v => Ret (Ok v)))
      | Ret (Ok bs, st') =>
          match h_input h e bs with
          | Panic => Some Panic
          | Ret e' => match rconsume R st' (lenN bs) with Panic => Some Panic | Ret st'' => hash_loop h R fuel' st'' e' end
          end
      end
  end.
Definition hash_reader (h : hasher) (R : reader) (fuel : nat) (st : rstate R) : option (rust (result bytes kind)) := hash_loop h R fuel st (h_default h).

(** ** The world: a reader that gives its data in pieces, and a writer that takes them in pieces, as a schedule says (no code; any
    run of a reader or writer that keeps the traits' contracts is one of these) *)
Inductive event := Give (k : N) | Fail (k : kind).
Record world := mk_world { w_buf : bytes; w_rest : bytes; w_events : list event }.
Definition world_read (w : world) (n : N) : rust (result bytes kind * world) :=
  match w_buf w with
  | _ :: _ => let k := N.min n (lenN (w_buf w)) in Ret (Ok (takeN k (w_buf w)), mk_world (dropN k (w_buf w)) (w_rest w) (w_events w))
  | [] =>
      match w_events w with
      | [] => Ret (Ok (takeN n (w_rest w)), mk_world [] (dropN n (w_rest w)) [])
      | Fail k :: ev => Ret (Err k, mk_world [] (w_rest w) ev)
      | Give k :: ev => let k := N.min n (N.max 1 k) in Ret (Ok (takeN k (w_rest w)), mk_world [] (dropN k (w_rest w)) ev)
      end
  end.
Definition world_fill (w : world) : rust (result bytes kind * world) :=
  match w_buf w with
  | _ :: _ => Ret (Ok (w_buf w), w)
  | [] =>
      match w_events w with
      | [] => Ret (Ok (w_rest w), mk_world (w_rest w) [] [])
      | Fail k :: ev => Ret (Err k, mk_world [] (w_rest w) ev)
      | Give k :: ev => let k := N.max 1 k in Ret (Ok (takeN k (w_rest w)), mk_world (takeN k (w_rest w)) (dropN k (w_rest w)) ev)
      end
  end.
Definition world_consume (w : world) (n : N) : rust world :=
  if lenN (w_buf w) <? n then Panic else Ret (mk_world (dropN n (w_buf w)) (w_rest w) (w_events w)).
Definition world_reader : reader := mk_reader world world_read world_fill world_consume.
Definition world_writer : writer := mk_writer (bytes * list event) (fun s buf =>
  let '(out, ev) := s in
  match ev with
  | [] => Ret (Ok (lenN buf), (out ++ buf, []))
  | Fail k :: ev => Ret (Err k, (out, ev))
  | Give k :: ev => let k := N.min k (lenN buf) in Ret (Ok k, (out ++ takeN k buf, ev))
  end).

(** ** Programs making a number of calls, for the theorems *)
Fixpoint reads (R : reader) (st : rstate R) (ns : list N) : rust (list (result bytes kind) * rstate R) :=
  match ns with
  | [] => Ret ([], st)
  | n :: ns' => rbind (rread R st n) (fun '(r, st') => rbind (reads R st' ns') (fun '(rs, st'') => Ret (r :: rs, st'')))
  end.
Fixpoint got (rs : list (result bytes kind)) : bytes :=
  match rs with [] => [] | Ok b :: rs' => b ++ got rs' | Err _ :: rs' => got rs' end.
