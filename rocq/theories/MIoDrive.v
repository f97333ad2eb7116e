(** The drivers of the io crate between encoders or decoders and its readers and writers: io/src/lib.rs:456-649.  usize has 64 bits;
    loops that a reader or writer can keep going for ever have fuel, and give None when it runs out. *)
From Verif Require Import Base MDec MTx MEnc MIo.
Local Open Scope N_scope.

(** io/src/lib.rs:477-489 drain_to_writer; [wfuel] is the fuel of each write_all *)
Fixpoint drain_to_writer (W : writer) (wfuel fuel : nat) (e : enc) (w : wstate W) : option (rust (result unit kind * wstate W)) :=
  match fuel with
  | O => None
  | S fuel' =>
      match chunk e with
      | Panic => Some Panic
      | Ret ch =>
          match write_all W wfuel w ch with
          | None => None
          | Some Panic => Some Panic
          | Some (Ret (Err k, w')) => Some (Ret (Err k, w'))
          | Some (Ret (Ok _, w')) =>
              match adv e with
              | Panic => Some Panic
              | Ret (_, false) => Some (Ret (Ok tt, w'))
              | Ret (e', true) => drain_to_writer W wfuel fuel' e' w'
              end
          end
      end
  end.
(** io/src/lib.rs:461-468: [e] is what object.encoder() gives *)
Definition encode_to_writer (W : writer) (wfuel fuel : nat) (e : rust enc) (w : wstate W) : option (rust (result unit kind * wstate W)) :=
  match e with Panic => Some Panic | Ret e => drain_to_writer W wfuel fuel e w end.

(** io/include/newtype.rs is not involved; consensus_encoding's ReadError (decode/mod.rs) with the io crate's error *)
Inductive read_error (E : Type) := RdIo (k : kind) | RdDecode (e : E).
Arguments RdIo {E} k. Arguments RdDecode {E} e.

Section Decode.
Context {A E : Type} (R : reader) (D : decoder A E).
(** decoder.end().map_err(ReadError::Decode) *)
Definition finish (s : st D) (r : rstate R) : option (rust (result A (read_error E) * rstate R)) :=
  Some (match fin D s with
        | Panic => Panic
        | Ret (Ok v) => Ret (Ok v, r)
        | Ret (Err e) => Ret (Err (RdDecode e), r)
        end).
(** io/src/lib.rs:537-568 decode_from_read_internal *)
Fixpoint read_with (fuel : nat) (s : st D) (r : rstate R) : option (rust (result A (read_error E) * rstate R)) :=
  match fuel with
  | O => None
  | S fuel' =>
      match rfill R r with
      | Panic => Some Panic
      | Ret (Err k, r') => if is_interrupted k then read_with fuel' s r' else Some (Ret (Err (RdIo k), r'))
      | Ret (Ok [], r') => finish s r'
      | Ret (Ok buffer, r') =>
          match push D s buffer with
          | (_, _, PPanic) => Some Panic
          | (_, _, PErr e) => Some (Ret (Err (RdDecode e), r'))
          | (s', left_, status) =>
              match rconsume R r' (lenN buffer - lenN left_) with
              | Panic => Some Panic
              | Ret r'' => match status with Ready => finish s' r'' | _ => read_with fuel' s' r'' end
              end
          end
      end
  end.
(** io/src/lib.rs:503-511, 527-535 decode_from_read and decode_from_read_with *)
Definition decode_from_read (fuel : nat) (r : rstate R) := read_with fuel (init D) r.

(** io/src/lib.rs:612-649 decode_from_read_unbuffered_with<BUFFER_SIZE>; a reader that claims to have read more than the buffer
    holds makes the slice panic *)
Fixpoint unbuffered (size : N) (fuel : nat) (s : st D) (r : rstate R) : option (rust (result A (read_error E) * rstate R)) :=
  match fuel with
  | O => None
  | S fuel' =>
      if lim D s =? 0 then finish s r else
      let n := N.min (lim D s) size in
      match rread R r n with
      | Panic => Some Panic
      | Ret (Err k, r') => if is_interrupted k then unbuffered size fuel' s r' else Some (Ret (Err (RdIo k), r'))
      | Ret (Ok [], r') => finish s r'
      | Ret (Ok bs, r') =>
          if n <? lenN bs then Some Panic else
          match feed D (length bs) s bs with
          | (_, _, PPanic) => Some Panic
          | (_, _, PErr e) => Some (Ret (Err (RdDecode e), r'))
          | (s', _, Ready) => finish s' r'
          | (s', _, NeedsMore) => unbuffered size fuel' s' r'
          end
      end
  end.
Definition decode_from_read_unbuffered_with (size : N) (fuel : nat) (r : rstate R) := unbuffered size fuel (init D) r.
(** io/src/lib.rs:588-596 *)
Definition decode_from_read_unbuffered (fuel : nat) (r : rstate R) := decode_from_read_unbuffered_with 4096 fuel r.
End Decode.

(** ** A program reading several values one after the other, for the theorems *)
Fixpoint read_many {A E} (R : reader) (D : decoder A E) (fuel : nat) (count : nat) (r : rstate R) : option (rust (result (list A) (read_error E) * rstate R)) :=
  match count with
  | O => Some (Ret (Ok [], r))
  | S count' =>
      match decode_from_read R D fuel r with
      | None => None
      | Some Panic => Some Panic
      | Some (Ret (Err e, r')) => Some (Ret (Err e, r'))
      | Some (Ret (Ok v, r')) =>
          match read_many R D fuel count' r' with
          | Some (Ret (Ok vs, r'')) => Some (Ret (Ok (v :: vs), r''))
          | other => other
          end
      end
  end.
