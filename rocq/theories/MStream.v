(** Handing the chunks of an encoder straight to a decoder: fuzz/src/lib.rs:41-56, the loop behind check_roundtrip
    (13-22) and check_script_roundtrip (28-38) that every target in fuzz/fuzz_targets/bitcoin/encoding_roundtrip runs.
    The encoder is any type [X] with its two methods, given as [current_chunk] and [advance]. *)
From Verif Require Import Base MDec MEnc MP2p.
Local Open Scope N_scope.

Section Stream.
Context {X A E : Type} (current_chunk : X -> rust bytes) (advance : X -> rust (X * bool)) (D : decoder A E).

(** lib.rs:55 *)
Definition end_unwrap (s : st D) : rust A :=
  match fin D s with Ret (Ok v) => Ret v | _ => Panic end.

(** lib.rs:48-54; [feed] is the [while] of line 50 (each round that asks for more must have consumed something),
    [unwrap] panics on an error.  [None]: out of fuel. *)
Fixpoint stream_loop (fuel : nat) (encoder : X) (decoder : st D) : option (rust A) :=
  match fuel with
  | O => None
  | S fuel' =>
      match current_chunk encoder with
      | Panic => Some Panic
      | Ret chunk =>
          match feed D (length chunk) decoder chunk with
          | (_, _, PErr _) | (_, _, PPanic) => Some Panic
          | (decoder', _ :: _, _) => Some (end_unwrap decoder')
          | (decoder', [], _) =>
              match advance encoder with
              | Panic => Some Panic
              | Ret (_, false) => Some (end_unwrap decoder')
              | Ret (encoder', true) => stream_loop fuel' encoder' decoder'
              end
          end
      end
  end.

(** lib.rs:41-47 *)
Definition stream_encode_decode (fuel : nat) (encoder : X) : option (rust A) := stream_loop fuel encoder (init D).
End Stream.
