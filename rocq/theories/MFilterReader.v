(** Compact block filters matched from any reader: bitcoin/src/bip158.rs:181-303, 391-455.  MBip158.v has the same functions reading
    from a slice.  [f] is fuel for the loops of the io crate and for the number of ones in a code; None means that it, or a loop's own
    fuel, ran out.  The state the reader is left in is not part of the answers of match_any and match_all. *)
From Verif Require Import Base MDec MWitness MTx MBip152 MBip158 MIo MIoDrive.
Local Open Scope N_scope.

(** An io::Error: the reader's, or the one bip158.rs:434-439 makes *)
Inductive fr_err := FrIo (k : kind) | FrTooManyBits.
(** Error bip158.rs:513-520 *)
Inductive match_err := MfCount (e : read_error cs_err) | MfIo (e : fr_err).

Section Reader.
  Variable R : reader.
  Variable f : nat.
  (** bip158.rs:411-415 *)
  Record bits_from := mk_bf { bf_buf : N; bf_off : N; bf_r : rstate R }.
  (** bip158.rs:419 *)
  Definition bits_of_reader (st : rstate R) : bits_from := mk_bf 0 8 st.
  Definition rd_outcome (A : Type) : Type := option (rust (result A fr_err * bits_from)).
  (** the [?] operator *)
  Definition rd_bind {A B} (x : rd_outcome A) (k : A -> bits_from -> rd_outcome B) : rd_outcome B :=
    match x with
    | None => None
    | Some Panic => Some Panic
    | Some (Ret (Err e, b)) => Some (Ret (Err e, b))
    | Some (Ret (Ok a, b)) => k a b
    end.
  (** bip158.rs:442-445; what read_exact leaves in the buffer on an error is not modelled: nothing reads it *)
  Definition next_byte (b : bits_from) : rd_outcome unit :=
    if bf_off b =? 8 then
      match read_exact R f (bf_r b) 1 [] with
      | None => None
      | Some Panic => Some Panic
      | Some (Ret (Err k, _, st)) => Some (Ret (Err (FrIo k), mk_bf (bf_buf b) (bf_off b) st))
      | Some (Ret (Ok _, got, st)) => Some (Ret (Ok tt, mk_bf (nth 0 got 0) 0 st))
      end
    else Some (Ret (Ok tt, b)).
  (** bip158.rs:441-451 *)
  Fixpoint read_loop_from (fuel : nat) (b : bits_from) (nbits data : N) : rd_outcome N :=
    if nbits =? 0 then Some (Ret (Ok data, b)) else
    match fuel with
    | O => None
    | S fuel' =>
        rd_bind (next_byte b) (fun _ b =>
          let bits := N.min (8 - bf_off b) nbits in
          let data := N.lor (N.shiftl data bits mod U64) (N.shiftr (N.shiftl (bf_buf b) (bf_off b) mod 256) (8 - bits)) in
          read_loop_from fuel' (mk_bf (bf_buf b) (bf_off b + bits) (bf_r b)) (nbits - bits) data)
    end.
  (** bip158.rs:433-453 *)
  Definition read_from (b : bits_from) (nbits : N) : rd_outcome N :=
    if 64 <? nbits then Some (Ret (Err FrTooManyBits, b)) else read_loop_from (N.to_nat nbits) b nbits 0.
  (** bip158.rs:396-399 *)
  Fixpoint ones_from (fuel : nat) (b : bits_from) (q : N) : rd_outcome N :=
    match fuel with
    | O => None
    | S fuel' => rd_bind (read_from b 1) (fun v b => if v =? 1 then if U64 <=? q + 1 then Some Panic else ones_from fuel' b (q + 1) else Some (Ret (Ok q, b)))
    end.
  (** bip158.rs:392-402 *)
  Definition golomb_from (p : N) (b : bits_from) : rd_outcome N :=
    rd_bind (ones_from f b 0) (fun q b =>
    rd_bind (read_from b p) (fun low b =>
      if 64 <=? p then Some Panic else
      let s := N.shiftl q p mod U64 + low in
      if U64 <=? s then Some Panic else Some (Ret (Ok s, b)))).
  (** bip158.rs:243-255 *)
  Fixpoint advance_from (gp : N) (remaining : nat) (b : bits_from) (data p : N) : rd_outcome (option (nat * N)) :=
    if p <=? data then Some (Ret (Ok (Some (remaining, data)), b)) else
    match remaining with
    | O => Some (Ret (Ok None, b))
    | S rem => rd_bind (golomb_from gp b) (fun d b => if U64 <=? data + d then Some Panic else advance_from gp rem b (data + d) p)
    end.
  (** bip158.rs:242-257 *)
  Fixpoint any_from (gp : N) (mapped : list N) (remaining : nat) (b : bits_from) (data : N) : rd_outcome bool :=
    match mapped with
    | [] => Some (Ret (Ok false, b))
    | p :: mapped' =>
        rd_bind (advance_from gp remaining b data p) (fun x b =>
        match x with
        | None => Some (Ret (Ok false, b))
        | Some (rem, data) => if data =? p then Some (Ret (Ok true, b)) else any_from gp mapped' rem b data
        end)
    end.
  (** bip158.rs:287-302 *)
  Fixpoint all_from (gp : N) (mapped : list N) (remaining : nat) (b : bits_from) (data : N) : rd_outcome bool :=
    match mapped with
    | [] => Some (Ret (Ok true, b))
    | p :: mapped' =>
        rd_bind (advance_from gp remaining b data p) (fun x b =>
        match x with
        | None => Some (Ret (Ok false, b))
        | Some (rem, data) => if data =? p then all_from gp mapped' rem b data else Some (Ret (Ok false, b))
        end)
    end.
  (** bip158.rs:223-241 and 267-286 *)
  Definition with_reader (g : gcs) (query : list bytes) (st : rstate R) (k : N -> list N -> rstate R -> option (rust (result bool match_err))) : option (rust (result bool match_err)) :=
    match decode_from_read R cs_u64_dec f st with
    | None => None
    | Some Panic => Some Panic
    | Some (Ret (Err e, _)) => Some (Ret (Err (MfCount e)))
    | Some (Ret (Ok n, st)) =>
        if U64 <=? n * g_m g then Some Panic else
        match map_elements g (n * g_m g) query with
        | Panic => Some Panic
        | Ret mapped => k n (sort_n mapped) st
        end
    end.
  Definition answer (x : rd_outcome bool) : option (rust (result bool match_err)) :=
    match x with
    | None => None
    | Some Panic => Some Panic
    | Some (Ret (Ok a, _)) => Some (Ret (Ok a))
    | Some (Ret (Err e, _)) => Some (Ret (Err (MfIo e)))
    end.
  Definition start_from (g : gcs) (loop : N -> list N -> nat -> bits_from -> N -> rd_outcome bool) (n : N) (mapped : list N) (st : rstate R) : option (rust (result bool match_err)) :=
    answer (rd_bind (golomb_from (g_p g) (bits_of_reader st)) (fun data b => loop (g_p g) mapped (N.to_nat (n - 1)) b data)).
  (** bip158.rs:217-258 *)
  Definition match_any_from (g : gcs) (query : list bytes) (st : rstate R) : option (rust (result bool match_err)) :=
    with_reader g query st (fun n mapped st =>
      match mapped with
      | [] => Some (Ret (Ok false))
      | _ => if n =? 0 then Some (Ret (Ok false)) else start_from g any_from n mapped st
      end).
  (** bip158.rs:261-303 *)
  Definition match_all_from (g : gcs) (query : list bytes) (st : rstate R) : option (rust (result bool match_err)) :=
    with_reader g query st (fun n mapped st =>
      match dedup mapped with
      | [] => Some (Ret (Ok true))
      | _ => if n =? 0 then Some (Ret (Ok false)) else start_from g all_from n (dedup mapped) st
      end).
End Reader.
Arguments mk_bf {R}. Arguments bf_buf {R}. Arguments bf_off {R}. Arguments bf_r {R}.
