(** Compact block filters written to any writer: bitcoin/src/bip158.rs:317-390, 456-500.  MBip158.v has the same functions writing to
    a vector.  [f] is fuel for the loops of the io crate; None means that it, or a loop's own fuel, ran out.  The counts returned are
    not bounded by usize. *)
From Verif Require Import Base MDec MWitness MTx MBip152 MEnc MBip158 MIo MIoDrive.
Local Open Scope N_scope.

(** An io::Error: the writer's, or the one bip158.rs:469-474 makes *)
Inductive fw_err := FwIo (k : kind) | FwTooManyBits.

Section Writer.
  Variable W : writer.
  Variable f : nat.
  (** bip158.rs:457-461 *)
  Record bits_to := mk_bt { bt_buf : N; bt_off : N; bt_w : wstate W }.
  (** bip158.rs:465 *)
  Definition bits_new (w : wstate W) : bits_to := mk_bt 0 0 w.
  (** what a method returns, and the stream afterwards *)
  Definition outcome (A : Type) : Type := option (rust (result A fw_err * bits_to)).
  (** the [?] operator *)
  Definition fbind {A B} (x : outcome A) (k : A -> bits_to -> outcome B) : outcome B :=
    match x with
    | None => None
    | Some Panic => Some Panic
    | Some (Ret (Err e, b)) => Some (Ret (Err e, b))
    | Some (Ret (Ok a, b)) => k a b
    end.
  (** bip158.rs:489-498: the byte stays in the buffer when it cannot be written *)
  Definition flush_to (b : bits_to) : outcome N :=
    if 0 <? bt_off b then
      match MIo.write_all W f (bt_w b) [bt_buf b] with
      | None => None
      | Some Panic => Some Panic
      | Some (Ret (Err k, w)) => Some (Ret (Err (FwIo k), mk_bt (bt_buf b) (bt_off b) w))
      | Some (Ret (Ok _, w)) => Some (Ret (Ok 1, mk_bt 0 0 w))
      end
    else Some (Ret (Ok 0, b)).
  (** bip158.rs:476-484; the shift right by 64 or more overflows *)
  Fixpoint write_loop_to (fuel : nat) (b : bits_to) (data nbits wrote : N) : outcome N :=
    if nbits =? 0 then Some (Ret (Ok wrote, b)) else
    match fuel with
    | O => None
    | S fuel' =>
        if 64 <=? 56 + bt_off b then Some Panic else
        let bits := N.min (8 - bt_off b) nbits in
        let buf := N.lor (bt_buf b) (N.shiftr (N.shiftl data (64 - nbits) mod U64) (56 + bt_off b) mod 256) in
        let b := mk_bt buf (bt_off b + bits) (bt_w b) in
        let nbits := nbits - bits in
        if bt_off b =? 8 then fbind (flush_to b) (fun n b => write_loop_to fuel' b data nbits (wrote + n))
        else write_loop_to fuel' b data nbits wrote
    end.
  (** bip158.rs:468-486 *)
  Definition write_to (b : bits_to) (data nbits : N) : outcome N :=
    if 64 <? nbits then Some (Ret (Err FwTooManyBits, b)) else write_loop_to (N.to_nat nbits) b data nbits 0.
  (** bip158.rs:380-385 *)
  Fixpoint ones_to (fuel : nat) (b : bits_to) (q wrote : N) : outcome N :=
    if q =? 0 then Some (Ret (Ok wrote, b)) else
    match fuel with
    | O => None
    | S fuel' =>
        let nbits := N.min q 64 in
        fbind (write_to b (U64 - 1) nbits) (fun n b => ones_to fuel' b (q - nbits) (wrote + n))
    end.
  (** bip158.rs:371-389; a shift by 64 or more overflows *)
  Definition golomb_to (p : N) (b : bits_to) (n : N) : outcome N :=
    if 64 <=? p then Some Panic else
    fbind (ones_to (N.to_nat (N.shiftr n p)) b (N.shiftr n p) 0) (fun x b =>
    fbind (write_to b 0 1) (fun y b =>
    fbind (write_to b n p) (fun z b => Some (Ret (Ok (x + y + z), b))))).
  (** bip158.rs:350-353 *)
  Fixpoint deltas_to (p : N) (b : bits_to) (last : N) (l : list N) (wrote : N) : outcome N :=
    match l with
    | [] => Some (Ret (Ok wrote, b))
    | d :: l' => if d <? last then Some Panic else fbind (golomb_to p b (d - last)) (fun n b => deltas_to p b d l' (wrote + n))
    end.
  (** GcsFilterWriter::finish bip158.rs:331-356: the number of bytes written or the error, and the writer *)
  Definition finish_to (g : gcs) (els : list bytes) (w : wstate W) : option (rust (result N fw_err * wstate W)) :=
    let n := lenN els in
    if U64 <=? n * g_m g then Some Panic else
    match map_elements g (n * g_m g) els with
    | Panic => Some Panic
    | Ret mapped =>
        let cs := cs_encode (lenN mapped) in
        match drain_to_writer W f f (EBytes cs) w with
        | None => None
        | Some Panic => Some Panic
        | Some (Ret (Err k, w)) => Some (Ret (Err (FwIo k), w))
        | Some (Ret (Ok _, w)) =>
            match fbind (deltas_to (g_p g) (bits_new w) 0 (sort_n mapped) (lenN cs)) (fun a b => fbind (flush_to b) (fun k b => Some (Ret (Ok (a + k), b)))) with
            | None => None
            | Some Panic => Some Panic
            | Some (Ret (r, b)) => Some (Ret (r, bt_w b))
            end
        end
    end.
End Writer.
Arguments mk_bt {W}. Arguments bt_buf {W}. Arguments bt_off {W}. Arguments bt_w {W}.

Section Coins.
  Context {E : Type} (coin : outpoint -> result bytes E).
  (** What BlockFilter::new_script_filter (bip158.rs:73-89) does, with the caller's writer in place of a vector: BlockFilterWriter
      bip158.rs:115-166.  On success the number of bytes written. *)
  Inductive block_err := BlCoin (e : E) | BlIo (e : fw_err).
  Definition block_filter_to (sha256d : bytes -> bytes) (W : writer) (f : nat) (b : block) (w : wstate W) : option (rust (result N block_err * wstate W)) :=
    match add_input_scripts coin b (add_output_scripts b []) with
    | Err e => Some (Ret (Err (BlCoin e), w))
    | Ok els =>
        match finish_to W f (block_gcs (sha256d (header_encode (b_header b)))) els w with
        | None => None
        | Some Panic => Some Panic
        | Some (Ret (Ok n, w)) => Some (Ret (Ok n, w))
        | Some (Ret (Err e, w)) => Some (Ret (Err (BlIo e), w))
        end
    end.
End Coins.
