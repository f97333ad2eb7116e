(** Model of the encoders of the consensus_encoding crate, and of the [encoder()] of the primitives.
    Files: consensus_encoding/src/encode/{encoders,iter,mod}.rs, primitives/src/{transaction,block,witness}.rs. *)
From Verif Require Import Base MDec MWitness MTx.
Local Open Scope N_scope.

(** The state of an encoder.
    [EBytes]: BytesEncoder, ArrayEncoder, ArrayRefEncoder (encoders.rs:20-117) and CompactSizeEncoder
    (compact_size.rs:39-127).
    [EOpt]: Option<T> (mod.rs:475-485).
    [EIter]: IterEncoder's EncoderState (iter.rs:42-58); [remaining] is the list of the encoders the
    iterator would still produce.  Also WitnessesEncoder (transaction.rs:699-703), whose [inputs[1..]]
    are the remaining ones.
    [EN]: Encoder2, 3, 4, 6 (encoders.rs:199-202) with its fields as a list.
    The newtypes made by encoder_newtype! only forward. *)
Inductive enc :=
| EBytes (sl : bytes)
| EOpt (o : option enc)
| EIter (state : option (enc * list enc))
| EN (cur_idx : nat) (encs : list enc).

(** current_chunk: encoders.rs:30, 81, 108, 213-218; iter.rs:115-120; mod.rs:476; transaction.rs:716-718 *)
Fixpoint chunk (e : enc) : rust bytes :=
  match e with
  | EBytes b => Ret b
  | EOpt None => Ret []
  | EOpt (Some e) => chunk e
  | EIter None => Ret []
  | EIter (Some (c, _)) => chunk c
  | EN i es =>
      (fix at_ (es : list enc) (i : nat) : rust bytes :=
         match es, i with
         | [], _ => Panic (* unreachable!() *)
         | e :: _, O => chunk e
         | _ :: es', S i' => at_ es' i'
         end) es i
  end.

(** advance; true is HasMore.  encoders.rs:32, 84, 111, 221-238; iter.rs:122-144; mod.rs:478-480;
    transaction.rs:721-746 (same loop as iter.rs). *)
Fixpoint adv (e : enc) : rust (enc * bool) :=
  match e with
  | EBytes b => Ret (EBytes b, false)
  | EOpt None => Ret (EOpt None, false)
  | EOpt (Some e) => rbind (adv e) (fun '(e', m) => Ret (EOpt (Some e'), m))
  | EIter None => Ret (EIter None, false)
  | EIter (Some (c, rem)) =>
      (fix go (r : rust (enc * bool)) (rem : list enc) {struct rem} : rust (enc * bool) :=
         rbind r (fun '(c', m) =>
         if m : bool then Ret (EIter (Some (c', rem)), true)
         else match rem with
              | [] => Ret (EIter None, false)
              | n :: rem' => rbind (chunk n) (fun ch =>
                  match ch with
                  | [] => go (adv n) rem'
                  | _ => Ret (EIter (Some (n, rem')), true)
                  end)
              end)) (adv c) rem
  | EN i es =>
      (* the element at [i] advanced, and whether it is the last one *)
      rbind ((fix at_ (es : list enc) (i : nat) {struct es} : rust (option (list enc * bool * bool)) :=
         match es, i with
         | [], _ => Ret None
         | e :: es', O => rbind (adv e) (fun '(e', m) => Ret (Some (e' :: es', m, match es' with [] => true | _ => false end)))
         | e :: es', S i' => rbind (at_ es' i') (fun o =>
             Ret match o with Some (es'', m, last) => Some (e :: es'', m, last) | None => None end)
         end) es i) (fun o =>
      match o with
      | None => Ret (EN i es, false)
      | Some (es', m, true) => Ret (EN i es', m)
      | Some (es', m, false) => Ret (EN (if m then i else S i) es', true)
      end)
  end.

(** IterEncoder::new, iter.rs:65-80: encoders whose first chunk is empty are dropped up to the first
    one that has bytes.  SliceEncoder::without_length_prefix, encoders.rs:126. *)
Fixpoint iter_new (es : list enc) : rust enc :=
  match es with
  | [] => Ret (EIter None)
  | e :: es' => rbind (chunk e) (fun ch => match ch with [] => iter_new es' | _ => Ret (EIter (Some (e, es'))) end)
  end.
(** PrefixedSliceEncoder::new encoders.rs:158-163, PrefixedBytesEncoder::new :47-52 *)
Definition prefixed_slice (es : list enc) : rust enc :=
  rbind (iter_new es) (fun it => Ret (EN 0 [EBytes (cs_encode (lenN es)); it])).
Definition prefixed_bytes (b : bytes) : enc := EN 0 [EBytes (cs_encode (lenN b)); EBytes b].
(** WitnessesEncoder::new transaction.rs:708-710 *)
Definition witnesses_new (es : list enc) : enc :=
  EIter (match es with [] => None | e :: es' => Some (e, es') end).

(** ExactSizeEncoder::len: encoders.rs:37, 65, 89, 116, 246-248; compact_size.rs:126; mod.rs:484.
    IterEncoder has none (0 here, never used). *)
Fixpoint exact_len (e : enc) : N :=
  match e with
  | EBytes b => lenN b
  | EOpt None => 0
  | EOpt (Some e) => exact_len e
  | EIter _ => 0
  | EN _ es => (fix sum (es : list enc) : N := match es with [] => 0 | e :: es' => exact_len e + sum es' end) es
  end.

(** mod.rs:330-342 drain_to_vec (encode_to_vec :320 is this on a fresh encoder).  [None]: out of
    fuel. *)
Fixpoint drain_to_vec (fuel : nat) (e : enc) : option (rust bytes) :=
  match fuel with
  | O => None
  | S fuel' =>
      match chunk e with
      | Panic => Some Panic
      | Ret ch =>
          match adv e with
          | Panic => Some Panic
          | Ret (_, false) => Some (Ret ch)
          | Ret (e', true) =>
              match drain_to_vec fuel' e' with
              | Some (Ret l) => Some (Ret (ch ++ l))
              | r => r
              end
          end
      end
  end.

(** mod.rs:395-407 drain_to_writer over any writer. *)
Fixpoint drain_to_writer {W IoE} (write_all : W -> bytes -> W * result unit IoE) (fuel : nat) (e : enc) (w : W)
  : option (rust (W * result unit IoE)) :=
  match fuel with
  | O => None
  | S fuel' =>
      match chunk e with
      | Panic => Some Panic
      | Ret ch =>
          match write_all w ch with
          | (w', Err x) => Some (Ret (w', Err x))
          | (w', Ok _) =>
              match adv e with
              | Panic => Some Panic
              | Ret (_, false) => Some (Ret (w', Ok tt))
              | Ret (e', true) => drain_to_writer write_all fuel' e' w'
              end
          end
      end
  end.

(** mod.rs:439-473 check_encoder *)
Fixpoint strip (a b : bytes) : option bytes :=
  match a, b with
  | [], _ => Some b
  | x :: a', y :: b' => if x =? y then strip a' b' else None
  | _ :: _, [] => None
  end.
Fixpoint check_encoder (fuel : nat) (e : enc) (expected : bytes) : option (rust unit) :=
  match fuel with
  | O => None
  | S fuel' =>
      match chunk e with
      | Panic => Some Panic
      | Ret ch =>
          match strip ch expected with
          | None => Some Panic
          | Some expected' =>
              match adv e with
              | Panic => Some Panic
              | Ret (_, false) => Some (match expected' with [] => Ret tt | _ => Panic end)
              | Ret (e', true) => check_encoder fuel' e' expected'
              end
          end
      end
  end.

(** mod.rs:214-222 EncoderByteIter *)
Record biter := { bi_enc : enc; bi_pos : N }.
Definition biter_new (e : enc) : biter := {| bi_enc := e; bi_pos := 0 |}.
Definition getN (l : bytes) (i : N) : option N := nth_error l (N.to_nat i).
(** mod.rs:254-266 next *)
Fixpoint bi_next (fuel : nat) (s : biter) : option (rust (biter * option N)) :=
  match fuel with
  | O => None
  | S fuel' =>
      match chunk (bi_enc s) with
      | Panic => Some Panic
      | Ret ch =>
          match getN ch (bi_pos s) with
          | Some b => Some (Ret ({| bi_enc := bi_enc s; bi_pos := bi_pos s + 1 |}, Some b))
          | None =>
              match adv (bi_enc s) with
              | Panic => Some Panic
              | Ret (e', false) => Some (Ret ({| bi_enc := e'; bi_pos := bi_pos s |}, None))
              | Ret (e', true) => bi_next fuel' {| bi_enc := e'; bi_pos := 0 |}
              end
          end
      end
  end.
(** mod.rs:268-293 nth *)
Fixpoint bi_nth_loop (fuel : nat) (e : enc) (pos n : N) : option (rust (biter * option N)) :=
  match fuel with
  | O => None
  | S fuel' =>
      match chunk e with
      | Panic => Some Panic
      | Ret ch =>
          match getN ch n with
          | Some b => Some (Ret ({| bi_enc := e; bi_pos := n + 1 |}, Some b))
          | None =>
              if n <? lenN ch then Some Panic
              else match adv e with
                   | Panic => Some Panic
                   | Ret (e', false) => Some (Ret ({| bi_enc := e'; bi_pos := pos |}, None))
                   | Ret (e', true) => bi_nth_loop fuel' e' pos (n - lenN ch)
                   end
          end
      end
  end.
Definition bi_nth (fuel : nat) (s : biter) (n : N) : option (rust (biter * option N)) :=
  match chunk (bi_enc s) with
  | Panic => Some Panic
  | Ret ch =>
      match (if bi_pos s + n <? USIZE then getN ch (bi_pos s + n) else None) with
      | Some b => Some (Ret ({| bi_enc := bi_enc s; bi_pos := bi_pos s + n + 1 |}, Some b))
      | None =>
          if lenN ch <? bi_pos s then Some Panic
          else if n <? lenN ch - bi_pos s then Some Panic
          else match adv (bi_enc s) with
               | Panic => Some Panic
               | Ret (e', false) => Some (Ret ({| bi_enc := e'; bi_pos := bi_pos s |}, None))
               | Ret (e', true) => bi_nth_loop fuel e' (bi_pos s) (n - (lenN ch - bi_pos s))
               end
      end
  end.
(** mod.rs:233-248 peek_chunk *)
Fixpoint bi_peek_loop (fuel : nat) (s : biter) : option (rust (biter * bytes)) :=
  match fuel with
  | O => None
  | S fuel' =>
      match adv (bi_enc s) with
      | Panic => Some Panic
      | Ret (e', false) => Some (Ret ({| bi_enc := e'; bi_pos := bi_pos s |}, []))
      | Ret (e', true) =>
          match chunk e' with
          | Panic => Some Panic
          | Ret [] => bi_peek_loop fuel' {| bi_enc := e'; bi_pos := bi_pos s |}
          | Ret ch => Some (Ret ({| bi_enc := e'; bi_pos := 0 |}, ch))
          end
      end
  end.
Definition bi_peek (fuel : nat) (s : biter) : option (rust (biter * bytes)) :=
  match chunk (bi_enc s) with
  | Panic => Some Panic
  | Ret ch =>
      if bi_pos s <? lenN ch then Some (Ret (s, dropN (bi_pos s) ch)) else bi_peek_loop fuel s
  end.
(** mod.rs:300 ExactSizeIterator::len *)
Definition bi_len (s : biter) : rust N :=
  if exact_len (bi_enc s) <? bi_pos s then Panic else Ret (exact_len (bi_enc s) - bi_pos s).
(** collecting the iterator *)
Fixpoint bi_collect (fuel : nat) (s : biter) : option (rust bytes) :=
  match fuel with
  | O => None
  | S fuel' =>
      match bi_next fuel s with
      | None => None
      | Some Panic => Some Panic
      | Some (Ret (_, None)) => Some (Ret [])
      | Some (Ret (s', Some b)) =>
          match bi_collect fuel' s' with
          | Some (Ret l) => Some (Ret (b :: l))
          | r => r
          end
      end
  end.

(** ** The encoders of the primitives *)
Fixpoint rmapM {A B} (f : A -> rust B) (l : list A) : rust (list B) :=
  match l with
  | [] => Ret []
  | x :: l' => rbind (f x) (fun y => rbind (rmapM f l') (fun ys => Ret (y :: ys)))
  end.
(** transaction.rs:1001-1006 *)
Definition outpoint_encoder (o : outpoint) : enc := EN 0 [EBytes (op_txid o); EBytes (le_bytes 4 (op_vout o))].
(** script/borrowed.rs:340-342 *)
Definition script_encoder (s : bytes) : enc := prefixed_bytes s.
(** transaction.rs:813-819 *)
Definition txin_encoder (i : txin) : enc :=
  EN 0 [outpoint_encoder (ti_prevout i); script_encoder (ti_script i); EBytes (le_bytes 4 (ti_sequence i))].
(** transaction.rs:884-886 *)
Definition txout_encoder (o : txout) : enc := EN 0 [EBytes (le_bytes 8 (to_amount o)); script_encoder (to_script o)].
(** witness.rs:281-287 *)
Definition witness_encoder (w : witness) : rust enc :=
  if lenN (wt_content w) <? wt_start w then Panic
  else Ret (EN 0 [EBytes (cs_encode (wit_len w)); EBytes (takeN (wt_start w) (wt_content w))]).
(** transaction.rs:378-398 *)
Definition tx_encoder (tx : transaction) : rust enc :=
  rbind (prefixed_slice (map txin_encoder (tx_inputs tx))) (fun inputs =>
  rbind (prefixed_slice (map txout_encoder (tx_outputs tx))) (fun outputs =>
  let version := EBytes (le_bytes 4 (tx_version tx)) in
  let lock_time := EBytes (le_bytes 4 (tx_lock_time tx)) in
  if uses_segwit tx then
    rbind (rmapM (fun i => witness_encoder (ti_witness i)) (tx_inputs tx)) (fun ws =>
    Ret (EN 0 [version; EOpt (Some (EBytes [0; 1])); inputs; outputs; EOpt (Some (witnesses_new ws)); lock_time]))
  else Ret (EN 0 [version; EOpt None; inputs; outputs; EOpt None; lock_time]))).
(** block.rs:543-552 *)
Definition header_encoder (h : header) : enc :=
  EN 0 [EBytes (le_bytes 4 (h_version h)); EBytes (h_prev h); EBytes (h_merkle h);
        EBytes (le_bytes 4 (h_time h)); EBytes (le_bytes 4 (h_bits h)); EBytes (le_bytes 4 (h_nonce h))].
(** block.rs:354-359 *)
Definition block_encoder (b : block) : rust enc :=
  rbind (rmapM tx_encoder (b_txs b)) (fun txs =>
  rbind (prefixed_slice txs) (fun sl => Ret (EN 0 [header_encoder (b_header b); sl]))).
