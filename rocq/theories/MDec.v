(** Model of the push decoders of the consensus_encoding crate.
    Files: consensus_encoding/src/compact_size.rs, consensus_encoding/src/decode/decoders.rs,
    consensus_encoding/src/decode/mod.rs, include/decoder_newtype.rs. *)
From Verif Require Import Base.
Local Open Scope N_scope.

(** decode/mod.rs:112-123 DecoderStatus, wrapped in the [Result] of [push_bytes] and extended
    with an explicit panic. *)
Inductive pstatus (E : Type) := NeedsMore | Ready | PErr (e : E) | PPanic.
Arguments NeedsMore {E}.
Arguments Ready {E}.
Arguments PErr {E} _.
Arguments PPanic {E}.

(** decode/mod.rs:53-105 trait Decoder.  [push s l] is [push_bytes(&mut self, bytes: &mut &[u8])]:
    it returns the new state, the bytes left in the slice, and the status.  [lim] is
    [read_limit] ([usize] overflow of sums of limits is not modelled).  [init] is the value of
    [T::decoder()] / [Default]. *)
Record decoder (A E : Type) := MkDecoder {
  st : Type;
  init : st;
  push : st -> bytes -> st * bytes * pstatus E;
  fin : st -> rust (result A E);
  lim : st -> N }.
Arguments st {A E} _.
Arguments init {A E} _.
Arguments push {A E} _ _ _.
Arguments fin {A E} _ _.
Arguments lim {A E} _ _.
Arguments MkDecoder {A E} _ _ _ _ _.

(** [take n l] / [drop n l] with a binary count: slices [l[..n]] and [l[n..]] for n <= len. *)
Definition takeN {A} (n : N) (l : list A) : list A := firstn (N.to_nat n) l.
Definition dropN {A} (n : N) (l : list A) : list A := skipn (N.to_nat n) l.

(** ** ArrayDecoder<N>: decode/decoders.rs:426-475.  The buffer [u8; N] with [bytes_written] is
    kept as the list of the bytes written so far. *)
Definition eof_err := N. (* UnexpectedEofError { missing } *)

Definition array_push (n : N) (s : bytes) (l : bytes) : bytes * bytes * pstatus eof_err :=
  if n <? lenN s then (s, l, PPanic) else
  let remaining_space := n - lenN s in
  let copy_len := N.min (lenN l) remaining_space in
  let s' := s ++ takeN copy_len l in
  let l' := dropN copy_len l in
  if lenN s' <? n then (s', l', NeedsMore) else (s', l', Ready).

Definition array_fin (n : N) (s : bytes) : rust (result bytes eof_err) :=
  if lenN s =? n then Ret (Ok s) else Ret (Err (n - lenN s)).

Definition array_dec (n : N) : decoder bytes eof_err :=
  {| st := bytes; init := []; push := array_push n; fin := array_fin n;
     lim := fun s => n - lenN s |}.

(** ** CompactSize: compact_size.rs:25-35, 91-113, 237-319 *)
Definition MAX_COMPACT_SIZE : N := 33554432. (* 0x0200_0000 *)

(** compact_size.rs:91-113 [encode]; [value as u16/u32] casts are the [mod]. *)
Definition cs_encode (v : N) : bytes :=
  if v <=? 252 then [v mod 256]
  else if v <=? 65535 then 253 :: le_bytes 2 (v mod 65536)
  else if v <=? 4294967295 then 254 :: le_bytes 4 (v mod 4294967296)
  else 255 :: le_bytes 8 v.

(** compact_size.rs:80-87 *)
Definition cs_encoded_size (v : N) : N :=
  if v <=? 252 then 1 else if v <=? 65535 then 3 else if v <=? 4294967295 then 5 else 9.

Inductive cs_err :=
| CsEof (required received : N)
| CsNonMinimal (v : N)
| CsExceeds (limit value : N).

(** compact_size.rs:246-251 *)
Definition cs_len (b : N) : N := if b =? 255 then 9 else if b =? 254 then 5 else if b =? 253 then 3 else 1.

(** compact_size.rs:237-261 [compact_size_push_bytes] *)
Definition cs_push (buf : bytes) (l : bytes) : bytes * bytes * pstatus cs_err :=
  match l with
  | [] => (buf, l, NeedsMore)
  | x :: l' =>
      let '(buf1, l1) := match buf with [] => ([x], l') | _ => (buf, l) end in
      let len := cs_len (hd 0 buf1) in
      if len <? lenN buf1 then (buf1, l1, PPanic) else
      let to_copy := N.min (lenN l1) (len - lenN buf1) in
      let buf2 := buf1 ++ takeN to_copy l1 in
      let l2 := dropN to_copy l1 in
      if lenN buf2 =? len then (buf2, l2, Ready) else (buf2, l2, NeedsMore)
  end.

(** compact_size.rs:264-274 *)
Definition cs_lim (buf : bytes) : N :=
  match buf with
  | [] => 1
  | b :: _ => if b =? 255 then 9 - lenN buf else if b =? 254 then 5 - lenN buf
              else if b =? 253 then 3 - lenN buf else 0
  end.

(** compact_size.rs:280-285: slice to array of length n *)
Definition cs_arr (n : N) (p : bytes) : result N cs_err :=
  if lenN p =? n then Ok (le_val p) else Err (CsEof n (lenN p)).

(** compact_size.rs:277-319 *)
Definition cs_decode_u64 (buf : bytes) : result N cs_err :=
  match buf with
  | [] => Err (CsEof 1 0)
  | first :: payload =>
      if first =? 255 then
        match cs_arr 8 payload with
        | Ok x => if x <? 4294967296 then Err (CsNonMinimal x) else Ok x
        | Err e => Err e end
      else if first =? 254 then
        match cs_arr 4 payload with
        | Ok x => if x <? 65536 then Err (CsNonMinimal x) else Ok x
        | Err e => Err e end
      else if first =? 253 then
        match cs_arr 2 payload with
        | Ok x => if x <? 253 then Err (CsNonMinimal x) else Ok x
        | Err e => Err e end
      else Ok first
  end.

(** compact_size.rs:171-183; usize is 64 bits, so [usize::try_from] succeeds. *)
Definition cs_fin (limit : N) (buf : bytes) : result N cs_err :=
  match cs_decode_u64 buf with
  | Ok v => if v <=? limit then Ok v else Err (CsExceeds limit v)
  | Err e => Err e
  end.

(** compact_size.rs:142-186 CompactSizeDecoder (new_with_limit; [new] is MAX_COMPACT_SIZE) *)
Definition cs_dec (limit : N) : decoder N cs_err :=
  {| st := bytes; init := []; push := cs_push; fin := fun b => Ret (cs_fin limit b); lim := cs_lim |}.
(** compact_size.rs:206-234 CompactSizeU64Decoder *)
Definition cs_u64_dec : decoder N cs_err :=
  {| st := bytes; init := []; push := cs_push; fin := fun b => Ret (cs_decode_u64 b); lim := cs_lim |}.

(** ** ByteVecDecoder: decode/decoders.rs:22-142.  [bv_cap] is the Vec's capacity; reserve_exact
    is taken to reserve exactly what is asked (the documentation allows more). *)
Definition MAX_VECTOR_ALLOCATE : N := 1000000.
Definition MAX_VEC_SIZE : N := 4000000.

Record bv_state := {
  bv_prefix : option bytes;
  bv_buffer : bytes;
  bv_expected : N;
  bv_written : N;
  bv_cap : N }.

Inductive bv_err := BvPrefix (e : cs_err) | BvEof (missing : N).

(** decoders.rs:70-76 *)
Definition bv_reserve (s : bv_state) : bv_state :=
  if lenN (bv_buffer s) =? bv_cap s
  then {| bv_prefix := bv_prefix s; bv_buffer := bv_buffer s; bv_expected := bv_expected s;
          bv_written := bv_written s;
          bv_cap := lenN (bv_buffer s) + N.min (bv_expected s - bv_written s) MAX_VECTOR_ALLOCATE |}
  else s.

(** decoders.rs:105-119 *)
Definition bv_copy (s0 : bv_state) (l : bytes) : bv_state * bytes * pstatus bv_err :=
  if bv_expected s0 <? bv_written s0 then (s0, l, PPanic) else
  let s := bv_reserve s0 in
  let remaining := bv_expected s - bv_written s in
  let available := bv_cap s - lenN (bv_buffer s) in
  let copy_len := N.min (N.min (lenN l) remaining) available in
  let s' := {| bv_prefix := bv_prefix s; bv_buffer := bv_buffer s ++ takeN copy_len l;
               bv_expected := bv_expected s; bv_written := bv_written s + copy_len;
               bv_cap := bv_cap s |} in
  let l' := dropN copy_len l in
  if bv_written s' <? bv_expected s' then (s', l', NeedsMore) else (s', l', Ready).

(** decoders.rs:89-103: the prefix decoder is taken out, and put back only when it needs more. *)
Definition bv_push (limit : N) (s : bv_state) (l : bytes) : bv_state * bytes * pstatus bv_err :=
  match bv_prefix s with
  | Some p =>
      let put q n := {| bv_prefix := q; bv_buffer := bv_buffer s; bv_expected := n;
                        bv_written := bv_written s; bv_cap := bv_cap s |} in
      match cs_push p l with
      | (p', l', NeedsMore) => (put (Some p') (bv_expected s), l', NeedsMore)
      | (p', l', PErr e) => (put None (bv_expected s), l', PErr (BvPrefix e))
      | (p', l', PPanic) => (put None (bv_expected s), l', PPanic)
      | (p', l', Ready) =>
          match cs_fin limit p' with
          | Ok n => bv_copy (put None n) l'
          | Err e => (put None (bv_expected s), l', PErr (BvPrefix e))
          end
      end
  | None => bv_copy s l
  end.

(** decoders.rs:122-135 *)
Definition bv_fin (s : bv_state) : rust (result bytes bv_err) :=
  match bv_prefix s with
  | Some p => Ret (Err (BvEof (cs_lim p)))
  | None => if bv_written s =? bv_expected s then Ret (Ok (bv_buffer s))
            else Ret (Err (BvEof (bv_expected s - bv_written s)))
  end.

(** decoders.rs:137-141 *)
Definition bv_lim (s : bv_state) : N :=
  match bv_prefix s with Some p => cs_lim p | None => bv_expected s - bv_written s end.

Definition bv_init : bv_state :=
  {| bv_prefix := Some []; bv_buffer := []; bv_expected := 0; bv_written := 0; bv_cap := 0 |}.

(** decoders.rs:47-57 *)
Definition bytevec_dec (limit : N) : decoder bytes bv_err :=
  {| st := bv_state; init := bv_init; push := bv_push limit; fin := bv_fin; lim := bv_lim |}.

(** ** ExactVecDecoderWith<D>: decode/decoders.rs:150-268.  [length] is the number of items
    wanted; the capacity/[reserve] is modelled separately (MAlloc.v) as it does not affect
    the result. *)
Inductive vec_err (E : Type) := VecPrefix (e : cs_err) | VecItem (e : E) | VecEof (missing : N).
Arguments VecPrefix {E} _.
Arguments VecItem {E} _.
Arguments VecEof {E} _.

Section Vec.
Context {A E : Type} (D : decoder A E).

Record ev_state := { ev_length : N; ev_buffer : list A; ev_decoder : option (st D) }.

(** decoders.rs:221-241: the [while !bytes.is_empty()] loop; one iteration per item, so at most
    [length - buffer.len()] iterations, used as the recursion argument. *)
Fixpoint ev_loop (k : nat) (s : ev_state) (l : bytes) : ev_state * bytes * pstatus (vec_err E) :=
  match l with
  | [] => if lenN (ev_buffer s) =? ev_length s then (s, l, Ready) else (s, l, NeedsMore)
  | _ :: _ =>
      match k with
      | O => (s, l, PPanic) (* not reachable: the loop has returned before *)
      | S k' =>
          let d := match ev_decoder s with Some d => d | None => init D end in
          match push D d l with
          | (d', l', PErr e) => ({| ev_length := ev_length s; ev_buffer := ev_buffer s; ev_decoder := None |},
                                 l', PErr (VecItem e))
          | (d', l', PPanic) => (s, l', PPanic)
          | (d', l', NeedsMore) =>
              ({| ev_length := ev_length s; ev_buffer := ev_buffer s; ev_decoder := Some d' |},
               l', NeedsMore)
          | (d', l', Ready) =>
              match fin D d' with
              | Panic => (s, l', PPanic)
              | Ret (Err e) =>
                  ({| ev_length := ev_length s; ev_buffer := ev_buffer s; ev_decoder := None |},
                   l', PErr (VecItem e))
              | Ret (Ok a) =>
                  let s' := {| ev_length := ev_length s; ev_buffer := ev_buffer s ++ [a];
                               ev_decoder := None |} in
                  if lenN (ev_buffer s') =? ev_length s' then (s', l', Ready)
                  else ev_loop k' s' l'
              end
          end
      end
  end.

(** decoders.rs:213-219 *)
Definition ev_push (s : ev_state) (l : bytes) : ev_state * bytes * pstatus (vec_err E) :=
  if lenN (ev_buffer s) =? ev_length s then (s, l, Ready)
  else ev_loop (N.to_nat (ev_length s - lenN (ev_buffer s))) s l.

(** decoders.rs:244-254 *)
Definition ev_fin (s : ev_state) : rust (result (list A) (vec_err E)) :=
  if lenN (ev_buffer s) =? ev_length s then Ret (Ok (ev_buffer s))
  else Ret (Err (VecEof (ev_length s - lenN (ev_buffer s)))).

(** decoders.rs:256-267 *)
Definition ev_lim (s : ev_state) : N :=
  match ev_decoder s with
  | Some d => lim D d
  | None => if lenN (ev_buffer s) =? ev_length s then 0
            else (ev_length s - lenN (ev_buffer s)) * lim D (init D)
  end.

Definition ev_new (n : N) : ev_state := {| ev_length := n; ev_buffer := []; ev_decoder := None |}.

Definition exactvec_dec (n : N) : decoder (list A) (vec_err E) :=
  {| st := ev_state; init := ev_new n; push := ev_push; fin := ev_fin; lim := ev_lim |}.

(** ** VecDecoderWith<D> / VecDecoder<T>: decode/decoders.rs:276-423 *)
Record vec_state := { vd_prefix : option bytes; vd_items : ev_state }.

Definition vec_push (limit : N) (s : vec_state) (l : bytes) : vec_state * bytes * pstatus (vec_err E) :=
  let items s l :=
    match ev_push (vd_items s) l with
    | (i', l', x) => ({| vd_prefix := vd_prefix s; vd_items := i' |}, l', x)
    end in
  match vd_prefix s with
  | Some p =>
      match cs_push p l with
      | (p', l', NeedsMore) => ({| vd_prefix := Some p'; vd_items := vd_items s |}, l', NeedsMore)
      | (p', l', PErr e) => ({| vd_prefix := None; vd_items := vd_items s |}, l', PErr (VecPrefix e))
      | (p', l', PPanic) => (s, l', PPanic)
      | (p', l', Ready) =>
          match cs_fin limit p' with
          | Ok n => items {| vd_prefix := None; vd_items := ev_new n |} l'
          | Err e => ({| vd_prefix := None; vd_items := vd_items s |}, l', PErr (VecPrefix e))
          end
      end
  | None => items s l
  end.

(** decoders.rs:341-351 *)
Definition vec_fin (s : vec_state) : rust (result (list A) (vec_err E)) :=
  match vd_prefix s with
  | Some p => Ret (Err (VecEof (cs_lim p)))
  | None => ev_fin (vd_items s)
  end.

(** decoders.rs:353-357 *)
Definition vec_lim (s : vec_state) : N :=
  match vd_prefix s with Some p => cs_lim p | None => ev_lim (vd_items s) end.

Definition vec_dec (limit : N) : decoder (list A) (vec_err E) :=
  {| st := vec_state; init := {| vd_prefix := Some []; vd_items := ev_new 0 |};
     push := vec_push limit; fin := vec_fin; lim := vec_lim |}.
End Vec.

(** ** Decoder2<A, B>: decode/decoders.rs:479-614 *)
Inductive err2 (EA EB : Type) := E2First (e : EA) | E2Second (e : EB).
Arguments E2First {EA EB} _.
Arguments E2Second {EA EB} _.

Section Dec2.
Context {A EA B EB : Type} (DA : decoder A EA) (DB : decoder B EB).

Inductive d2_state := D2First (a : st DA) (b : st DB) | D2Second (va : A) (b : st DB) | D2Errored.

(** decoders.rs:571-576 *)
Definition d2_push_second (va : A) (b : st DB) (l : bytes) : d2_state * bytes * pstatus (err2 EA EB) :=
  match push DB b l with
  | (b', l', NeedsMore) => (D2Second va b', l', NeedsMore)
  | (b', l', Ready) => (D2Second va b', l', Ready)
  | (b', l', PErr e) => (D2Errored, l', PErr (E2Second e))
  | (b', l', PPanic) => (D2Second va b', l', PPanic)
  end.

(** decoders.rs:551-582; the loop runs at most twice. *)
Definition d2_push (s : d2_state) (l : bytes) : d2_state * bytes * pstatus (err2 EA EB) :=
  match s with
  | D2First a b =>
      match push DA a l with
      | (a', l', NeedsMore) => (D2First a' b, l', NeedsMore)
      | (a', l', PErr e) => (D2First a' b, l', PErr (E2First e))
      | (a', l', PPanic) => (D2First a' b, l', PPanic)
      | (a', l', Ready) =>
          match fin DA a' with
          | Panic => (D2Errored, l', PPanic)
          | Ret (Err e) => (D2Errored, l', PErr (E2First e))
          | Ret (Ok va) => d2_push_second va b l'
          end
      end
  | D2Second va b => d2_push_second va b l
  | D2Errored => (s, l, PPanic)
  end.

(** decoders.rs:585-603 *)
Definition d2_fin (s : d2_state) : rust (result (A * B) (err2 EA EB)) :=
  let second va b :=
    match fin DB b with
    | Panic => Panic
    | Ret (Err e) => Ret (Err (E2Second e))
    | Ret (Ok vb) => Ret (Ok (va, vb))
    end in
  match s with
  | D2First a b =>
      match fin DA a with
      | Panic => Panic
      | Ret (Err e) => Ret (Err (E2First e))
      | Ret (Ok va) => second va b
      end
  | D2Second va b => second va b
  | D2Errored => Panic
  end.

(** decoders.rs:606-613 *)
Definition d2_lim (s : d2_state) : N :=
  match s with
  | D2First a b => lim DA a + lim DB b
  | D2Second _ b => lim DB b
  | D2Errored => 0
  end.

Definition dec2 : decoder (A * B) (err2 EA EB) :=
  {| st := d2_state; init := D2First (init DA) (init DB); push := d2_push; fin := d2_fin; lim := d2_lim |}.
End Dec2.

(** ** decoder_newtype!: include/decoder_newtype.rs.  [push_bytes] maps the error with [me],
    [end] passes the inner result through [f]; both [f (Err e)] and [me e] are given by [me] here,
    as in every use of the macro in /repo (checked by reading each use). *)
Section NewType.
Context {A E B F : Type} (D : decoder A E) (me : E -> F) (f : A -> result B F).

Definition nt_push (s : st D) (l : bytes) : st D * bytes * pstatus F :=
  match push D s l with
  | (s', l', NeedsMore) => (s', l', NeedsMore)
  | (s', l', Ready) => (s', l', Ready)
  | (s', l', PErr e) => (s', l', PErr (me e))
  | (s', l', PPanic) => (s', l', PPanic)
  end.
Definition nt_fin (s : st D) : rust (result B F) :=
  match fin D s with
  | Panic => Panic
  | Ret (Err e) => Ret (Err (me e))
  | Ret (Ok a) => Ret (f a)
  end.
Definition newtype_dec : decoder B F :=
  {| st := st D; init := init D; push := nt_push; fin := nt_fin; lim := lim D |}.
End NewType.

(** ** Decoder3/4/6: decode/decoders.rs:618-893, nested Decoder2 with errors renamed and the
    tuple flattened, exactly as the source does. *)
Inductive err3 (A B C : Type) := E3First (e : A) | E3Second (e : B) | E3Third (e : C).
Arguments E3First {A B C} _.
Arguments E3Second {A B C} _.
Arguments E3Third {A B C} _.
Inductive err4 (A B C D : Type) := E4First (e : A) | E4Second (e : B) | E4Third (e : C) | E4Fourth (e : D).
Arguments E4First {A B C D} _.
Arguments E4Second {A B C D} _.
Arguments E4Third {A B C D} _.
Arguments E4Fourth {A B C D} _.
Inductive err6 (A B C D E F : Type) :=
| E6First (e : A) | E6Second (e : B) | E6Third (e : C) | E6Fourth (e : D) | E6Fifth (e : E) | E6Sixth (e : F).
Arguments E6First {A B C D E F} _.
Arguments E6Second {A B C D E F} _.
Arguments E6Third {A B C D E F} _.
Arguments E6Fourth {A B C D E F} _.
Arguments E6Fifth {A B C D E F} _.
Arguments E6Sixth {A B C D E F} _.

Definition err3_of {A B C} (e : err2 (err2 A B) C) : err3 A B C :=
  match e with
  | E2First (E2First a) => E3First a
  | E2First (E2Second b) => E3Second b
  | E2Second c => E3Third c
  end.
Definition dec3 {A EA B EB C EC} (DA : decoder A EA) (DB : decoder B EB) (DC : decoder C EC)
  : decoder (A * B * C) (err3 EA EB EC) :=
  newtype_dec (dec2 (dec2 DA DB) DC) err3_of (fun x => Ok x).

Definition err4_of {A B C D} (e : err2 (err2 A B) (err2 C D)) : err4 A B C D :=
  match e with
  | E2First (E2First a) => E4First a
  | E2First (E2Second b) => E4Second b
  | E2Second (E2First c) => E4Third c
  | E2Second (E2Second d) => E4Fourth d
  end.
Definition dec4 {A EA B EB C EC D ED} (DA : decoder A EA) (DB : decoder B EB)
    (DC : decoder C EC) (DD : decoder D ED) : decoder (A * B * C * D) (err4 EA EB EC ED) :=
  newtype_dec (dec2 (dec2 DA DB) (dec2 DC DD)) err4_of
    (fun x => match x with ((a, b), (c, d)) => Ok (a, b, c, d) end).

Definition err6_of {A B C D E F} (e : err2 (err3 A B C) (err3 D E F)) : err6 A B C D E F :=
  match e with
  | E2First (E3First x) => E6First x
  | E2First (E3Second x) => E6Second x
  | E2First (E3Third x) => E6Third x
  | E2Second (E3First x) => E6Fourth x
  | E2Second (E3Second x) => E6Fifth x
  | E2Second (E3Third x) => E6Sixth x
  end.
Definition dec6 {A EA B EB C EC D ED E EE F EF} (DA : decoder A EA) (DB : decoder B EB)
    (DC : decoder C EC) (DD : decoder D ED) (DE : decoder E EE) (DF : decoder F EF)
  : decoder (A * B * C * D * E * F) (err6 EA EB EC ED EE EF) :=
  newtype_dec (dec2 (dec3 DA DB DC) (dec3 DD DE DF)) err6_of
    (fun x => match x with ((a, b, c), (d, e, f)) => Ok (a, b, c, d, e, f) end).

(** ** Drivers *)

(** The result of driving a decoder over some input: a value and the unconsumed bytes; an error
    (from [push_bytes] or from [end]); a panic. *)
Inductive run (A E : Type) :=
| RDone (v : A) (rest : bytes)
| RErr (e : E)
| RPanic.
Arguments RDone {A E} _ _.
Arguments RErr {A E} _.
Arguments RPanic {A E}.

Section Drivers.
Context {A E : Type} (D : decoder A E).

(** [while !bytes.is_empty() { if push_bytes(bytes)?.is_ready() { break } }] as in
    decode/mod.rs:324-328, 186-199, 207-217, 478-482.  Result: the state, the bytes left and the
    last status.  Fuel: each round must consume a byte, otherwise [PPanic] (stands for a hang). *)
Fixpoint feed (fuel : nat) (s : st D) (l : bytes) : st D * bytes * pstatus E :=
  match l with
  | [] => (s, [], NeedsMore)
  | _ :: _ =>
      match fuel with
      | O => (s, l, PPanic)
      | S fuel' =>
          match push D s l with
          | (s', l', NeedsMore) => feed fuel' s' l'
          | r => r
          end
      end
  end.

(** A caller feeding slices one after the other and stopping at [Ready] or an error; then [end]. *)
Fixpoint feed_chunks (s : st D) (cs : list bytes) : run A E :=
  match cs with
  | [] => match fin D s with
          | Panic => RPanic
          | Ret (Ok v) => RDone v []
          | Ret (Err e) => RErr e
          end
  | c :: cs' =>
      match feed (length c) s c with
      | (s', _, NeedsMore) => feed_chunks s' cs'
      | (s', r, Ready) =>
          match fin D s' with
          | Panic => RPanic
          | Ret (Ok v) => RDone v (r ++ concat cs')
          | Ret (Err e) => RErr e
          end
      | (_, _, PErr e) => RErr e
      | (_, _, PPanic) => RPanic
      end
  end.

(** decode/mod.rs:320-331 decode_from_slice_unbounded: returns the result and the advanced slice. *)
Definition decode_from_slice_unbounded (l : bytes) : rust (result A E * bytes) :=
  match feed (length l) (init D) l with
  | (s', r, NeedsMore) | (s', r, Ready) =>
      match fin D s' with Panic => Panic | Ret x => Ret (x, r) end
  | (_, r, PErr e) => Ret (Err e, r)
  | (_, _, PPanic) => Panic
  end.

Inductive decode_err := DeParse (e : E) | DeUnconsumed.

(** decode/mod.rs:264-277 decode_from_slice *)
Definition decode_from_slice (l : bytes) : rust (result A decode_err) :=
  match decode_from_slice_unbounded l with
  | Panic => Panic
  | Ret (Err e, _) => Ret (Err (DeParse e))
  | Ret (Ok v, []) => Ret (Ok v)
  | Ret (Ok _, _ :: _) => Ret (Err DeUnconsumed)
  end.

(** A buffered reader: what successive refills will give: data (empty means end of input), an
    ErrorKind::Interrupted error, or another I/O error. *)
Inductive read_err := ReDecode (e : E) | ReIo.
Inductive io_event := EvData (l : bytes) | EvInterrupted | EvIoError.

Definition ev_bytes (e : io_event) : bytes := match e with EvData l => l | _ => [] end.
Definition events_bytes (es : list io_event) : bytes := flat_map ev_bytes es.

(** decode/mod.rs:381-411 decode_from_read over a schedule of [fill_buf] results.  [buf] is the
    part of the current buffer not yet consumed.  Returns the result and what the reader still
    holds (buffer and later events).  End of input is the end of the schedule.  *)
Fixpoint read_loop (fuel : nat) (s : st D) (buf : bytes) (es : list io_event)
  : rust (result A read_err * bytes * list io_event) :=
  match fuel with
  | O => Panic (* would be a hang *)
  | S fuel' =>
      match buf with
      | _ :: _ =>
          match push D s buf with
          | (s', r, NeedsMore) => read_loop fuel' s' r es
          | (s', r, Ready) =>
              match fin D s' with
              | Panic => Panic
              | Ret (Ok v) => Ret (Ok v, r, es)
              | Ret (Err e) => Ret (Err (ReDecode e), r, es)
              end
          | (s', r, PErr e) => Ret (Err (ReDecode e), buf, es) (* `?` before consume *)
          | (_, _, PPanic) => Panic
          end
      | [] =>
          match es with
          | [] => match fin D s with
                  | Panic => Panic
                  | Ret (Ok v) => Ret (Ok v, [], [])
                  | Ret (Err e) => Ret (Err (ReDecode e), [], [])
                  end
          | EvData [] :: es' => match fin D s with
                  | Panic => Panic
                  | Ret (Ok v) => Ret (Ok v, [], es')
                  | Ret (Err e) => Ret (Err (ReDecode e), [], es')
                  end
          | EvData l :: es' => read_loop fuel' s l es'
          | EvInterrupted :: es' => read_loop fuel' s [] es'
          | EvIoError :: es' => Ret (Err ReIo, [], es')
          end
      end
  end.

Definition decode_from_read (es : list io_event) : rust (result A read_err * bytes * list io_event) :=
  read_loop (S (length es + length (events_bytes es))) (init D) [] es.

(** decode/mod.rs:458-492 decode_from_read_unbuffered_with<BUFFER_SIZE> over a reader holding
    [src]; [want] gives, for each call of [read], how many bytes the reader would like to return
    ([read] returns at least one byte unless the input is exhausted or the buffer is empty); an
    entry 0 stands for ErrorKind::Interrupted.  When [want] is used up the reader returns as much
    as it can. *)
Fixpoint unbuffered_loop (fuel : nat) (bufsize : N) (s : st D) (src : bytes) (want : list N)
  : rust (result A read_err * bytes) :=
  let finish s src :=
    match fin D s with
    | Panic => Panic
    | Ret (Ok v) => Ret (Ok v, src)
    | Ret (Err e) => Ret (Err (ReDecode e), src)
    end in
  match fuel with
  | O => Panic
  | S fuel' =>
      if lim D s =? 0 then finish s src
      else
        let cap := N.min (lim D s) bufsize in
        match want with
        | 0 :: want' => unbuffered_loop fuel' bufsize s src want'
        | _ =>
            let w := match want with [] => cap | x :: _ => x end in
            let n := N.min (N.min w cap) (lenN src) in
            let got := takeN n src in
            let src' := dropN n src in
            match got with
            | [] => finish s src'
            | _ :: _ =>
                match feed (length got) s got with
                | (s', _, NeedsMore) => unbuffered_loop fuel' bufsize s' src' (tl want)
                | (s', _, Ready) => finish s' src'
                | (_, _, PErr e) => Ret (Err (ReDecode e), src')
                | (_, _, PPanic) => Panic
                end
            end
        end
  end.

Definition decode_from_read_unbuffered (bufsize : N) (src : bytes) (want : list N) :=
  unbuffered_loop (S (length want + length src)) bufsize (init D) src want.

(** decode/mod.rs:168-231 decode_from_hex.  [hex] is the sequence of results of the hex iterator
    of the external hex crate, one per pair of characters: [None] for an invalid character pair
    (an odd length is rejected before).  [buf] holds the bytes decoded but not flushed. *)
Inductive hex_err := HeInvalidChar | HeDecode (e : decode_err).

Fixpoint hex_loop (s : st D) (buf : bytes) (hex : list (option N)) : rust (result A hex_err) :=
  match hex with
  | [] =>
      match feed (length buf) s buf with
      | (s', [], NeedsMore) | (s', [], Ready) =>
          match fin D s' with
          | Panic => Panic
          | Ret (Ok v) => Ret (Ok v)
          | Ret (Err e) => Ret (Err (HeDecode (DeParse e)))
          end
      | (_, _ :: _, NeedsMore) | (_, _ :: _, Ready) => Ret (Err (HeDecode DeUnconsumed))
      | (_, _, PErr e) => Ret (Err (HeDecode (DeParse e)))
      | (_, _, PPanic) => Panic
      end
  | None :: _ => Ret (Err HeInvalidChar)
  | Some b :: hex' =>
      if lenN buf =? 4096 then
        match feed (length buf) s buf with
        | (s', _, NeedsMore) => hex_loop s' [b] hex'
        | (_, _, Ready) => Ret (Err (HeDecode DeUnconsumed))
        | (_, _, PErr e) => Ret (Err (HeDecode (DeParse e)))
        | (_, _, PPanic) => Panic
        end
      else hex_loop s (buf ++ [b]) hex'
  end.

Definition decode_from_hex (hex : list (option N)) : rust (result A hex_err) :=
  hex_loop (init D) [] hex.
End Drivers.
Arguments DeParse {E} _.
Arguments DeUnconsumed {E}.
Arguments ReDecode {E} _.
Arguments ReIo {E}.
Arguments HeInvalidChar {E}.
Arguments HeDecode {E} _.
