(** The errors of the io crate and its adapters from and to the standard library's traits: io/src/error.rs, io/src/bridge.rs, and the
    provided methods read_exact and write_all of io/src/lib.rs:82-92, 370-380.
    The standard library's error (std::io::error::Repr), its [kind], [into_inner], [new] and [From<ErrorKind>], and its provided
    methods read_exact and write_all are modelled here too, from its documentation and source; they are not part of this repository. *)
From Coq Require Import String.
From Verif Require Import Base MText.
Local Open Scope list_scope.
Local Open Scope N_scope.

(** io/src/error.rs:166-204 *)
Inductive kind := NotFound | PermissionDenied | ConnectionRefused | ConnectionReset | ConnectionAborted | NotConnected | AddrInUse
  | AddrNotAvailable | BrokenPipe | AlreadyExists | WouldBlock | InvalidInput | InvalidData | TimedOut | WriteZero | Interrupted
  | UnexpectedEof | Other.
(** std::io::ErrorKind *)
Inductive std_kind := SNotFound | SPermissionDenied | SConnectionRefused | SConnectionReset | SHostUnreachable | SNetworkUnreachable
  | SConnectionAborted | SNotConnected | SAddrInUse | SAddrNotAvailable | SNetworkDown | SBrokenPipe | SAlreadyExists | SWouldBlock
  | SNotADirectory | SIsADirectory | SDirectoryNotEmpty | SReadOnlyFilesystem | SFilesystemLoop | SStaleNetworkFileHandle
  | SInvalidInput | SInvalidData | STimedOut | SWriteZero | SStorageFull | SNotSeekable | SQuotaExceeded | SFileTooLarge | SResourceBusy
  | SExecutableFileBusy | SDeadlock | SCrossesDevices | STooManyLinks | SInvalidFilename | SArgumentListTooLong | SInterrupted
  | SUnsupported | SUnexpectedEof | SOutOfMemory | SInProgress | SOther | SUncategorized.
(** error.rs:142-146: [stringify!] *)
Definition description (k : kind) : str :=
  match k with
  | NotFound => lit "NotFound" | PermissionDenied => lit "PermissionDenied" | ConnectionRefused => lit "ConnectionRefused"
  | ConnectionReset => lit "ConnectionReset" | ConnectionAborted => lit "ConnectionAborted" | NotConnected => lit "NotConnected"
  | AddrInUse => lit "AddrInUse" | AddrNotAvailable => lit "AddrNotAvailable" | BrokenPipe => lit "BrokenPipe"
  | AlreadyExists => lit "AlreadyExists" | WouldBlock => lit "WouldBlock" | InvalidInput => lit "InvalidInput"
  | InvalidData => lit "InvalidData" | TimedOut => lit "TimedOut" | WriteZero => lit "WriteZero" | Interrupted => lit "Interrupted"
  | UnexpectedEof => lit "UnexpectedEof" | Other => lit "Other"
  end.
(** error.rs:149-153 *)
Definition to_std (k : kind) : std_kind :=
  match k with
  | NotFound => SNotFound | PermissionDenied => SPermissionDenied | ConnectionRefused => SConnectionRefused
  | ConnectionReset => SConnectionReset | ConnectionAborted => SConnectionAborted | NotConnected => SNotConnected
  | AddrInUse => SAddrInUse | AddrNotAvailable => SAddrNotAvailable | BrokenPipe => SBrokenPipe | AlreadyExists => SAlreadyExists
  | WouldBlock => SWouldBlock | InvalidInput => SInvalidInput | InvalidData => SInvalidData | TimedOut => STimedOut
  | WriteZero => SWriteZero | Interrupted => SInterrupted | UnexpectedEof => SUnexpectedEof | Other => SOther
  end.
(** error.rs:156-161 *)
Definition from_std (o : std_kind) : kind :=
  match o with
  | SNotFound => NotFound | SPermissionDenied => PermissionDenied | SConnectionRefused => ConnectionRefused
  | SConnectionReset => ConnectionReset | SConnectionAborted => ConnectionAborted | SNotConnected => NotConnected
  | SAddrInUse => AddrInUse | SAddrNotAvailable => AddrNotAvailable | SBrokenPipe => BrokenPipe | SAlreadyExists => AlreadyExists
  | SWouldBlock => WouldBlock | SInvalidInput => InvalidInput | SInvalidData => InvalidData | STimedOut => TimedOut
  | SWriteZero => WriteZero | SInterrupted => Interrupted | SUnexpectedEof => UnexpectedEof | SOther => Other
  | _ => Other
  end.

Section Errors.
  (** boxed errors; the kind that the platform gives an OS error code; [Debug] and [source] of a boxed error *)
  Context {P : Type} (os_kind : Z -> std_kind) (debug : P -> str) (p_source : P -> option P).

  (** error.rs:14-28 *)
  Record error := mk_error { e_kind : kind; e_error : option P }.
  (** std::io::Error: an OS error code, a kind, a kind with a constant message, or a kind with a boxed error *)
  Inductive std_error := Os (code : Z) | Simple (k : std_kind) | SimpleMessage (k : std_kind) (message : str) | Custom (k : std_kind) (p : P).
  Definition std_kind_of (e : std_error) : std_kind :=
    match e with Os c => os_kind c | Simple k | SimpleMessage k _ | Custom k _ => k end.
  Definition std_into_inner (e : std_error) : option P := match e with Custom _ p => Some p | _ => None end.
  Definition std_raw_os_error (e : std_error) : option Z := match e with Os c => Some c | _ => None end.
  Definition std_source (e : std_error) : option P := match e with Custom _ p => p_source p | _ => None end.
  (** error.rs:33-38, 48-54, 64-73 *)
  Definition error_new (k : kind) (p : P) : error := mk_error k (Some p).
  Definition error_from_kind (k : kind) : error := mk_error k None.
  (** error.rs:75-84 *)
  Definition error_display (e : error) : str :=
    lit "I/O Error: " ++ description (e_kind e) ++ match e_error e with Some p => lit ". " ++ debug p | None => [] end.
  (** error.rs:87-91 *)
  Definition error_source (e : error) : option P := match e_error e with Some p => p_source p | None => None end.
  (** error.rs:94-102 *)
  Definition error_of_std (o : std_error) : error := mk_error (from_std (std_kind_of o)) (std_into_inner o).
  (** error.rs:105-113 *)
  Definition std_of_error (o : error) : std_error :=
    match e_error o with Some err => Custom (to_std (e_kind o)) err | None => Simple (to_std (e_kind o)) end.
  (** error.rs:208-222, 238-240 *)
  Inductive read_error (D : Type) := RIo (e : error) | RDecode (d : D).
  Global Arguments RIo {D}. Global Arguments RDecode {D}.
  Definition read_error_display {D} (d_display : D -> str) (r : read_error D) : str :=
    match r with RIo e => lit "I/O error: " ++ error_display e | RDecode d => lit "decode error: " ++ d_display d end.

  (** *** Streams *)
  (** What a type that implements the three traits does on each call, for either error type.  A read gives the bytes put into the
      buffer; [read_exact] gives those put there even when it fails. *)
  Record stream (E S : Type) := mk_stream {
    s_read : S -> N -> rust (result bytes E * S);
    s_read_exact : S -> N -> rust (result unit E * bytes * S);
    s_fill : S -> rust (result bytes E * S);
    s_consume : S -> N -> rust S;
    s_write : S -> bytes -> rust (result N E * S);
    s_flush : S -> rust (result unit E * S);
    s_write_all : S -> bytes -> rust (result unit E * S) }.
  Global Arguments mk_stream {E S}. Global Arguments s_read {E S}. Global Arguments s_read_exact {E S}. Global Arguments s_fill {E S}.
  Global Arguments s_consume {E S}. Global Arguments s_write {E S}. Global Arguments s_flush {E S}. Global Arguments s_write_all {E S}.
  Definition map_err {E F A} (f : E -> F) (r : result A E) : result A F := match r with Ok a => Ok a | Err e => Err (f e) end.
  Definition map_res {E F A S} (f : E -> F) (r : rust (result A E * S)) : rust (result A F * S) :=
    rbind r (fun '(x, s) => Ret (map_err f x, s)).
  Definition map_res3 {E F A B S} (f : E -> F) (r : rust (result A E * B * S)) : rust (result A F * B * S) :=
    rbind r (fun '(x, b, s) => Ret (map_err f x, b, s)).
  (** bridge.rs:48-81; the same for the types in impl_our! :209-256, 258-469 *)
  Definition FromStd {S} (t : stream std_error S) : stream error S :=
    mk_stream (fun s n => map_res error_of_std (s_read t s n)) (fun s n => map_res3 error_of_std (s_read_exact t s n))
      (fun s => map_res error_of_std (s_fill t s)) (fun s n => s_consume t s n) (fun s b => map_res error_of_std (s_write t s b))
      (fun s => map_res error_of_std (s_flush t s)) (fun s b => map_res error_of_std (s_write_all t s b)).
  (** bridge.rs:145-178 *)
  Definition ToStd {S} (t : stream error S) : stream std_error S :=
    mk_stream (fun s n => map_res std_of_error (s_read t s n)) (fun s n => map_res3 std_of_error (s_read_exact t s n))
      (fun s => map_res std_of_error (s_fill t s)) (fun s n => s_consume t s n) (fun s b => map_res std_of_error (s_write t s b))
      (fun s => map_res std_of_error (s_flush t s)) (fun s b => map_res std_of_error (s_write_all t s b)).
  (** bridge.rs:85-110, 182-207: the wrapped type's own trait *)
  Definition FromStd_std {S} (t : stream std_error S) : stream std_error S :=
    mk_stream (s_read t) (s_read_exact t) (s_fill t) (s_consume t) (s_write t) (s_flush t) (s_write_all t).
  Definition ToStd_our {S} (t : stream error S) : stream error S :=
    mk_stream (s_read t) (s_read_exact t) (s_fill t) (s_consume t) (s_write t) (s_flush t) (s_write_all t).

  (** A caller's history: calls in any order *)
  Inductive call := Read (n : N) | ReadExact (n : N) | FillBuf | Consume (n : N) | Write (b : bytes) | Flush | WriteAll (b : bytes).
  Inductive answer (E : Type) := ABytes (r : result bytes E) | AExact (r : result unit E) (b : bytes) | ADone | ACount (r : result N E) | AUnit (r : result unit E).
  Global Arguments ABytes {E}. Global Arguments AExact {E}. Global Arguments ADone {E}. Global Arguments ACount {E}. Global Arguments AUnit {E}.
  Definition step {E S} (t : stream E S) (s : S) (c : call) : rust (answer E * S) :=
    match c with
    | Read n => rbind (s_read t s n) (fun '(r, s') => Ret (ABytes r, s'))
    | ReadExact n => rbind (s_read_exact t s n) (fun '(r, b, s') => Ret (AExact r b, s'))
    | FillBuf => rbind (s_fill t s) (fun '(r, s') => Ret (ABytes r, s'))
    | Consume n => rbind (s_consume t s n) (fun s' => Ret (ADone, s'))
    | Write b => rbind (s_write t s b) (fun '(r, s') => Ret (ACount r, s'))
    | Flush => rbind (s_flush t s) (fun '(r, s') => Ret (AUnit r, s'))
    | WriteAll b => rbind (s_write_all t s b) (fun '(r, s') => Ret (AUnit r, s'))
    end.
  Fixpoint run {E S} (t : stream E S) (s : S) (cs : list call) : rust (list (answer E) * S) :=
    match cs with
    | [] => Ret ([], s)
    | c :: cs' => rbind (step t s c) (fun '(a, s') => rbind (run t s' cs') (fun '(l, s'') => Ret (a :: l, s'')))
    end.

  (** *** Provided methods *)
  (** io/src/lib.rs:82-92: with fuel, [None] when it runs out *)
  Fixpoint our_read_exact {S} (read : S -> N -> rust (result bytes error * S)) (fuel : nat) (s : S) (n : N) (got : bytes) : option (rust (result unit error * bytes * S)) :=
    if n =? 0 then Some (Ret (Ok tt, got, s)) else
    match fuel with
    | O => None
    | Datatypes.S fuel' =>
        match read s n with
        | Panic => Some Panic
        | Ret (Ok [], s') => Some (Ret (Err (error_from_kind UnexpectedEof), got, s'))
        | Ret (Ok bs, s') => if n <? lenN bs then Some Panic else our_read_exact read fuel' s' (n - lenN bs) (got ++ bs)
        | Ret (Err e, s') => match e_kind e with Interrupted => our_read_exact read fuel' s' n got | _ => Some (Ret (Err e, got, s')) end
        end
    end.
  (** std's default_read_exact *)
  Definition READ_EXACT_EOF : std_error := SimpleMessage SUnexpectedEof (lit "failed to fill whole buffer").
  Fixpoint std_read_exact {S} (read : S -> N -> rust (result bytes std_error * S)) (fuel : nat) (s : S) (n : N) (got : bytes) : option (rust (result unit std_error * bytes * S)) :=
    if n =? 0 then Some (Ret (Ok tt, got, s)) else
    match fuel with
    | O => None
    | Datatypes.S fuel' =>
        match read s n with
        | Panic => Some Panic
        | Ret (Ok [], s') => Some (Ret (Err READ_EXACT_EOF, got, s'))
        | Ret (Ok bs, s') => if n <? lenN bs then Some Panic else std_read_exact read fuel' s' (n - lenN bs) (got ++ bs)
        | Ret (Err e, s') => match std_kind_of e with SInterrupted => std_read_exact read fuel' s' n got | _ => Some (Ret (Err e, got, s')) end
        end
    end.
  (** io/src/lib.rs:370-380 *)
  Fixpoint our_write_all {S} (write : S -> bytes -> rust (result N error * S)) (fuel : nat) (s : S) (buf : bytes) : option (rust (result unit error * S)) :=
    match buf with
    | [] => Some (Ret (Ok tt, s))
    | _ =>
      match fuel with
      | O => None
      | Datatypes.S fuel' =>
          match write s buf with
          | Panic => Some Panic
          | Ret (Ok 0, s') => Some (Ret (Err (error_from_kind UnexpectedEof), s'))
          | Ret (Ok len, s') => if lenN buf <? len then Some Panic else our_write_all write fuel' s' (skipn (N.to_nat len) buf)
          | Ret (Err e, s') => match e_kind e with Interrupted => our_write_all write fuel' s' buf | _ => Some (Ret (Err e, s')) end
          end
      end
    end.
  (** std's Write::write_all *)
  Definition WRITE_ALL_EOF : std_error := SimpleMessage SWriteZero (lit "failed to write whole buffer").
  Fixpoint std_write_all {S} (write : S -> bytes -> rust (result N std_error * S)) (fuel : nat) (s : S) (buf : bytes) : option (rust (result unit std_error * S)) :=
    match buf with
    | [] => Some (Ret (Ok tt, s))
    | _ =>
      match fuel with
      | O => None
      | Datatypes.S fuel' =>
          match write s buf with
          | Panic => Some Panic
          | Ret (Ok 0, s') => Some (Ret (Err WRITE_ALL_EOF, s'))
          | Ret (Ok len, s') => if lenN buf <? len then Some Panic else std_write_all write fuel' s' (skipn (N.to_nat len) buf)
          | Ret (Err e, s') => match std_kind_of e with SInterrupted => std_write_all write fuel' s' buf | _ => Some (Ret (Err e, s')) end
          end
      end
    end.
End Errors.
Global Arguments error : clear implicits.
Global Arguments std_error : clear implicits.
Global Arguments read_error : clear implicits.
