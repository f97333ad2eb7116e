(** Text: strings, core's integer printing and parsing, units/src/parse_int.rs, the text of the unit
    types, hash and outpoint text.
    A [str] is the list of its Unicode scalar values; [str_len] is its length in UTF-8 bytes (what
    Rust's [len] returns). *)
From Coq Require Import String Ascii.
From Verif Require Import Base MWitness MAmount MTx MLock.
Local Open Scope N_scope.

Definition str := list N.
(** A Rust string literal (ASCII). *)
Fixpoint lit (s : string) : str :=
  match s with
  | EmptyString => []
  | String a s' => N_of_ascii a :: lit s'
  end.
Arguments lit s%string_scope.
(** char::len_utf8 (core) *)
Definition char_len (c : N) : N := if c <? 128 then 1 else if c <? 2048 then 2 else if c <? 65536 then 3 else 4.
(** str::len (core) *)
Definition str_len (s : str) : N := fold_right (fun c n => char_len c + n) 0 s.
(** str::is_ascii (core) *)
Definition is_ascii (s : str) : bool := forallb (fun c => c <? 128) s.
(** str equality (core) *)
Fixpoint str_eqb (a b : str) : bool :=
  match a, b with
  | [], [] => true
  | x :: a', y :: b' => (x =? y) && str_eqb a' b'
  | _, _ => false
  end.
(** str::strip_prefix and starts_with (core) *)
Fixpoint strip_prefix (p s : str) : option str :=
  match p, s with
  | [], _ => Some s
  | x :: p', y :: s' => if x =? y then strip_prefix p' s' else None
  | _ :: _, [] => None
  end.
Definition starts_with (p s : str) : bool := match strip_prefix p s with Some _ => true | None => false end.

(** * core's integers *)
(** Display for the unsigned integers (core::fmt::num): decimal digits, least significant first.
    One round per bit is enough. *)
Fixpoint dec_rev (fuel : nat) (n : N) : str :=
  match fuel with
  | O => []
  | S f => (48 + n mod 10) :: (if n / 10 =? 0 then [] else dec_rev f (n / 10))
  end.
Definition fmt_u (n : N) : str := rev (dec_rev (S (N.to_nat (N.log2 n))) n).
(** Display for the signed integers *)
Definition fmt_i (z : Z) : str := if (z <? 0)%Z then 45 :: fmt_u (Z.abs_N z) else fmt_u (Z.to_N z).
(** {:0width$}: sign-aware zero padding of an unsigned integer *)
Definition fmt_u_width (n width : N) : str :=
  let d := fmt_u n in repeat 48 (N.to_nat (width - lenN d)) ++ d.
(** LowerHex for the unsigned integers *)
Definition hex_char (upper : bool) (d : N) : N := if d <? 10 then 48 + d else (if upper then 55 else 87) + d.
Fixpoint hex_rev (fuel : nat) (upper : bool) (n : N) : str :=
  match fuel with
  | O => []
  | S f => hex_char upper (n mod 16) :: (if n / 16 =? 0 then [] else hex_rev f upper (n / 16))
  end.
Definition fmt_x (upper : bool) (n : N) : str := rev (hex_rev (S (N.to_nat (N.log2 n))) upper n).

(** core::num::IntErrorKind *)
Inductive int_kind := IEmpty | IInvalidDigit | IPosOverflow | INegOverflow.
(** char::to_digit for radix 10 and 16 *)
Definition to_digit (radix c : N) : option N :=
  let d := if (48 <=? c) && (c <=? 57) then c - 48
           else if (97 <=? c) && (c <=? 122) then c - 87
           else if (65 <=? c) && (c <=? 90) then c - 55 else 255 in
  if d <? radix then Some d else None.
(** core::num from_str_radix, the checked loop for non-negative numbers: [hi] is the type's maximum.
    The unchecked loop core uses for short inputs computes the same. *)
Fixpoint digits_pos (radix hi : N) (s : str) (acc : N) : result N int_kind :=
  match s with
  | [] => Ok acc
  | c :: s' =>
      match to_digit radix c with
      | None => Err IInvalidDigit
      | Some d =>
          if hi <? acc * radix then Err IPosOverflow
          else if hi <? acc * radix + d then Err IPosOverflow
          else digits_pos radix hi s' (acc * radix + d)
      end
  end.
(** ... and for negative numbers: [lo] is minus the type's minimum, [acc] minus the accumulator *)
Fixpoint digits_neg (radix lo : N) (s : str) (acc : N) : result N int_kind :=
  match s with
  | [] => Ok acc
  | c :: s' =>
      match to_digit radix c with
      | None => Err IInvalidDigit
      | Some d =>
          if lo <? acc * radix then Err INegOverflow
          else if lo <? acc * radix + d then Err INegOverflow
          else digits_neg radix lo s' (acc * radix + d)
      end
  end.
(** from_str_radix for the type with values [-lo .. hi]; [signed] says whether a minus sign is
    looked at.  A string that is only a sign is an invalid digit. *)
Definition from_str_radix (signed : bool) (lo hi radix : N) (s : str) : result Z int_kind :=
  let pos t := match digits_pos radix hi t 0 with Ok n => Ok (Z.of_N n) | Err e => Err e end in
  match s with
  | [] => Err IEmpty
  | [c] => if (c =? 43) || (c =? 45) then Err IInvalidDigit else pos s
  | c :: t =>
      if c =? 43 then pos t
      else if (c =? 45) && signed then
        match digits_neg radix lo t 0 with Ok n => Ok (- Z.of_N n)%Z | Err e => Err e end
      else pos s
  end.

(** * units/src/parse_int.rs *)
(** The integer types of [impl_integer] :30 and their values. *)
Record ity := { i_bits : N; i_signed : bool }.
Definition i_hi (t : ity) : N := if i_signed t then 2 ^ (i_bits t - 1) - 1 else 2 ^ i_bits t - 1.
Definition i_lo (t : ity) : N := if i_signed t then 2 ^ (i_bits t - 1) else 0.
Definition U16t := {| i_bits := 16; i_signed := false |}.
Definition U32t := {| i_bits := 32; i_signed := false |}.
Definition U64t := {| i_bits := 64; i_signed := false |}.
Definition U128t := {| i_bits := 128; i_signed := false |}.
Definition I64t := {| i_bits := 64; i_signed := true |}.
(** ParseIntError :444-453 *)
Record parse_int_error := { pe_input : str; pe_bits : N; pe_signed : bool; pe_source : int_kind }.
(** int :79-91, and through it int_from_str, int_from_string, int_from_box :58-76 *)
Definition int_from_str (t : ity) (s : str) : result Z parse_int_error :=
  match from_str_radix (i_signed t) (i_lo t) (i_hi t) 10 s with
  | Ok z => Ok z
  | Err e => Err {| pe_input := s; pe_bits := i_bits t; pe_signed := i_signed t; pe_source := e |}
  end.
(** hex_remove_prefix :235-245, hex_check_unprefixed :253-260, hex_remove_optional_prefix :415-423 *)
Inductive prefixed_err := MissingPrefix (s : str) | PxParseInt (e : parse_int_error).
Inductive unprefixed_err := ContainsPrefix (s : str) | UpParseInt (e : parse_int_error).
Definition px_lower : str := lit "0x".
Definition px_upper : str := lit "0X".
Definition hex_remove_prefix (s : str) : result str prefixed_err :=
  match strip_prefix px_lower s with
  | Some c => Ok c
  | None => match strip_prefix px_upper s with Some c => Ok c | None => Err (MissingPrefix s) end
  end.
Definition hex_check_unprefixed (s : str) : result str unprefixed_err :=
  if starts_with px_lower s || starts_with px_upper s then Err (ContainsPrefix s) else Ok s.
Definition hex_remove_optional_prefix (s : str) : str :=
  match strip_prefix px_lower s with
  | Some c => c
  | None => match strip_prefix px_upper s with Some c => c | None => s end
  end.
(** parse_hex_for! :263-335 for u16, u32, u64, u128 *)
Definition hex_unchecked (bits : N) (s : str) : result N parse_int_error :=
  match from_str_radix false 0 (2 ^ bits - 1) 16 s with
  | Ok z => Ok (Z.to_N z)
  | Err e => Err {| pe_input := s; pe_bits := bits; pe_signed := false; pe_source := e |}
  end.
Definition hex_any (bits : N) (s : str) : result N parse_int_error :=
  hex_unchecked bits (hex_remove_optional_prefix s).
Definition hex_prefixed (bits : N) (s : str) : result N prefixed_err :=
  match hex_remove_prefix s with
  | Err e => Err e
  | Ok c => match hex_unchecked bits c with Ok n => Ok n | Err e => Err (PxParseInt e) end
  end.
Definition hex_unprefixed (bits : N) (s : str) : result N unprefixed_err :=
  match hex_check_unprefixed s with
  | Err e => Err e
  | Ok c => match hex_unchecked bits c with Ok n => Ok n | Err e => Err (UpParseInt e) end
  end.
(** hex_u256_unchecked :380-411.  On ASCII text byte offsets are character offsets.  The U256 is
    given by its value: [from_le_bytes] of the two little-endian halves. *)
Definition hex_u256_unchecked (s : str) : result N parse_int_error :=
  if negb (is_ascii s) then
    match from_str_radix false 0 (2 ^ 128 - 1) 16 s with
    | Ok z => Ok (Z.to_N z)
    | Err e => Err {| pe_input := s; pe_bits := 256; pe_signed := false; pe_source := e |}
    end
  else if str_len s <=? 32 then
    match hex_unchecked 128 s with Ok low => Ok low | Err e => Err e end
  else
    let high_len := N.to_nat (str_len s - 32) in
    match hex_unchecked 128 (firstn high_len s) with
    | Err e => Err e
    | Ok high =>
        match hex_unchecked 128 (skipn high_len s) with
        | Err e => Err e
        | Ok low => Ok (le_val (le_bytes 16 low ++ le_bytes 16 high))
        end
    end.
(** hex_u256_prefixed :366-371, hex_u256_unprefixed :373-378 *)
Definition hex_u256_prefixed (s : str) : result N prefixed_err :=
  match hex_remove_prefix s with
  | Err e => Err e
  | Ok c => match hex_u256_unchecked c with Ok n => Ok n | Err e => Err (PxParseInt e) end
  end.
Definition hex_u256_unprefixed (s : str) : result N unprefixed_err :=
  match hex_check_unprefixed s with
  | Err e => Err e
  | Ok c => match hex_u256_unchecked c with Ok n => Ok n | Err e => Err (UpParseInt e) end
  end.

(** * Unit types *)
(** impl_parse_str_from_int_infallible! :121-165 for the types that wrap the integer (BlockHeight,
    BlockMtp, their intervals, BlockTime, Weight, Sequence, CompactTarget, NumberOfBlocks,
    NumberOf512Seconds): the constructor is the identity on the modelled value.  Their Display is
    that of the integer (units/src/block.rs:69-72 and alike). *)
Definition wrapper_from_str (t : ity) (s : str) : result Z parse_int_error := int_from_str t s.
(** ... and for absolute::LockTime, absolute/mod.rs:404 with from_consensus *)
Definition lock_time_from_str (s : str) : rust (result abs_lock parse_int_error) :=
  match int_from_str U32t s with
  | Ok z => rbind (abs_from_consensus (Z.to_N z)) (fun l => Ret (Ok l))
  | Err e => Ret (Err e)
  end.
(** LockTime::from_hex absolute/mod.rs:136-139, from_unprefixed_hex :159-162 *)
Definition lock_time_from_hex (s : str) : rust (result abs_lock prefixed_err) :=
  match hex_prefixed 32 s with
  | Ok n => rbind (abs_from_consensus n) (fun l => Ret (Ok l))
  | Err e => Ret (Err e)
  end.
Definition lock_time_from_unprefixed_hex (s : str) : rust (result abs_lock unprefixed_err) :=
  match hex_unprefixed 32 s with
  | Ok n => rbind (abs_from_consensus n) (fun l => Ret (Ok l))
  | Err e => Ret (Err e)
  end.
(** absolute/error.rs ParseError; parser absolute/mod.rs:741-752 with Height::from_u32 or
    MedianTimePast::from_u32: i64 first, then u32, then the unit's range *)
Inductive lock_parse_err :=
| LpInvalidInt (e : int_kind) | LpConversion (n : Z) | LpPrefixed (e : prefixed_err) | LpUnprefixed (e : unprefixed_err).
Definition conv_err_n (e : conv_err) : N := match e with InvalidHeight n | InvalidTime n => n end.
Definition lock_parser (f : N -> result N conv_err) (s : str) : result N lock_parse_err :=
  match from_str_radix true (i_lo I64t) (i_hi I64t) 10 s with
  | Err e => Err (LpInvalidInt e)
  | Ok z =>
      if ((z <? 0) || (4294967295 <? z))%Z then Err (LpConversion z)
      else match f (Z.to_N z) with Ok h => Ok h | Err e => Err (LpConversion (Z.of_N (conv_err_n e))) end
  end.
Definition height_from_str := lock_parser height_from_u32.
Definition mtp_from_str := lock_parser mtp_from_u32.
(** Height::from_hex :524-527, MedianTimePast::from_hex :666-669 and the unprefixed ones *)
Definition lock_from_hex (f : N -> result N conv_err) (s : str) : result N lock_parse_err :=
  match hex_prefixed 32 s with
  | Err e => Err (LpPrefixed e)
  | Ok n => match f n with Ok h => Ok h | Err _ => Err (LpConversion (Z.of_N n)) end
  end.
Definition lock_from_unprefixed_hex (f : N -> result N conv_err) (s : str) : result N lock_parse_err :=
  match hex_unprefixed 32 s with
  | Err e => Err (LpUnprefixed e)
  | Ok n => match f n with Ok h => Ok h | Err _ => Err (LpConversion (Z.of_N n)) end
  end.

(** * Hashes *)
(** external hex crate: lower/upper-case hex of bytes, and decode_to_array::<n>: the text must have
    exactly 2n bytes, all hex digits of either case *)
Definition hex_byte (upper : bool) (b : N) : str := [hex_char upper (b / 16); hex_char upper (b mod 16)].
Definition hex_bytes (upper : bool) (b : bytes) : str := flat_map (hex_byte upper) b.
Inductive hex_array_err := HxInvalidLength (n : N) | HxInvalidChar.
Fixpoint hex_pairs (s : str) : option bytes :=
  match s with
  | a :: b :: s' =>
      match to_digit 16 a, to_digit 16 b, hex_pairs s' with
      | Some h, Some l, Some r => Some (16 * h + l :: r)
      | _, _, _ => None
      end
  | [] => Some []
  | [_] => None    (* only when a character of several bytes makes the count odd *)
  end.
Definition decode_to_array (n : N) (s : str) : result bytes hex_array_err :=
  if negb (str_len s =? 2 * n) then Err (HxInvalidLength (str_len s))
  else match hex_pairs s with Some b => Ok b | None => Err HxInvalidChar end.
(** hashes/src/macros.rs:271-330, primitives/src/hash_types/generic.rs: text of a hash; [backward] is
    DISPLAY_BACKWARD *)
Definition hash_display (backward upper : bool) (h : bytes) : str :=
  hex_bytes upper (if backward then rev h else h).
Definition hash_from_str (len : N) (backward : bool) (s : str) : result bytes hex_array_err :=
  match decode_to_array len s with
  | Err e => Err e
  | Ok b => Ok (if backward then rev b else b)
  end.

(** * OutPoint: primitives/src/transaction.rs:948-993 *)
Definition outpoint_display (o : outpoint) : str :=
  hash_display true false (op_txid o) ++ [58] ++ fmt_u (op_vout o).
Inductive outpoint_err :=
| OpTooLong | OpFormat | OpVoutNotCanonical | OpTxid (e : hex_array_err) | OpVout (e : parse_int_error).
(** str::find / rfind of ':' split at that place: the parts before the first and after the last *)
Fixpoint split_first (c : N) (s : str) : option (str * str) :=
  match s with
  | [] => None
  | x :: s' =>
      if x =? c then Some ([], s')
      else match split_first c s' with Some (a, b) => Some (x :: a, b) | None => None end
  end.
(** :985-993 *)
Definition parse_vout (s : str) : result N outpoint_err :=
  let body := match int_from_str U32t s with Ok z => Ok (Z.to_N z) | Err e => Err (OpVout e) end in
  if 1 <? str_len s then
    match s with
    | first :: _ => if (first =? 48) || (first =? 43) then Err OpVoutNotCanonical else body
    | [] => body
    end
  else body.
(** :957-978; the first and the last colon are the same iff there is none after the first *)
Definition outpoint_from_str (s : str) : result outpoint outpoint_err :=
  if 75 <? str_len s then Err OpTooLong
  else
    match split_first 58 s with
    | None => Err OpFormat
    | Some (a, b) =>
        match split_first 58 b with
        | Some _ => Err OpFormat
        | None =>
            match a, b with
            | [], _ | _, [] => Err OpFormat
            | _, _ =>
                match hash_from_str 32 true a with
                | Err e => Err (OpTxid e)
                | Ok txid =>
                    match parse_vout b with
                    | Err e => Err e
                    | Ok vout => Ok {| op_txid := txid; op_vout := vout |}
                    end
                end
            end
        end
    end.
