(** Amounts as text: units/src/amount/mod.rs:85-642, unsigned.rs, signed.rs. *)
From Coq Require Import String.
From Verif Require Import Base MWitness MAmount MTx MTxSize MText.
Local Open Scope N_scope.

(** mod.rs:88-105 *)
Inductive denom := Bitcoin | CentiBitcoin | MilliBitcoin | MicroBitcoin | Bit | Satoshi.
(** mod.rs:116-126 *)
Definition precision (d : denom) : Z :=
  match d with
  | Bitcoin => -8 | CentiBitcoin => -6 | MilliBitcoin => -5 | MicroBitcoin => -2 | Bit => -2 | Satoshi => 0
  end%Z.
(** mod.rs:130-140 *)
Definition denom_str (d : denom) : str :=
  match d with
  | Bitcoin => lit "BTC" | CentiBitcoin => lit "cBTC" | MilliBitcoin => lit "mBTC"
  | MicroBitcoin => lit "uBTC" | Bit => lit "bits" | Satoshi => lit "satoshi"
  end.
(** mod.rs:144-155; the two micro forms start with U+00B5 *)
Definition forms_table : list (str * denom) :=
  [ (lit "BTC", Bitcoin); (lit "btc", Bitcoin); (lit "cBTC", CentiBitcoin); (lit "cbtc", CentiBitcoin);
    (lit "mBTC", MilliBitcoin); (lit "mbtc", MilliBitcoin);
    (lit "uBTC", MicroBitcoin); (lit "ubtc", MicroBitcoin);
    (181 :: lit "BTC", MicroBitcoin); (181 :: lit "btc", MicroBitcoin);
    (lit "bit", Bit); (lit "bits", Bit); (lit "BIT", Bit); (lit "BITS", Bit);
    (lit "SATOSHI", Satoshi); (lit "satoshi", Satoshi); (lit "SATOSHIS", Satoshi); (lit "satoshis", Satoshi);
    (lit "SAT", Satoshi); (lit "sat", Satoshi); (lit "SATS", Satoshi); (lit "sats", Satoshi) ].
Definition forms (s : str) : option denom :=
  match find (fun p => str_eqb (fst p) s) forms_table with Some (_, d) => Some d | None => None end.
(** mod.rs:161 *)
Definition CONFUSING_FORMS : list str := [lit "CBTC"; lit "Cbtc"; lit "MBTC"; lit "Mbtc"; lit "UBTC"; lit "Ubtc"].
(** mod.rs:168-189 *)
Inductive denom_err := PossiblyConfusing (s : str) | UnknownDenom (s : str).
Definition denom_from_str (s : str) : result denom denom_err :=
  if existsb (str_eqb s) CONFUSING_FORMS then Err (PossiblyConfusing s)
  else match forms s with Some d => Ok d | None => Err (UnknownDenom s) end.

(** ** Parsing *)
(** [s.find(c)] as a byte offset, and [char_indices().find(p)] *)
Fixpoint find_idx (p : N -> bool) (i : N) (s : str) : option N :=
  match s with
  | [] => None
  | c :: s' => if p c then Some i else find_idx p (i + char_len c) s'
  end.
(** [&s[0..s.find('.').unwrap_or(s.len())]] *)
Fixpoint before (c : N) (s : str) : str :=
  match s with [] => [] | x :: s' => if x =? c then [] else x :: before c s' end.
(** is_too_precise mod.rs:196-211, only ever called with [precision = 0]: then [take(precision)]
    takes nothing *)
Definition is_too_precise0 (s : str) : option N :=
  match split_first 46 s with
  | Some (a, b) => if str_len a <=? 0 then Some 0 else find_idx (fun d => negb (d =? 48)) (str_len a + 1) b
  | None => if str_len s <=? 0 then Some 0 else None
  end.
(** mod.rs:213 *)
Definition INPUT_STRING_LEN_LIMIT : N := 50.
(** mod.rs:348-355 *)
Inductive inner_err :=
| Overflow (is_negative : bool) | TooPrecise (position : N) | MissingDigits (only_minus : bool)
| InputTooLarge (len : N) | InvalidCharacter (c position : N) | BadPosition (c position : N).
(** the loop mod.rs:272-328; [neg] is [usize::from(is_negative)]; [break] returns the state *)
Fixpoint parse_loop (is_negative : bool) (max_decimals : Z) (s : str) (i : N) (decimals : option Z)
    (underscores : bool) (value : Z) : result (option Z * Z) inner_err :=
  let neg := if is_negative then 1 else 0 in
  match s with
  | [] => Ok (decimals, value)
  | c :: s' =>
      let i' := i + char_len c in
      if (48 <=? c) && (c <=? 57) then
        match i64_checked_mul 10 value with
        | None => Err (Overflow is_negative)
        | Some val =>
            match i64_checked_add val (Z.of_N (c - 48)) with
            | None => Err (Overflow is_negative)
            | Some val =>
                match decimals with
                | None => parse_loop is_negative max_decimals s' i' None false val
                | Some d =>
                    if (d <? max_decimals)%Z
                    then parse_loop is_negative max_decimals s' i' (Some (d + 1)%Z) false val
                    else Err (TooPrecise (i + neg))
                end
            end
        end
      else if c =? 95 then
        if i =? 0 then Err (BadPosition 95 (i + neg))
        else if underscores then Err (BadPosition 95 (i + neg))
        else parse_loop is_negative max_decimals s' i' decimals true value
      else if c =? 46 then
        match decimals with
        | None => if (max_decimals <=? 0)%Z then Ok (decimals, value)
                  else parse_loop is_negative max_decimals s' i' (Some 0%Z) false value
        | Some _ => Err (InvalidCharacter 46 (i + neg))
        end
      else Err (InvalidCharacter c (i + neg))
  end.
(** mod.rs:332-337 *)
Fixpoint scale_loop (n : nat) (value : Z) : option Z :=
  match n with
  | O => Some value
  | S n' => match i64_checked_mul 10 value with Some v => scale_loop n' v | None => None end
  end.
(** mod.rs:268-345, after the decimals are known *)
Definition parse_tail (is_negative : bool) (max_decimals : Z) (s : str) : rust (result (bool * Z) inner_err) :=
  match parse_loop is_negative max_decimals s 0 None false 0 with
  | Err e => Ret (Err e)
  | Ok (decimals, value) =>
      let scale_factor := (max_decimals - match decimals with Some d => d | None => 0 end)%Z in
      match scale_loop (Z.to_nat scale_factor) value with
      | None => Ret (Err (Overflow is_negative))
      | Some value =>
          match signed_from_sat value with
          | Err _ => Ret (Err (Overflow is_negative))
          | Ok ret =>
              if is_negative then rbind (signed_neg ret) (fun ret => Ret (Ok (is_negative, ret)))
              else Ret (Ok (is_negative, ret))
          end
      end
  end.
(** parse_signed_to_satoshi mod.rs:220-345 *)
Definition parse_signed_to_satoshi (s : str) (d : denom) : rust (result (bool * Z) inner_err) :=
  match s with
  | [] => Ret (Err (MissingDigits false))
  | c0 :: rest =>
      if INPUT_STRING_LEN_LIMIT <? str_len s then Ret (Err (InputTooLarge (str_len s)))
      else
        let is_negative := c0 =? 45 in
        if is_negative && (str_len s =? 1) then Ret (Err (MissingDigits true))
        else
          let s := if is_negative then rest else s in
          let precision_diff := (- precision d)%Z in
          if (precision_diff <=? 0)%Z then
            match is_too_precise0 s with
            | Some position =>
                match from_str_radix true (i_lo I64t) (i_hi I64t) 10 s with
                | Ok 0%Z => Ret (Ok (is_negative, 0%Z))
                | _ => Ret (Err (TooPrecise (position + if is_negative then 1 else 0)))
                end
            | None => parse_tail is_negative 0 (before 46 s)
            end
          else parse_tail is_negative precision_diff s
  end.
(** InnerParseError::convert mod.rs:363-378; ParseAmountError is the converted variant *)
Inductive parse_amount_err :=
| PaOutOfRange (e : out_of_range) | PaTooPrecise (position : N) | PaMissingDigits (only_minus : bool)
| PaInputTooLarge (len : N) | PaInvalidCharacter (c position : N) | PaBadPosition (c position : N).
Definition convert (signed : bool) (e : inner_err) : parse_amount_err :=
  match e with
  | Overflow neg => PaOutOfRange {| is_signed := signed; is_greater_than_max := negb neg |}
  | TooPrecise p => PaTooPrecise p
  | MissingDigits b => PaMissingDigits b
  | InputTooLarge n => PaInputTooLarge n
  | InvalidCharacter c p => PaInvalidCharacter c p
  | BadPosition c p => PaBadPosition c p
  end.
(** Amount::from_str_in unsigned.rs:192-201 *)
Definition amount_from_str_in (s : str) (d : denom) : rust (result Z parse_amount_err) :=
  rbind (parse_signed_to_satoshi s d) (fun r =>
  match r with
  | Err e => Ret (Err (convert false e))
  | Ok (is_neg, amount) =>
      if is_neg then Ret (Err (PaOutOfRange {| is_signed := false; is_greater_than_max := false |}))
      else rbind (signed_to_unsigned amount) (fun u =>
           Ret (match u with Ok a => Ok a | Err e => Err (PaOutOfRange e) end))
  end).
(** SignedAmount::from_str_in signed.rs:202-206 *)
Definition signed_from_str_in (s : str) (d : denom) : rust (result Z parse_amount_err) :=
  rbind (parse_signed_to_satoshi s d) (fun r =>
  Ret (match r with Ok (_, a) => Ok a | Err e => Err (convert true e) end)).

(** ParseError, unsigned.rs *)
Inductive parse_err := PAmount (e : parse_amount_err) | PDenomination (e : denom_err) | PMissingDenomination.
Section Alphabetic.
  (** char::is_alphabetic (core, Unicode tables) *)
  Variable is_alphabetic : N -> bool.
  Fixpoint split_alpha (s : str) : option (str * str) :=
    match s with
    | [] => None
    | c :: s' => if is_alphabetic c then Some ([], s)
                 else match split_alpha s' with Some (a, b) => Some (c :: a, b) | None => None end
    end.
  (** split_amount_and_denomination mod.rs:381-393 *)
  Definition split_amount_and_denomination (s : str) : result (str * denom) parse_err :=
    match (match split_first 32 s with Some p => Some p | None => split_alpha s end) with
    | None => Err PMissingDenomination
    | Some (a, b) => match denom_from_str b with Ok d => Ok (a, d) | Err e => Err (PDenomination e) end
    end.
  (** from_str_with_denomination unsigned.rs:221-224, signed.rs:226-229; [f] is from_str_in *)
  Definition with_denomination (f : str -> denom -> rust (result Z parse_amount_err)) (s : str)
      : rust (result Z parse_err) :=
    match split_amount_and_denomination s with
    | Err e => Ret (Err e)
    | Ok (amt, d) => rbind (f amt d) (fun r => Ret (match r with Ok a => Ok a | Err e => Err (PAmount e) end))
    end.
  (** FromStr unsigned.rs:574-589, signed.rs:549-564 *)
  Definition from_str_gen (f : str -> denom -> rust (result Z parse_amount_err)) (s : str)
      : rust (result Z parse_err) :=
    rbind (with_denomination f s) (fun result =>
    match result with
    | Err PMissingDenomination =>
        rbind (f s Satoshi) (fun d =>
        match d with Ok 0%Z => Ret (Ok 0%Z) | _ => Ret result end)
    | _ => Ret result
    end).
  Definition amount_from_str_with_denomination := with_denomination amount_from_str_in.
  Definition signed_from_str_with_denomination := with_denomination signed_from_str_in.
  Definition amount_from_str := from_str_gen amount_from_str_in.
  Definition signed_from_str := from_str_gen signed_from_str_in.
End Alphabetic.

(** ** Formatting *)
(** mod.rs:397-404 *)
Inductive alignment := ALeft | ARight | ACenter.
Record options := { o_fill : N; o_align : option alignment; o_width : option N; o_precision : option N;
                    o_sign_plus : bool; o_zero_pad : bool }.
(** mod.rs:420-432: also what [to_string] uses *)
Definition default_options : options :=
  {| o_fill := 32; o_align := None; o_width := None; o_precision := None; o_sign_plus := false; o_zero_pad := false |}.
(** dec_width mod.rs:434-444: one round per decimal digit, at most one per bit *)
Fixpoint dec_width_loop (fuel : nat) (num width : N) : N :=
  match fuel with
  | O => width
  | S f => let num := num / 10 in if num =? 0 then width else dec_width_loop f num (width + 1)
  end.
Definition dec_width (num : N) : N := dec_width_loop (S (N.to_nat (N.log2 num))) num 1.
(** mod.rs:501-504; underflow of [norm] or non-termination is [Panic] *)
Fixpoint trim_loop (fuel : nat) (norm num : N) : rust (N * N) :=
  match fuel with
  | O => Panic
  | S f => if num mod 10 =? 0
           then (if norm =? 0 then Panic else trim_loop f (norm - 1) (num / 10))
           else Ret (norm, num)
  end.
Definition unwrap_or (o : option N) (d : N) : N := match o with Some x => x | None => d end.
(** u64 arithmetic with overflow checks *)
Definition add64 (a b : N) : rust N := if a + b <? 18446744073709551616 then Ret (a + b) else Panic.
(** mod.rs:481-492 *)
Definition round_satoshi (satoshi p : N) (fmt_precision : option N) : rust N :=
  match fmt_precision with
  | Some fp =>
      if fp <? p then
        let rounding_divisor := 10 ^ (p - fp) in
        let remainder := satoshi mod rounding_divisor in
        let satoshi := satoshi - remainder in
        if 5 <=? remainder / (rounding_divisor / 10) then add64 satoshi rounding_divisor else Ret satoshi
      else Ret satoshi
  | None => Ret satoshi
  end.
(** mod.rs:469-511: (before point, after point, norm, trailing zeros); [precision] is never positive,
    so the [Greater] arm and [exp] are left out *)
Definition digits_of (satoshi : N) (d : denom) (o : options) : rust (N * N * N * N) :=
  let opt_precision := unwrap_or (o_precision o) 0 in
  if (precision d <? 0)%Z then
    let p := Z.to_N (- precision d) in
    rbind (round_satoshi satoshi p (o_precision o)) (fun satoshi =>
    let divisor := 10 ^ p in
    let before := satoshi / divisor in
    let after := satoshi mod divisor in
    rbind (if after =? 0 then Ret (0, after) else trim_loop 20 p after) (fun '(norm, after) =>
    Ret (before, after, norm, opt_precision - norm)))
  else Ret (satoshi, 0, 0, opt_precision).
(** fmt_satoshi_in mod.rs:454-574: the written text *)
Definition fmt_satoshi_in (satoshi : N) (negative : bool) (d : denom) (show_denom : bool) (o : options) : rust str :=
  rbind (digits_of satoshi d o) (fun '(before, after, norm, trailing) =>
  rbind (usz (norm + trailing)) (fun total_decimals =>
  rbind (if 0 <? total_decimals then usz (1 + total_decimals) else Ret 0) (fun num_width =>
  rbind (usz (num_width + dec_width before)) (fun num_width =>
  rbind (if o_sign_plus o || negative then usz (num_width + 1) else Ret num_width) (fun num_width =>
  rbind (if show_denom then usz (num_width + (str_len (denom_str d) + 1)) else Ret num_width) (fun num_width =>
  let width := unwrap_or (o_width o) 0 in
  let align := match o_align o with Some a => a | None => ARight end in
  let '(left_pad, pad_right) :=
    if num_width <? width then
      if o_zero_pad o then (width - num_width, 0)
      else match align with
           | ARight => (width - num_width, 0)
           | ALeft => (0, width - num_width)
           | ACenter => ((width - num_width) / 2, ((width - num_width + 1) / 2))
           end
    else (0, 0) in
  let rep c n := repeat c (N.to_nat n) in
  Ret ((if o_zero_pad o then [] else rep (o_fill o) left_pad)
    ++ (if negative then [45] else if o_sign_plus o then [43] else [])
    ++ (if o_zero_pad o then rep 48 left_pad else [])
    ++ fmt_u before
    ++ (if 0 <? total_decimals then [46] else [])
    ++ (if 0 <? norm then fmt_u_width after norm else [])
    ++ rep 48 trailing
    ++ (if show_denom then 32 :: denom_str d else [])
    ++ rep (o_fill o) pad_right))))))).

(** Display mod.rs:593-642 and the methods of Amount and SignedAmount that make one *)
Inductive style := Fixed (d : denom) (show : bool) | Dynamic.
Record display := { d_abs : N; d_negative : bool; d_style : style }.
(** mod.rs:609-616 *)
Definition show_denomination (x : display) : display :=
  {| d_abs := d_abs x; d_negative := d_negative x;
     d_style := match d_style x with Fixed d _ => Fixed d true | Dynamic => Dynamic end |}.
(** mod.rs:619-636 *)
Definition ONE_BTC : N := 100000000.
Definition display_fmt (x : display) (o : options) : rust str :=
  match d_style x with
  | Fixed d show => fmt_satoshi_in (d_abs x) (d_negative x) d show o
  | Dynamic => if ONE_BTC <=? d_abs x then fmt_satoshi_in (d_abs x) (d_negative x) Bitcoin true o
               else fmt_satoshi_in (d_abs x) (d_negative x) Satoshi true o
  end.
(** unsigned.rs:326-347 *)
Definition amount_display_in (a : Z) (d : denom) : display :=
  {| d_abs := Z.to_N a; d_negative := false; d_style := Fixed d false |}.
Definition amount_display_dynamic (a : Z) : display :=
  {| d_abs := Z.to_N a; d_negative := false; d_style := Dynamic |}.
(** signed.rs:330-351 *)
Definition signed_display_in (a : Z) (d : denom) : rust display :=
  rbind (signed_unsigned_abs a) (fun x => Ret {| d_abs := Z.to_N x; d_negative := (a <? 0)%Z; d_style := Fixed d false |}).
Definition signed_display_dynamic (a : Z) : rust display :=
  rbind (signed_unsigned_abs a) (fun x => Ret {| d_abs := Z.to_N x; d_negative := (a <? 0)%Z; d_style := Dynamic |}).
(** unsigned.rs:363, 378, 561-566; [to_string] formats with default options *)
Definition amount_to_string_in (a : Z) (d : denom) : rust str := display_fmt (amount_display_in a d) default_options.
Definition amount_to_string_with_denomination (a : Z) (d : denom) : rust str :=
  display_fmt (show_denomination (amount_display_in a d)) default_options.
Definition amount_display (a : Z) (o : options) : rust str :=
  display_fmt (show_denomination (amount_display_in a Bitcoin)) o.
(** signed.rs:367, 382, Display *)
Definition signed_to_string_in (a : Z) (d : denom) : rust str :=
  rbind (signed_display_in a d) (fun x => display_fmt x default_options).
Definition signed_to_string_with_denomination (a : Z) (d : denom) : rust str :=
  rbind (signed_display_in a d) (fun x => display_fmt (show_denomination x) default_options).
Definition signed_display (a : Z) (o : options) : rust str :=
  rbind (signed_display_in a Bitcoin) (fun x => display_fmt (show_denomination x) o).
