(** Base58check: base58/src/lib.rs.  A string is the list of its UTF-8 bytes.
    sha256d is a parameter.  The buffers hold digits, least significant first, in a Vec ([cap] is
    None) or an ArrayVec ([cap] is its capacity). *)
From Verif Require Import Base MDec.
Local Open Scope N_scope.

(** lib.rs:61 *)
Definition BASE58_CHARS : bytes :=
  [49; 50; 51; 52; 53; 54; 55; 56; 57; 65; 66; 67; 68; 69; 70; 71; 72; 74; 75; 76; 77; 78; 80; 81; 82; 83; 84; 85; 86; 87; 88; 89; 90;
   97; 98; 99; 100; 101; 102; 103; 104; 105; 106; 107; 109; 110; 111; 112; 113; 114; 115; 116; 117; 118; 119; 120; 121; 122].
(** lib.rs:92-109 *)
Definition BASE58_DIGITS : list (option N) :=
  repeat None 48 ++
  [None; Some 0; Some 1; Some 2; Some 3; Some 4; Some 5; Some 6;
   Some 7; Some 8; None; None; None; None; None; None;
   None; Some 9; Some 10; Some 11; Some 12; Some 13; Some 14; Some 15;
   Some 16; None; Some 17; Some 18; Some 19; Some 20; Some 21; None;
   Some 22; Some 23; Some 24; Some 25; Some 26; Some 27; Some 28; Some 29;
   Some 30; Some 31; Some 32; None; None; None; None; None;
   None; Some 33; Some 34; Some 35; Some 36; Some 37; Some 38; Some 39;
   Some 40; Some 41; Some 42; Some 43; None; Some 44; Some 45; Some 46;
   Some 47; Some 48; Some 49; Some 50; Some 51; Some 52; Some 53; Some 54;
   Some 55; Some 56; Some 57; None; None; None; None; None].
(** Buffer::try_push lib.rs:455-476 *)
Definition try_push (cap : option N) (buf : list N) (v : N) : option (list N) :=
  match cap with
  | None => Some (buf ++ [v])
  | Some c => if lenN buf <? c then Some (buf ++ [v]) else None
  end.
(** the loops [while carry > 0] of :137-141 and :497-500: the digit pushed is the carry modulo the base
    ([carry as u8] for base 256).  A u32 is zero after 32 halvings, so [fuel] 33 always suffices. *)
Fixpoint push_carry (fuel : nat) (base : N) (cap : option N) (buf : list N) (carry : N) : rust (option (list N)) :=
  match fuel with
  | O => Panic
  | S f =>
      if carry =? 0 then Ret (Some buf)
      else match try_push cap buf (carry mod base) with
           | None => Ret None
           | Some buf' => push_carry f base cap buf' (carry / base)
           end
  end.
(** a u32 that must not overflow *)
Definition u32_ck (v : N) : rust N := if v <? 2 ^ 32 then Ret v else Panic.

(** the inner loop of build_base256 :132-136 *)
Fixpoint dec_digits (buf : list N) (carry : N) : rust (list N * N) :=
  match buf with
  | [] => Ret ([], carry)
  | d :: buf' =>
      rbind (u32_ck (carry + d * 58)) (fun c =>
      rbind (dec_digits buf' (c / 256)) (fun '(r, c') => Ret (c mod 256 :: r, c')))
  end.
Inductive base256_err := BufferFull | InvalidChar (c : N).
(** build_base256 :119-144 *)
Fixpoint build_base256 (cap : option N) (data : bytes) (scratch : list N) : rust (result (list N) base256_err) :=
  match data with
  | [] => Ret (Ok scratch)
  | d58 :: data' =>
      match nth (N.to_nat d58) BASE58_DIGITS None with
      | None => Ret (Err (InvalidChar d58))
      | Some carry =>
          rbind (dec_digits scratch carry) (fun '(s, c) =>
          rbind (push_carry 33 256 cap s c) (fun o =>
          match o with
          | None => Ret (Err BufferFull)
          | Some s' => build_base256 cap data' s'
          end))
      end
  end.
(** the number of leading '1's :176, 240 *)
Fixpoint leading_ones (data : bytes) : nat :=
  match data with
  | c :: d => if c =? 49 then S (leading_ones d) else O
  | [] => O
  end.
Inductive decode_error := Decode (c : N) | IncorrectChecksum (incorrect expected : N) | TooShort (length : N).
Inductive array_error := UnexpectedLength (expected actual : N) | DecodeErr (e : decode_error).

(** the inner loop of encode_to_buffer :491-495 *)
Fixpoint enc_digits (buf : list N) (carry : N) : rust (list N * N) :=
  match buf with
  | [] => Ret ([], carry)
  | ch :: buf' =>
      rbind (u32_ck (ch * 256 + carry)) (fun n =>
      rbind (enc_digits buf' (n / 58)) (fun '(r, c') => Ret (n mod 58 :: r, c')))
  end.
(** the loop of encode_to_buffer :483-501: the buffer and the count of leading zero bytes *)
Fixpoint enc_loop (cap : option N) (data : bytes) (leading : bool) (zeros : nat) (buf : list N) : rust (option (nat * list N)) :=
  match data with
  | [] => Ret (Some (zeros, buf))
  | d256 :: data' =>
      let '(leading, zeros) := if leading && (d256 =? 0) then (leading, S zeros) else (false, zeros) in
      rbind (enc_digits buf d256) (fun '(b, carry) =>
      rbind (push_carry 33 58 cap b carry) (fun o =>
      match o with
      | None => Ret None
      | Some b' => enc_loop cap data' leading zeros b'
      end))
  end.
(** :504-506 *)
Fixpoint push_zeros (cap : option N) (n : nat) (buf : list N) : option (list N) :=
  match n with
  | O => Some buf
  | S n' => match try_push cap buf 0 with None => None | Some b => push_zeros cap n' b end
  end.
(** :509-511; an index out of range panics *)
Fixpoint to_chars (l : list N) : rust bytes :=
  match l with
  | [] => Ret []
  | d :: l' =>
      match nth_error BASE58_CHARS (N.to_nat d) with
      | None => Panic
      | Some c => rbind (to_chars l') (fun r => Ret (c :: r))
      end
  end.
(** encode_to_buffer :479-514 *)
Definition encode_to_buffer (cap : option N) (data : bytes) : rust (option bytes) :=
  rbind (enc_loop cap data true 0 []) (fun o =>
  match o with
  | None => Ret None
  | Some (zeros, buf) =>
      match push_zeros cap zeros buf with
      | None => Ret None
      | Some b => rbind (to_chars (rev b)) (fun s => Ret (Some s))
      end
  end).
(** :280, :435-444; usize multiplication overflow panics *)
Definition SHORT_OPT_BUFFER_LEN : N := 128.
Definition encoded_check_reserve_len (n : N) : rust N :=
  if (n + 4) * 137 <? 2 ^ 64 then Ret ((n + 4) * 137 / 100) else Panic.

Section Sha.
  Variable sha256d : bytes -> bytes.
  Definition checksum (data : bytes) : bytes := firstn 4 (sha256d data).
  (** Base58CkString::encode_unbounded :356-370 (encode :326-330 with the alloc feature is the same) *)
  Definition encode (data : bytes) : rust bytes :=
    rbind (encoded_check_reserve_len (lenN data)) (fun reserve_len =>
    rbind (encode_to_buffer (if reserve_len <=? SHORT_OPT_BUFFER_LEN then Some SHORT_OPT_BUFFER_LEN else None) (data ++ checksum data)) (fun o =>
    match o with None => Panic | Some s => Ret s end)).
  (** encode without the alloc feature :332-340; the error holds the input length *)
  Definition encode_no_alloc (data : bytes) : rust (result bytes N) :=
    rbind (encode_to_buffer (Some SHORT_OPT_BUFFER_LEN) (data ++ checksum data)) (fun o =>
    Ret (match o with None => Err (lenN data) | Some s => Ok s end)).
  (** the checksum part of decode_check :180-193; split_last_chunk (core) *)
  Definition check (ret : bytes) : result bytes decode_error :=
    if lenN ret <? 4 then Err (TooShort (lenN ret))
    else
      let remaining := takeN (lenN ret - 4) ret in
      let data_check := dropN (lenN ret - 4) ret in
      let expected := le_val (checksum remaining) in
      let actual := le_val data_check in
      if negb (actual =? expected) then Err (IncorrectChecksum actual expected) else Ok remaining.
  (** decode_check :167-194 *)
  Definition decode_check (data : bytes) : rust (result bytes decode_error) :=
    rbind (build_base256 None data []) (fun r =>
    match r with
    | Err BufferFull => Panic
    | Err (InvalidChar c) => Ret (Err (Decode c))
    | Ok scratch => Ret (check (repeat 0 (leading_ones data) ++ rev scratch))
    end).
  (** decode_check_to_array :224-278 *)
  Definition decode_check_to_array (n : N) (data : bytes) : rust (result bytes array_error) :=
    let guess := lenN data * 11 / 15 in
    rbind (build_base256 (Some SHORT_OPT_BUFFER_LEN) data []) (fun r =>
    match r with
    | Err BufferFull => Ret (Err (UnexpectedLength n guess))
    | Err (InvalidChar c) => Ret (Err (DecodeErr (Decode c)))
    | Ok scratch =>
        let leading_zeros := N.of_nat (leading_ones data) in
        let decoded_len := leading_zeros + lenN scratch in
        if SHORT_OPT_BUFFER_LEN <? decoded_len then Ret (Err (UnexpectedLength n guess))
        else
          let decoded := repeat 0 (leading_ones data) ++ rev scratch in
          if decoded_len <? 4 then Ret (Err (DecodeErr (TooShort decoded_len)))
          else
            let payload := takeN (decoded_len - 4) decoded in
            let data_check := dropN (decoded_len - 4) decoded in
            if negb (lenN payload =? n) then Ret (Err (UnexpectedLength n (lenN payload)))
            else
              let expected := le_val (checksum payload) in
              let actual := le_val data_check in
              if negb (actual =? expected) then Ret (Err (DecodeErr (IncorrectChecksum actual expected)))
              else Ret (Ok payload)
    end).
End Sha.
