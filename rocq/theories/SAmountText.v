(** What amount texts mean.  [p] is the number of decimal places of the denomination. *)
From Coq Require Import String.
From Verif Require Import Base MText SText MAmountText.
Local Open Scope N_scope.

(** one unit is 10^p satoshi *)
Definition places (d : denom) : N :=
  match d with Bitcoin => 8 | CentiBitcoin => 6 | MilliBitcoin => 5 | MicroBitcoin => 2 | Bit => 2 | Satoshi => 0 end.
(** possibly empty text of decimal digits denoting [n] *)
Definition digits_or_empty (s : str) (n : N) : Prop := (s = [] /\ n = 0) \/ numeral digit10 10 s n.
(** '_' is 95, '.' is 46: no underscore first, no two in a row *)
Definition underscores_ok (s : str) : Prop := hd 0 s <> 95 /\ ~ exists a b, s = a ++ 95 :: 95 :: b.
Definition without_underscores (s : str) : str := filter (fun c => negb (c =? 95)) s.
(** [decimal_text p s v]: [s] writes the decimal number v / 10^p with at most [p] decimals *)
Definition decimal_text (p : N) (s : str) (v : N) : Prop :=
  s <> [] /\ underscores_ok s /\
  exists ip fp n m, (without_underscores s = ip ++ 46 :: fp \/ (without_underscores s = ip /\ fp = [])) /\
    digits_or_empty ip n /\ digits_or_empty fp m /\ lenN fp <= p /\
    v = n * 10 ^ p + m * 10 ^ (p - lenN fp).
(** [amount_text d s v]: the unsigned text [s] is the amount of [v] satoshi in denomination [d].  In
    satoshi a fraction may be written, but only one made of zeros. *)
Definition amount_text (d : denom) (s : str) (v : N) : Prop :=
  match d with
  | Satoshi => exists ip z, (s = ip \/ s = ip ++ 46 :: z) /\ ~ In 46 ip /\ Forall (eq 48) z /\ decimal_text 0 ip v
  | _ => decimal_text (places d) s v
  end.
(** with a sign ('-' is 45) *)
Definition signed_text (d : denom) (s : str) (a : Z) : Prop :=
  (exists v, amount_text d s v /\ a = Z.of_N v) \/ (exists t v, s = 45 :: t /\ amount_text d t v /\ a = (- Z.of_N v)%Z).
(** nearest multiple of 10^k, halves up *)
Definition round_half_up (k a r : N) : Prop :=
  exists q, r = q * 10 ^ k /\ 2 * r <= 2 * a + 10 ^ k /\ 2 * a < 2 * r + 10 ^ k.
(** the value printed: [a], or [a] rounded when the requested precision [q] drops decimals *)
Definition rounded (p a : N) (q : option N) (r : N) : Prop :=
  match q with
  | Some k => (k < p -> round_half_up (p - k) a r) /\ (p <= k -> r = a)
  | None => r = a
  end.
(** [shown p a q t]: [t] is that value in units of 10^p: a shortest whole part, and exactly [k]
    decimals for a requested precision [k], as few as possible otherwise *)
Definition shown (p a : N) (q : option N) (t : str) : Prop :=
  exists r ip n fp m,
    rounded p a q r /\ canonical ip n /\ digits_or_empty fp m /\
    t = ip ++ (match fp with [] => [] | _ => 46 :: fp end) /\
    r * 10 ^ lenN fp = (n * 10 ^ lenN fp + m) * 10 ^ p /\
    match q with Some k => lenN fp = k | None => fp = [] \/ last fp 48 <> 48 end.
Definition times (n : N) (c : N) : str := repeat c (N.to_nat n).
(** [padded o sign t u out]: the sign, the number [t] and the denomination [u] brought to the width of
    the format specification *)
Definition padded (o : options) (sign t u out : str) : Prop :=
  let extra := unwrap_or (o_width o) 0 - lenN (sign ++ t ++ u) in
  if o_zero_pad o then out = sign ++ times extra 48 ++ t ++ u
  else
    let left := match o_align o with
                | Some ALeft => 0 | Some ACenter => extra / 2 | Some ARight | None => extra end in
    out = times left (o_fill o) ++ (sign ++ t ++ u) ++ times (extra - left) (o_fill o).
Definition sign_of (negative plus : bool) : str := if negative then [45] else if plus then [43] else [].
Definition unit_of (show : bool) (d : denom) : str := if show then 32 :: denom_str d else [].
(** what each denomination may be called; U+00B5 is 181 *)
Definition denom_name (d : denom) (u : str) : Prop :=
  match d with
  | Bitcoin => In u [lit "BTC"; lit "btc"]
  | CentiBitcoin => In u [lit "cBTC"; lit "cbtc"]
  | MilliBitcoin => In u [lit "mBTC"; lit "mbtc"]
  | MicroBitcoin => In u [lit "uBTC"; lit "ubtc"; 181 :: lit "BTC"; 181 :: lit "btc"]
  | Bit => In u [lit "bit"; lit "bits"; lit "BIT"; lit "BITS"]
  | Satoshi => In u [lit "satoshi"; lit "satoshis"; lit "sat"; lit "sats";
                     lit "SATOSHI"; lit "SATOSHIS"; lit "SAT"; lit "SATS"]
  end.
(** capital C, M, U in front of a bitcoin name: centi or Cents?, milli or Mega?, ... *)
Definition confusing (u : str) : Prop :=
  exists c b, u = c :: b /\ In c [67; 77; 85] /\ In b [lit "BTC"; lit "btc"].
(** a text is split at its first space, or, without one, before its first letter *)
Definition split_text (letter : N -> bool) (s t u : str) : Prop :=
  (s = t ++ 32 :: u /\ ~ In 32 t) \/
  (~ In 32 s /\ s = t ++ u /\ (forall c, In c t -> letter c = false) /\ exists c u', u = c :: u' /\ letter c = true).
