(** What the bech32 crate (version 0.11, a dependency, not in /repo) is taken to do: bech32::segwit::decode and
    encode_lower_to_fmt_unchecked / encode_upper_to_fmt_unchecked, called in addresses/src/lib.rs:365-367, 1074.
    Written from its documentation and from BIP173 and BIP350; a text is its list of characters.  Errors are not distinguished. *)
From Coq Require Import String.
From Verif Require Import Base MText SBip158 SBech32.
Local Open Scope N_scope.

Definition is_upper (c : N) : bool := (65 <=? c) && (c <=? 90).
Definition is_lower (c : N) : bool := (97 <=? c) && (c <=? 122).
Definition to_lower (c : N) : N := if is_upper c then c + 32 else c.
Definition to_upper (c : N) : N := if is_lower c then c - 32 else c.
(** Fe32::from_char, to_char *)
Fixpoint index_of (c : N) (l : str) (i : N) : option N :=
  match l with [] => None | x :: l' => if c =? x then Some i else index_of c l' (i + 1) end.
Definition fe_from_char (c : N) : option N := index_of (to_lower c) charset 0.
Definition fe_to_char (v : N) : N := nth (N.to_nat v) charset 0.
(** bits of big-endian groups *)
Definition of_bits (l : list bool) : N := fold_left (fun a (b : bool) => 2 * a + (if b then 1 else 0)) l 0.
Fixpoint chunks (w : nat) (fuel : nat) (l : list bool) : list (list bool) :=
  match fuel with
  | O => []
  | S f => match l with [] => [] | _ => firstn w l :: chunks w f (skipn w l) end
  end.
(** bytes_to_fes: the last group is padded with zeros *)
Definition bytes_to_fes (p : bytes) : list N :=
  let b := flat_map (bits_of 8) p in
  map (fun c => of_bits (c ++ repeat false (5 - length c))) (chunks 5 (length b) b).
(** fes_to_bytes, with the check of the padding (validate_segwit_padding): fewer than five bits, all zero *)
Definition fes_to_bytes (d : list N) : option bytes :=
  let b := flat_map (bits_of 5) d in
  let whole := (8 * (length b / 8))%nat in
  let pad := skipn whole b in
  if (length pad <? 5)%nat && forallb negb pad then Some (map of_bits (chunks 8 (length b) (firstn whole b))) else None.
(** the six checksum symbols appended by the encoder *)
Definition checksum_of (hrp : str) (version : N) (data : list N) : list N :=
  let poly := N.lxor (polymod (expand hrp ++ data ++ repeat 0 6)) (residue version) in
  map (fun i => N.land (N.shiftr poly (5 * i)) 31) [5; 4; 3; 2; 1; 0].
(** encode_lower_to_fmt_unchecked and encode_upper_to_fmt_unchecked; the hrp is lower case *)
Definition encode_lower (hrp : str) (version : N) (program : bytes) : str :=
  let data := version :: bytes_to_fes program in
  hrp ++ lit "1" ++ map fe_to_char (data ++ checksum_of hrp version data).
Definition encode_upper (hrp : str) (version : N) (program : bytes) : str := map to_upper (encode_lower hrp version program).

(** position of the last separator *)
Fixpoint rsplit (c : N) (s : str) : option (str * str) :=
  match s with
  | [] => None
  | x :: t => match rsplit c t with
              | Some (a, b) => Some (x :: a, b)
              | None => if x =? c then Some ([], t) else None
              end
  end.
Fixpoint all_some {A} (l : list (option A)) : option (list A) :=
  match l with
  | [] => Some []
  | Some a :: l' => match all_some l' with Some r => Some (a :: r) | None => None end
  | None :: _ => None
  end.
(** segwit::decode: SegwitHrpstring::new then the collected bytes; the hrp keeps the case of the text.  [s.len()] counts bytes, and
    any character that is not ASCII is refused, so counting characters gives the same answer. *)
Definition segwit_decode (s : str) : option (str * N * bytes) :=
  if 90 <? lenN s then None else
  match rsplit 49 s with
  | None => None
  | Some (hrp, data) =>
      if (lenN hrp =? 0) || (83 <? lenN hrp) then None else
      if negb (forallb (fun c => (33 <=? c) && (c <=? 126)) hrp) then None else
      if existsb is_upper s && existsb is_lower s then None else
      match all_some (map fe_from_char data) with
      | None | Some [] => None
      | Some (version :: rest) =>
          if 16 <? version then None else
          if lenN rest <? 6 then None else
          if negb (polymod (expand (map to_lower hrp) ++ version :: rest) =? residue version) then None else
          match fes_to_bytes (firstn (length rest - 6) rest) with
          | None => None
          | Some program =>
              let n := lenN program in
              if (n <? 2) || (40 <? n) then None else
              if (version =? 0) && negb (n =? 20) && negb (n =? 32) then None else
              Some (hrp, version, program)
          end
      end
  end.
