(** Model of partial Merkle trees and merkle blocks.  File: p2p/src/merkle_tree.rs. *)
From Verif Require Import Base MDec MWitness MTx MMerkle.
Local Open Scope N_scope.

Definition U32 : N := 4294967296.
(** merkle_tree.rs:197-204 *)
Record pmt (T : Type) := { pm_num : N; pm_bits : list bool; pm_hashes : list T }.
Arguments pm_num {T}. Arguments pm_bits {T}. Arguments pm_hashes {T}.
(** merkle_tree.rs:590-617 *)
Inductive mb_err :=
| MbRootMismatch | MbNoTransactions | MbTooManyTransactions | MbTooManyHashes | MbNotEnoughBits
| MbNotAllBits | MbNotAllHashes | MbBitsOverflow | MbHashesOverflow | MbIdentical.

(** merkle_tree.rs:324-326: [(num + (1 << height) - 1) >> height], in u32 *)
Definition calc_tree_width (n h : N) : rust N :=
  if 32 <=? h then Panic
  else if U32 <=? n + 2 ^ h then Panic
  else Ret ((n + 2 ^ h - 1) / 2 ^ h).
(** merkle_tree.rs:313-319; the fuel is never exhausted, the shift panics first *)
Fixpoint height_loop (fuel : nat) (n h : N) : rust N :=
  match fuel with
  | O => Panic
  | S fuel' => rbind (calc_tree_width n h) (fun w => if 1 <? w then height_loop fuel' n (h + 1) else Ret h)
  end.
Definition calc_tree_height (n : N) : rust N := height_loop 33 n 0.

(** an index into a slice *)
Definition get {A} (i : N) (l : list A) : option A := nth_error l (N.to_nat i).

(** The recursions on [height: u32] are written on a natural number. *)
Section Pmt.
(** nodes, their equality and [combine] (primitives/src/merkle_tree.rs:165-170).  A txid is a node with
    the same bytes. *)
Context {T : Type} (eqb : T -> T -> bool) (combine : T -> T -> T).

(** merkle_tree.rs:329-345 *)
Fixpoint calc_hash (n : N) (txids : list T) (h : nat) (pos : N) : rust T :=
  match h with
  | O => match get pos txids with Some x => Ret x | None => Panic end
  | S h' =>
      if U32 <=? pos * 2 + 1 then Panic
      else rbind (calc_hash n txids h' (pos * 2)) (fun lft =>
           rbind (calc_tree_width n (N.of_nat h')) (fun w =>
           rbind (if pos * 2 + 1 <? w then calc_hash n txids h' (pos * 2 + 1) else Ret lft) (fun rgt =>
           Ret (combine lft rgt))))
  end.
(** merkle_tree.rs:356-361: the loop reads matches[p] for p from [pos << h] up to [(pos + 1) << h] and
    [num]; written as a test of the slice it reads. *)
Definition parent_of_match (n : N) (matches : list bool) (h pos : N) : rust bool :=
  if 32 <=? h then Panic
  else if U32 <=? pos + 1 then Panic
  else let lo := (pos * 2 ^ h) mod U32 in
       let hi := N.min (((pos + 1) * 2 ^ h) mod U32) n in
       if hi <=? lo then Ret false
       else if lenN matches <? hi then Panic
       else Ret (existsb (fun b => b) (takeN (hi - lo) (dropN lo matches))).
(** merkle_tree.rs:348-370; the state is (bits, hashes) *)
Fixpoint traverse_and_build (n : N) (txids : list T) (matches : list bool) (h : nat) (pos : N)
    (s : list bool * list T) : rust (list bool * list T) :=
  rbind (parent_of_match n matches (N.of_nat h) pos) (fun m =>
  let bits := fst s ++ [m] in
  let leaf := rbind (calc_hash n txids h pos) (fun x => Ret (bits, snd s ++ [x])) in
  match h with
  | O => leaf
  | S h' =>
      if negb m then leaf
      else if U32 <=? pos * 2 + 1 then Panic
      else rbind (traverse_and_build n txids matches h' (pos * 2) (bits, snd s)) (fun s1 =>
           rbind (calc_tree_width n (N.of_nat h')) (fun w =>
           if pos * 2 + 1 <? w then traverse_and_build n txids matches h' (pos * 2 + 1) s1 else Ret s1))
  end).
(** merkle_tree.rs:245-260 *)
Definition from_txids (txids : list T) (matches : list bool) : rust (pmt T) :=
  if lenN txids =? 0 then Panic
  else if negb (lenN txids =? lenN matches) then Panic
  else let n := lenN txids mod U32 in
       rbind (calc_tree_height n) (fun h =>
       rbind (traverse_and_build n txids matches (N.to_nat h) 0 ([], [])) (fun s =>
       Ret {| pm_num := n; pm_bits := fst s; pm_hashes := snd s |})).

(** the [&mut] arguments of traverse_and_extract *)
Record ext := { bits_used : N; hash_used : N; e_matches : list T; e_indexes : list N }.
(** merkle_tree.rs:374-432 *)
Fixpoint traverse_and_extract (p : pmt T) (h : nat) (pos : N) (s : ext) : rust (ext * result T mb_err) :=
  match get (bits_used s) (pm_bits p) with
  | None => Ret (s, Err MbBitsOverflow)
  | Some m =>
      if U32 <=? bits_used s + 1 then Panic else
      let s1 := {| bits_used := bits_used s + 1; hash_used := hash_used s;
                   e_matches := e_matches s; e_indexes := e_indexes s |} in
      let leaf (zero : bool) :=
        match get (hash_used s1) (pm_hashes p) with
        | None => Ret (s1, Err MbHashesOverflow)
        | Some x =>
            if U32 <=? hash_used s1 + 1 then Panic
            else Ret ({| bits_used := bits_used s1; hash_used := hash_used s1 + 1;
                         e_matches := if zero && m then e_matches s1 ++ [x] else e_matches s1;
                         e_indexes := if zero && m then e_indexes s1 ++ [pos] else e_indexes s1 |}, Ok x)
        end in
      match h with
      | O => leaf true
      | S h' =>
          if negb m then leaf false
          else if U32 <=? pos * 2 + 1 then Panic
          else rbind (traverse_and_extract p h' (pos * 2) s1) (fun '(s2, r) =>
               match r with
               | Err e => Ret (s2, Err e)
               | Ok lft =>
                   rbind (calc_tree_width (pm_num p) (N.of_nat h')) (fun w =>
                   if pos * 2 + 1 <? w then
                     rbind (traverse_and_extract p h' (pos * 2 + 1) s2) (fun '(s3, r3) =>
                     match r3 with
                     | Err e => Ret (s3, Err e)
                     | Ok rgt => if eqb rgt lft then Ret (s3, Err MbIdentical) else Ret (s3, Ok (combine lft rgt))
                     end)
                   else Ret (s2, Ok (combine lft lft)))
               end)
      end
  end.
(** units/src/weight.rs: Weight::MAX_BLOCK / Weight::MIN_TRANSACTION = 4_000_000 / 240 *)
Definition MAX_TXS : N := 16666.
(** u32/usize::div_ceil(8) *)
Definition div_ceil8 (x : N) : N := (x + 7) / 8.
(** merkle_tree.rs:269-310; returns the two vectors and the result.  The vectors passed in are cleared. *)
Definition extract_matches (p : pmt T) (matches : list T) (indexes : list N)
  : rust (list T * list N * result T mb_err) :=
  if pm_num p =? 0 then Ret ([], [], Err MbNoTransactions)
  else if MAX_TXS <? pm_num p then Ret ([], [], Err MbTooManyTransactions)
  else if pm_num p <? lenN (pm_hashes p) mod U32 then Ret ([], [], Err MbTooManyHashes)
  else if lenN (pm_bits p) <? lenN (pm_hashes p) then Ret ([], [], Err MbNotEnoughBits)
  else rbind (calc_tree_height (pm_num p)) (fun h =>
       rbind (traverse_and_extract p (N.to_nat h) 0 {| bits_used := 0; hash_used := 0; e_matches := []; e_indexes := [] |})
         (fun '(s, r) =>
          Ret (e_matches s, e_indexes s,
               match r with
               | Err e => Err e
               | Ok root =>
                   if negb (div_ceil8 (bits_used s) =? div_ceil8 (lenN (pm_bits p)) mod U32) then Err MbNotAllBits
                   else if negb (hash_used s =? lenN (pm_hashes p) mod U32) then Err MbNotAllHashes
                   else Ok root
               end))).
End Pmt.

(** ** Merkle blocks *)
Section Block.
(** sha256d *)
Context (H : bytes -> bytes).
(** merkle_tree.rs:55-61 *)
Record merkle_block := { mb_header : header; mb_txn : pmt bytes }.
(** merkle_tree.rs:93-105 *)
Definition from_header_txids (hd : header) (txids : list bytes) (pred : bytes -> bool) : rust merkle_block :=
  rbind (from_txids (node_combine H) txids (map pred txids)) (fun t => Ret {| mb_header := hd; mb_txn := t |}).
(** merkle_tree.rs:80-87 *)
Definition from_block (b : block) (pred : bytes -> bool) : rust merkle_block :=
  rbind (rmap_opt (compute_txid H) (b_txs b)) (fun txids => from_header_txids (b_header b) txids pred).
(** merkle_tree.rs:114-126 *)
Definition mb_extract (m : merkle_block) (matches : list bytes) (indexes : list N)
  : rust (list bytes * list N * result unit mb_err) :=
  rbind (extract_matches beqb (node_combine H) (mb_txn m) matches indexes) (fun '(ms, ixs, r) =>
  Ret (ms, ixs, match r with
                | Err e => Err e
                | Ok root => if beqb root (h_merkle (mb_header m)) then Ok tt else Err MbRootMismatch
                end)).
End Block.

(** ** Consensus encoding *)
(** merkle_tree.rs:444-451: the inner loop, from bit [i] on *)
Fixpoint pack_byte (i : N) (chunk : list bool) : N :=
  match chunk with
  | [] => 0
  | b :: chunk' => N.lor (if b then 2 ^ i else 0) (pack_byte (i + 1) chunk')
  end.
(** merkle_tree.rs:442-454; [bits.chunks(8)] *)
Fixpoint pack_bits (bits : list bool) : bytes :=
  match bits with
  | a :: b :: c :: d :: e :: f :: g :: h :: bits' => pack_byte 0 [a; b; c; d; e; f; g; h] :: pack_bits bits'
  | [] => []
  | chunk => [pack_byte 0 chunk]
  end.
(** merkle_tree.rs:512-516 *)
Definition unpack_byte (byte : N) : list bool := map (N.testbit byte) [0; 1; 2; 3; 4; 5; 6; 7].
Definition unpack_bits (l : bytes) : list bool := flat_map unpack_byte l.
(** merkle_tree.rs:483-494.  The bytes the encoders produce, in order. *)
Definition pmt_encode (p : pmt bytes) : bytes :=
  le_bytes 4 (pm_num p) ++ slice_encode (fun h => h) (pm_hashes p) ++
  cs_encode (div_ceil8 (lenN (pm_bits p))) ++ pack_bits (pm_bits p).
(** merkle_tree.rs:497-519 *)
Definition pmt_err := err3 eof_err (vec_err eof_err) bv_err.
Definition pmt_dec : decoder (pmt bytes) pmt_err :=
  newtype_dec (dec3 (array_dec 4) (vec_dec hash_dec MAX_VEC_SIZE) (bytevec_dec MAX_VEC_SIZE)) (fun e => e)
    (fun '(n, hashes, packed) => Ok {| pm_num := le_val n; pm_bits := unpack_bits packed; pm_hashes := hashes |}).
(** merkle_tree.rs:129-160 *)
Definition mb_encode (m : merkle_block) : bytes := header_encode (mb_header m) ++ pmt_encode (mb_txn m).
Definition mb_dec : decoder merkle_block (err2 header_err pmt_err) :=
  newtype_dec (dec2 header_dec pmt_dec) (fun e => e) (fun '(h, t) => Ok {| mb_header := h; mb_txn := t |}).
