(** What the hash functions compute: the standard's padding, cut into blocks, and the compression
    function folded over them.  Independent of the code's buffering. *)
From Verif Require Import Base MDec.
Local Open Scope N_scope.

(** [l] cut into pieces of [bs] bytes (the last one may be shorter) *)
Fixpoint cut (fuel : nat) (bs : N) (l : bytes) : list bytes :=
  match fuel with
  | O => []
  | S f => match l with [] => [] | _ => takeN bs l :: cut f bs (dropN bs l) end
  end.
Definition blocks (bs : N) (l : bytes) : list bytes := cut (length l) bs l.
(** the least number of bytes that makes a length [n] a multiple of [bs] *)
Definition fill (bs n : N) : N := (bs - n mod bs) mod bs.
(** Merkle-Damgard padding (FIPS 180-4 section 5.1, RIPEMD-160): a byte 0x80, zeros, and the length in bits on [lf] bytes *)
Definition md_pad (bs lf : N) (enc : N -> bytes) (m : bytes) : bytes :=
  m ++ 128 :: repeat 0 (N.to_nat (fill bs (lenN m + 1 + lf))) ++ enc (8 * lenN m).
(** SHA-3 padding (FIPS 202 sections 5.1 and 6.1: the suffix 01 and pad10*1, as bytes) *)
Definition sha3_pad (bs : N) (m : bytes) : bytes :=
  let k := fill bs (lenN m + 1) in
  if k =? 0 then m ++ [134] else m ++ 6 :: repeat 0 (N.to_nat (k - 1)) ++ [128].
(** the iterated compression *)
Definition iterate {St} (bs : N) (comp : St -> bytes -> St) (iv : St) (padded : bytes) : St :=
  fold_left comp (blocks bs padded) iv.
