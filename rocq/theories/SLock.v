(** Specification of lock times (Bitcoin Core's IsFinalTx, BIP68 sequence locks), median time past
    and block locators. *)
From Verif Require Import Base MWitness MTx MLock.
From Coq Require Import Permutation Sorted.
Local Open Scope N_scope.

(** Values the types can hold. *)
Definition u32 (n : N) : Prop := n < 2 ^ 32.
Definition u16 (n : N) : Prop := n < 2 ^ 16.
Definition height_ok (h : N) : Prop := h < 500000000.
Definition mtp_ok (t : N) : Prop := 500000000 <= t < 2 ^ 32.
Definition abs_ok (l : abs_lock) : Prop := match l with ABlocks h => height_ok h | ASeconds t => mtp_ok t end.
Definition rel_ok (l : rel_lock) : Prop := match l with RBlocks n | RTime n => u16 n end.

(** Consensus (Core's IsFinalTx): nLockTime is below the height of the next block, or below the
    median time past, depending on the threshold. *)
Definition lock_passed (nLockTime next_height mtp : N) : Prop :=
  nLockTime < (if nLockTime <? 500000000 then next_height else mtp).
Definition final_tx (tx : transaction) (next_height mtp : N) : Prop :=
  tx_lock_time tx = 0 \/ lock_passed (tx_lock_time tx) next_height mtp \/
  Forall (fun i => ti_sequence i = 2 ^ 32 - 1) (tx_inputs tx).

(** BIP68 (Core's CalculateSequenceLocks and EvaluateSequenceLocks) for one input of a transaction
    in the block after the tip: the coin was mined at [coin_height], and [coin_time] is the median
    time past of the block before that.  Bit 31 disables, bit 22 selects time. *)
Definition seq_lock_passed (seq coin_height coin_time tip_height tip_mtp : N) : Prop :=
  N.testbit seq 31 = true \/
  if N.testbit seq 22
  then (Z.of_N coin_time + Z.of_N (seq mod 2 ^ 16) * 512 - 1 < Z.of_N tip_mtp)%Z
  else (Z.of_N coin_height + Z.of_N (seq mod 2 ^ 16) - 1 < Z.of_N tip_height + 1)%Z.

(** Median of an odd number of values. *)
Definition median (l : list N) (m : N) : Prop :=
  In m l /\
  (2 * length (filter (fun x => (x <? m)%N) l) < length l)%nat /\
  (2 * length (filter (fun x => (m <? x)%N) l) < length l)%nat.

(** Block locator of a tip: the tip and the ten blocks before it, then steps of 2, 4, 8, …
    The [k]th entry is this far below the tip: *)
Definition locator_depth (k : nat) : N := if (k <=? 11)%nat then N.of_nat k else 9 + 2 ^ N.of_nat (k - 10).
(** heights below genesis count as genesis (N subtraction truncates) *)
Definition locator_heights (tip : N) (hs : list N) : Prop :=
  hs <> [] /\ hs = map (fun k => tip - locator_depth k) (seq 0 (length hs)) /\
  forall k, (k < length hs)%nat -> (tip - locator_depth k = 0 <-> k = (length hs - 1)%nat).
