(** The consensus rules for targets, work and retargeting, as Bitcoin Core states them
    (arith_uint256::SetCompact and GetCompact, GetBlockProof, CalculateNextWorkRequired). *)
From Verif Require Import Base MWitness MTx MU256 SU256.
Local Open Scope N_scope.

(** nBits: the top byte is a size in bytes, bit 23 a sign, the low 23 bits the most significant
    digits. *)
Definition nbits_size (c : N) : N := c / 2 ^ 24.
Definition nbits_word (c : N) : N := c mod 2 ^ 23.
Definition nbits_sign (c : N) : bool := N.testbit c 23.
Definition nbits_magnitude (c : N) : N :=
  if nbits_size c <=? 3 then nbits_word c / 256 ^ (3 - nbits_size c) else nbits_word c * 256 ^ (nbits_size c - 3).
(** A negative or too large target counts as zero. *)
Definition nbits_target (c : N) : N :=
  if (nbits_sign c && negb (nbits_magnitude c =? 0)) || (2 ^ 256 <=? nbits_magnitude c) then 0 else nbits_magnitude c.
(** The bytes a number takes with a sign bit on top (zero takes none). *)
Definition signed_size (v s : N) : Prop := v < 2 ^ (8 * s - 1) /\ (forall s', v < 2 ^ (8 * s' - 1) -> s <= s').
(** The number keeping only the three leading of these bytes. *)
Definition leading3 (v s : N) : N := v - v mod 256 ^ (s - 3).
(** The nBits Bitcoin Core writes: positive, no byte of size too many, no digit lost on reading. *)
Definition nbits_canonical (c : N) : Prop :=
  c = 0 \/
  (c < 2 ^ 32 /\ nbits_sign c = false /\ 2 ^ 15 <= nbits_word c /\ 1 <= nbits_size c /\
   (nbits_size c <= 3 -> nbits_word c mod 256 ^ (3 - nbits_size c) = 0) /\ nbits_magnitude c < 2 ^ 256).
(** Work of a target. *)
Definition work_of (t : N) : N := 2 ^ 256 / (t + 1).
(** The next target: the old one scaled by the time the period took over the time it should have
    taken, the former clamped to within a factor four, and at most the network's limit. *)
Definition clamped (timespan : Z) (target_timespan : N) : N :=
  Z.to_N (Z.max (Z.of_N (target_timespan / 4)) (Z.min timespan (Z.of_N (target_timespan * 4)))).
Definition next_target (old : N) (timespan : Z) (target_timespan limit : N) : N :=
  N.min (old * clamped timespan target_timespan / target_timespan) limit.
(** Where the minimum-difficulty rule of the test networks stops walking back: the genesis block, the
    first block of a period, or a block that is not at the limit. *)
Definition stops (interval limit : N) (h : header) (k : N) : Prop :=
  h_prev h = repeat 0 32 \/ k mod interval = 0 \/ h_bits h <> limit.
(** [r] is the nBits of the latest such block at or below [height], or the error of the chain access
    met before it. *)
Definition last_real {E} (chain : N -> result header E) (interval limit height : N) (r : result N E) : Prop :=
  exists k, k <= height /\
    (match r with
     | Ok bits => exists h, chain k = Ok h /\ stops interval limit h k /\ h_bits h = bits
     | Err e => chain k = Err e
     end) /\
    (forall j, k < j -> j <= height -> exists h, chain j = Ok h /\ ~ stops interval limit h j).
