(** Lock times, sequences, heights and median times, block locators. *)
From Verif Require Import Base MWitness MTx.
Local Open Scope N_scope.

Definition U32M : N := 4294967296.
Definition U16M : N := 65536.
(** u32::checked_sub, checked_add, saturating_sub, saturating_add and the operators [-], [+] with
    overflow checks on (core). *)
Definition checked_sub32 (a b : N) : option N := if b <=? a then Some (a - b) else None.
Definition checked_add32 (a b : N) : option N := if a + b <? U32M then Some (a + b) else None.
Definition sat_sub32 (a b : N) : N := if b <=? a then a - b else 0.
Definition sat_add32 (a b : N) : N := if a + b <? U32M then a + b else U32M - 1.
Definition sat_mul32 (a b : N) : N := if a * b <? U32M then a * b else U32M - 1.
Definition sub32 (a b : N) : rust N := if b <=? a then Ret (a - b) else Panic.
Definition add32 (a b : N) : rust N := if a + b <? U32M then Ret (a + b) else Panic.

(** * Absolute lock times: units/src/locktime/absolute/mod.rs *)
(** :44 *)
Definition LOCK_TIME_THRESHOLD : N := 500000000.
(** :778, :782 *)
Definition is_block_height (n : N) : bool := n <? LOCK_TIME_THRESHOLD.
Definition is_block_time (n : N) : bool := LOCK_TIME_THRESHOLD <=? n.
(** [ConversionError]: absolute/error.rs; only which unit was refused *)
Inductive conv_err := InvalidHeight (n : N) | InvalidTime (n : N).
(** Height::from_u32 :559-565, MedianTimePast::from_u32 :703-709; a Height or MedianTimePast is
    the u32 it wraps *)
Definition height_from_u32 (n : N) : result N conv_err := if is_block_height n then Ok n else Err (InvalidHeight n).
Definition mtp_from_u32 (n : N) : result N conv_err := if is_block_time n then Ok n else Err (InvalidTime n).
(** Height::is_satisfied_by :584-589 ([u64] addition cannot overflow); MedianTimePast :729 *)
Definition height_is_satisfied_by (self height : N) : bool := let next_block_height := height + 1 in self <? next_block_height.
Definition mtp_is_satisfied_by (self time : N) : bool := self <? time.
(** :80-108 *)
Inductive abs_lock := ABlocks (h : N) | ASeconds (t : N).
(** [expect] :181, :183 *)
Definition expect {A E} (r : result A E) : rust A := match r with Ok a => Ret a | Err _ => Panic end.
(** LockTime::from_consensus :179-185 *)
Definition abs_from_consensus (n : N) : rust abs_lock :=
  if is_block_height n then rbind (expect (height_from_u32 n)) (fun h => Ret (ABlocks h))
  else rbind (expect (mtp_from_u32 n)) (fun t => Ret (ASeconds t)).
(** from_height :210-213, from_mtp :241-244 *)
Definition abs_from_height (n : N) : result abs_lock conv_err :=
  match height_from_u32 n with Ok h => Ok (ABlocks h) | Err e => Err e end.
Definition abs_from_mtp (n : N) : result abs_lock conv_err :=
  match mtp_from_u32 n with Ok t => Ok (ASeconds t) | Err e => Err e end.
(** to_consensus_u32 :396-401 *)
Definition abs_to_consensus (l : abs_lock) : N := match l with ABlocks h => h | ASeconds t => t end.
(** :248-261 *)
Definition abs_is_same_unit (a b : abs_lock) : bool :=
  match a, b with ABlocks _, ABlocks _ | ASeconds _, ASeconds _ => true | _, _ => false end.
Definition abs_is_block_height (l : abs_lock) : bool := match l with ABlocks _ => true | _ => false end.
Definition abs_is_block_time (l : abs_lock) : bool := negb (abs_is_block_height l).
(** is_satisfied_by :296-301 *)
Definition abs_is_satisfied_by (l : abs_lock) (height mtp : N) : bool :=
  match l with ABlocks b => height_is_satisfied_by b height | ASeconds t => mtp_is_satisfied_by t mtp end.
(** is_satisfied_by_height :312-318, is_satisfied_by_time :326-331; errors carry both values *)
Definition abs_is_satisfied_by_height (l : abs_lock) (height : N) : result bool (N * N) :=
  match l with ABlocks b => Ok (height_is_satisfied_by b height) | ASeconds t => Err (t, height) end.
Definition abs_is_satisfied_by_time (l : abs_lock) (mtp : N) : result bool (N * N) :=
  match l with ASeconds t => Ok (mtp_is_satisfied_by t mtp) | ABlocks b => Err (b, mtp) end.
(** is_implied_by :359-365 *)
Definition abs_is_implied_by (self other : abs_lock) : bool :=
  match self, other with
  | ABlocks this, ABlocks other => this <=? other
  | ASeconds this, ASeconds other => this <=? other
  | _, _ => false
  end.

(** * Sequence: units/src/sequence.rs; a Sequence is its u32 *)
(** :42, :72, :60, :75, :78 *)
Definition SEQ_MAX : N := 4294967295.
Definition MIN_NO_RBF : N := 4294967294.
Definition ENABLE_LOCKTIME_NO_RBF : N := MIN_NO_RBF.
Definition ENABLE_LOCKTIME_AND_RBF : N := 4294967293.
Definition LOCK_TIME_DISABLE_FLAG_MASK : N := 2147483648.
Definition LOCK_TYPE_MASK : N := 4194304.
(** :82, :104, :111, :115, :119-121, :125-127 *)
Definition enables_absolute_lock_time (s : N) : bool := negb (s =? SEQ_MAX).
Definition seq_is_final (s : N) : bool := negb (enables_absolute_lock_time s).
Definition is_rbf (s : N) : bool := s <? MIN_NO_RBF.
Definition is_relative_lock_time (s : N) : bool := N.land s LOCK_TIME_DISABLE_FLAG_MASK =? 0.
Definition is_height_locked (s : N) : bool := is_relative_lock_time s && (N.land s LOCK_TYPE_MASK =? 0).
Definition is_time_locked (s : N) : bool := is_relative_lock_time s && (0 <? N.land s LOCK_TYPE_MASK).
(** :155, :162-164, [self.0 as u16] :226 *)
Definition seq_from_height (h : N) : N := h.
Definition seq_from_512 (i : N) : N := N.lor i LOCK_TYPE_MASK.
Definition low_u16 (s : N) : N := s mod U16M.

(** * Relative lock times: units/src/locktime/relative/mod.rs *)
Inductive rel_lock := RBlocks (n : N) | RTime (n : N).
(** NumberOf512Seconds::from_seconds_floor :559-566, from_seconds_ceil :576-583 ([interval as u16]
    truncates), to_seconds :587 *)
Definition secs_floor (seconds : N) : result N N :=
  let interval := seconds / 512 in
  if interval <=? U16M - 1 then Ok (interval mod U16M) else Err seconds.
Definition div_ceil32 (a b : N) : N := if a mod b =? 0 then a / b else a / b + 1.
Definition secs_ceil (seconds : N) : result N N :=
  if seconds <=? (U16M - 1) * 512 then Ok (div_ceil32 seconds 512 mod U16M) else Err seconds.
Definition to_seconds (n : N) : N := n * 512.
(** LockTime::from_seconds_floor :168-173, from_seconds_ceil :182-187; Sequence :176-179, :191-194 *)
Definition rel_from_secs_floor (s : N) : result rel_lock N := match secs_floor s with Ok t => Ok (RTime t) | Err e => Err e end.
Definition rel_from_secs_ceil (s : N) : result rel_lock N := match secs_ceil s with Ok t => Ok (RTime t) | Err e => Err e end.
Definition seq_from_secs_floor (s : N) : result N N := match secs_floor s with Ok t => Ok (seq_from_512 t) | Err e => Err e end.
Definition seq_from_secs_ceil (s : N) : result N N := match secs_ceil s with Ok t => Ok (seq_from_512 t) | Err e => Err e end.
(** Sequence::to_relative_lock_time sequence.rs:206-220 *)
Definition to_relative_lock_time (s : N) : option rel_lock :=
  if negb (is_relative_lock_time s) then None
  else let lock_value := low_u16 s in
       if is_time_locked s then Some (RTime lock_value) else Some (RBlocks lock_value).
(** LockTime::from_consensus :97-100 (the error carries the u32), to_consensus_u32 :110-115,
    from_sequence :139-141, to_sequence :145 *)
Definition rel_from_consensus (n : N) : result rel_lock N :=
  match to_relative_lock_time n with Some l => Ok l | None => Err n end.
Definition rel_to_consensus (l : rel_lock) : N := match l with RBlocks h => h | RTime t => N.lor LOCK_TYPE_MASK t end.
Definition rel_from_sequence (s : N) : result rel_lock N := rel_from_consensus s.
Definition rel_to_sequence (l : rel_lock) : N := rel_to_consensus l.
(** :191-201 *)
Definition rel_is_same_unit (a b : rel_lock) : bool :=
  match a, b with RBlocks _, RBlocks _ | RTime _, RTime _ => true | _, _ => false end.
(** NumberOfBlocks::is_satisfied_by :471-490, NumberOf512Seconds::is_satisfied_by :623-641; the
    error carries tip and mined_at *)
Definition blocks_is_satisfied_by (self tip : N) (mined : option N) : result bool (N * N) :=
  match mined with
  | Some mined_at =>
      match checked_sub32 tip mined_at with
      | Some diff => Ok (sat_sub32 self 1 <=? diff)
      | None => Err (tip, mined_at)
      end
  | None => Ok (self =? 0)
  end.
Definition time_is_satisfied_by (self tip : N) (mined : option N) : result bool (N * N) :=
  match mined with
  | Some mined_at =>
      match checked_sub32 tip mined_at with
      | Some diff => Ok (to_seconds self <=? diff)
      | None => Err (tip, mined_at)
      end
  | None => Ok (self =? 0)
  end.
Inductive rel_err := RBlocksErr (e : N * N) | RTimeErr (e : N * N).
(** LockTime::is_satisfied_by :219-234 *)
Definition rel_is_satisfied_by (l : rel_lock) (tip_h tip_t : N) (mined_h mined_t : option N) : result bool rel_err :=
  match l with
  | RBlocks b => match blocks_is_satisfied_by b tip_h mined_h with Ok r => Ok r | Err e => Err (RBlocksErr e) end
  | RTime t => match time_is_satisfied_by t tip_t mined_t with Ok r => Ok r | Err e => Err (RTimeErr e) end
  end.
(** is_satisfied_by_height :247-259, is_satisfied_by_time :272-284 *)
Inductive rel_err1 := RIncompatible (n : N) | RSatisfaction (e : N * N).
Definition rel_is_satisfied_by_height (l : rel_lock) (tip : N) (mined : option N) : result bool rel_err1 :=
  match l with
  | RBlocks b => match blocks_is_satisfied_by b tip mined with Ok r => Ok r | Err e => Err (RSatisfaction e) end
  | RTime t => Err (RIncompatible t)
  end.
Definition rel_is_satisfied_by_time (l : rel_lock) (tip : N) (mined : option N) : result bool rel_err1 :=
  match l with
  | RTime t => match time_is_satisfied_by t tip mined with Ok r => Ok r | Err e => Err (RSatisfaction e) end
  | RBlocks b => Err (RIncompatible b)
  end.
(** is_implied_by :317-323, is_implied_by_sequence :346-348 *)
Definition rel_is_implied_by (self other : rel_lock) : bool :=
  match self, other with
  | RBlocks this, RBlocks other => this <=? other
  | RTime this, RTime other => this <=? other
  | _, _ => false
  end.
Definition rel_is_implied_by_sequence (self : rel_lock) (other : N) : bool :=
  match rel_from_sequence other with Ok other => rel_is_implied_by self other | Err _ => false end.

(** * Transactions: bitcoin/src/blockdata/transaction.rs *)
(** TxIn::enables_lock_time :100; is_lock_time_enabled :413; is_explicitly_rbf :404;
    is_absolute_timelock_satisfied :406-411.  [tx_lock_time] holds the u32 of the lock time, so the
    conversion the decoder did is repeated here. *)
Definition enables_lock_time (i : txin) : bool := negb (ti_sequence i =? SEQ_MAX).
Definition is_lock_time_enabled (tx : transaction) : bool := existsb enables_lock_time (tx_inputs tx).
Definition is_explicitly_rbf (tx : transaction) : bool := existsb (fun i => is_rbf (ti_sequence i)) (tx_inputs tx).
Definition is_absolute_timelock_satisfied (tx : transaction) (height time : N) : rust bool :=
  if negb (is_lock_time_enabled tx) then Ret true
  else rbind (abs_from_consensus (tx_lock_time tx)) (fun l => Ret (abs_is_satisfied_by l height time)).

(** * Heights and median times: units/src/block.rs *)
(** [sort_unstable] on u32 (core): modelled by insertion sort; only its result matters *)
Fixpoint insert (x : N) (l : list N) : list N :=
  match l with [] => [x] | y :: l' => if x <=? y then x :: y :: l' else y :: insert x l' end.
Definition sort_unstable (l : list N) : list N := fold_right insert [] l.
(** BlockMtp::new :354-357; indexing panics out of range, the array has 11 elements *)
Definition mtp_new (timestamps : list N) : rust N :=
  match nth_error (sort_unstable timestamps) 5 with Some t => Ret t | None => Panic end.
(** MedianTimePast::new absolute/mod.rs:655-657 *)
Definition abs_mtp_new (timestamps : list N) : rust (result N conv_err) :=
  rbind (mtp_new timestamps) (fun t => Ret (mtp_from_u32 t)).
(** BlockHeight (:155-182), BlockHeightInterval (:278-287), BlockMtp (:362-371), BlockMtpInterval
    (:460-469) and their operators (:484-584): all on the wrapped u32 *)
Definition bh_checked_sub := checked_sub32.
Definition bh_checked_add := checked_add32.
Definition bh_saturating_sub := sat_sub32.
Definition bh_saturating_add := sat_add32.
Definition bh_sub := sub32.
Definition bh_add := add32.
(** Sum :591-627: [u32] sum panics on overflow *)
Definition interval_sum (l : list N) : rust N := fold_left (fun acc x => rbind acc (fun a => add32 a x)) l (Ret 0).
(** TryFrom<BlockHeightInterval> for NumberOfBlocks :301-314; From the other way :292-299, :474-482 *)
Definition interval_to_blocks (n : N) : result N N := if n <? U16M then Ok n else Err n.
Definition blocks_to_interval (n : N) : N := n.
Definition secs_to_interval (n : N) : N := to_seconds n.

(** * Block locators: p2p/src/message_blockdata.rs *)
(** :133 *)
Definition MAX_LOCATOR_HASHES : N := 101.
Section Locator.
  Context {H E : Type} (get_ancestor : N -> result H E).
  (** BlockLocator::build :152-172; [get_ancestor] is a function of the height (the Rust closure may
      keep state; it is called once per iteration, in order); out of fuel = Panic *)
  Fixpoint locator_loop (fuel : nat) (hashes : list H) (step height : N) : rust (result (list H) E) :=
    match fuel with
    | O => Panic
    | S f =>
        match get_ancestor height with
        | Err e => Ret (Err e)
        | Ok h =>
            let hashes := hashes ++ [h] in
            if (height =? 0) || (MAX_LOCATOR_HASHES <=? lenN hashes) then Ret (Ok hashes)
            else
              let height := sat_sub32 height step in
              let step := if 10 <? lenN hashes then sat_mul32 step 2 else step in
              locator_loop f hashes step height
        end
    end.
  Definition locator_build (tip : N) : rust (result (list H) E) := locator_loop 102 [] 1 tip.
End Locator.
