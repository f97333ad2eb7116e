(** Proof of work: units/src/pow.rs, bitcoin/src/pow.rs, bitcoin/src/network/params.rs.
    [Target] and [Work] wrap a U256; [CompactTarget] wraps a u32. *)
From Verif Require Import Base MWitness MAmount MTx MLock MText MU256.
Local Open Scope N_scope.

(** units/src/pow.rs:136-170 *)
Definition TARGET_ZERO : u256 := U_ZERO.
Definition MAX_ATTAINABLE_MAINNET : u256 := U (shl128 0xFFFF (208 - 128)) 0.
Definition MAX_ATTAINABLE_TESTNET : u256 := U (shl128 0xFFFF (208 - 128)) 0.
Definition MAX_ATTAINABLE_REGTEST : u256 := U (shl128 0x7FFFFF00 96) 0.
Definition MAX_ATTAINABLE_SIGNET : u256 := U (shl128 0x0377ae00 80) 0.
(** Target::from_compact units/src/pow.rs:175-200 *)
Definition from_compact (c : N) : rust u256 :=
  let unshifted := N.shiftr c 24 in
  let '(mant, expt) :=
    if unshifted <=? 3 then (N.shiftr (N.land c 0xFFFFFF) (8 * (3 - unshifted)), 0)
    else (N.land c 0xFFFFFF, 8 * (N.shiftr c 24 - 3)) in
  let overflow := negb (mant =? 0) &&
    ((34 <? unshifted) || ((0xFF <? mant) && (33 <? unshifted)) || ((0xFFFF <? mant) && (32 <? unshifted))) in
  if (0x7FFFFF <? mant) || overflow then Ret TARGET_ZERO
  else wrapping_shl (u_from mant) expt.
(** Target::to_compact_lossy units/src/pow.rs:206-221; [as u32] truncates *)
Definition to_compact_lossy (t : u256) : rust N :=
  let size := (bits t + 7) / 8 in
  rbind (if size <=? 3 then Ret (((low_u64 t * 2 ^ (8 * (3 - size))) mod W64) mod 2 ^ 32)
         else rbind (wrapping_shr t (8 * (size - 3))) (fun bn => Ret (low_u32 bn))) (fun compact =>
  let '(compact, size) :=
    if negb (N.land compact 0x800000 =? 0) then (N.shiftr compact 8, size + 1) else (compact, size) in
  Ret (N.lor compact ((size * 2 ^ 24) mod 2 ^ 32))).
(** Target::to_work :228, Work::to_target :103, Work addition and subtraction :109-117 *)
Definition to_work (t : u256) : rust u256 := inverse t.
Definition to_target (w : u256) : rust u256 := inverse w.
Definition work_add := u_add.
Definition work_sub := u_sub.

(** bitcoin/src/network/params.rs:73-115: the fields the difficulty rules read *)
Record params := {
  p_enforce_bip94 : bool;
  p_max_attainable_target : u256;
  p_pow_target_spacing : N;
  p_pow_target_timespan : N;
  p_allow_min_difficulty_blocks : bool;
  p_no_pow_retargeting : bool
}.
Inductive network := Bitcoin | Testnet3 | Testnet4 | Signet | Regtest.
(** params.rs:143-261 *)
Definition params_new (n : network) : params :=
  match n with
  | Bitcoin => {| p_enforce_bip94 := false; p_max_attainable_target := MAX_ATTAINABLE_MAINNET; p_pow_target_spacing := 10 * 60;
      p_pow_target_timespan := 14 * 24 * 60 * 60; p_allow_min_difficulty_blocks := false; p_no_pow_retargeting := false |}
  | Testnet3 => {| p_enforce_bip94 := false; p_max_attainable_target := MAX_ATTAINABLE_TESTNET; p_pow_target_spacing := 10 * 60;
      p_pow_target_timespan := 14 * 24 * 60 * 60; p_allow_min_difficulty_blocks := true; p_no_pow_retargeting := false |}
  | Testnet4 => {| p_enforce_bip94 := true; p_max_attainable_target := MAX_ATTAINABLE_TESTNET; p_pow_target_spacing := 10 * 60;
      p_pow_target_timespan := 14 * 24 * 60 * 60; p_allow_min_difficulty_blocks := true; p_no_pow_retargeting := false |}
  | Signet => {| p_enforce_bip94 := false; p_max_attainable_target := MAX_ATTAINABLE_SIGNET; p_pow_target_spacing := 10 * 60;
      p_pow_target_timespan := 14 * 24 * 60 * 60; p_allow_min_difficulty_blocks := false; p_no_pow_retargeting := false |}
  | Regtest => {| p_enforce_bip94 := false; p_max_attainable_target := MAX_ATTAINABLE_REGTEST; p_pow_target_spacing := 10 * 60;
      p_pow_target_timespan := 14 * 24 * 60 * 60; p_allow_min_difficulty_blocks := true; p_no_pow_retargeting := true |}
  end.
(** params.rs:264-266 *)
Definition difficulty_adjustment_interval (p : params) : rust N :=
  if p_pow_target_spacing p =? 0 then Panic else Ret (p_pow_target_timespan p / p_pow_target_spacing p).

(** bitcoin/src/pow.rs:389-397: the two U256 types convert through bytes *)
Definition to_inner (t : u256) : u256 := from_le_bytes (to_le_bytes t).
Definition from_inner (t : u256) : u256 := from_le_bytes (to_le_bytes t).
(** bitcoin/src/pow.rs:55-58 *)
Definition is_met_by (t : u256) (hash : bytes) : bool := u_leb (from_le_bytes hash) (to_inner t).
(** :86-94, difficulty :125-128 *)
Definition difficulty_with_max (t max : u256) : rust N :=
  let self_inner := to_inner t in
  if u_eqb self_inner U_ZERO then Panic
  else rbind (u_div (to_inner max) self_inner) (fun d => Ret (saturating_to_u128 d)).
Definition difficulty (t : u256) (p : params) : rust N := difficulty_with_max t (p_max_attainable_target p).
(** :167-198; cmp::min keeps the first of equals *)
Definition min_transition_threshold (t : u256) : rust u256 :=
  rbind (wrapping_shr (to_inner t) 2) (fun r => Ret (from_inner r)).
Definition max_transition_threshold_unchecked (t : u256) : rust u256 :=
  rbind (wrapping_shl (to_inner t) 2) (fun r => Ret (from_inner r)).
Definition max_transition_threshold (t : u256) (p : params) : rust u256 :=
  rbind (max_transition_threshold_unchecked t) (fun r =>
  Ret (if u_leb r (p_max_attainable_target p) then r else p_max_attainable_target p)).
(** Ord::clamp (core) panics when the bounds are in the wrong order. *)
Definition clamp (z lo hi : Z) : rust Z :=
  if (hi <? lo)%Z then Panic else Ret (if (z <? lo)%Z then lo else if (hi <? z)%Z then hi else z).
(** CompactTarget::from_next_work_required :306-330; [timespan] is an i64 *)
Definition from_next_work_required (last : N) (timespan : Z) (p : params) : rust N :=
  if p_no_pow_retargeting p then Ret last
  else
    let min_timespan := N.shiftr (p_pow_target_timespan p) 2 in
    let max_timespan := (p_pow_target_timespan p * 4) mod 2 ^ 32 in
    rbind (clamp timespan (Z.of_N min_timespan) (Z.of_N max_timespan)) (fun actual_timespan =>
    rbind (from_compact last) (fun prev_target =>
    rbind (max_transition_threshold prev_target p) (fun maximum_retarget =>
    rbind (if (actual_timespan <? 0)%Z then Panic else mul_u64 (to_inner prev_target) (Z.to_N actual_timespan)) (fun '(retarget, _) =>
    rbind (u_div retarget (u_from (p_pow_target_timespan p))) (fun retarget =>
    let retarget := from_inner retarget in
    if u_leb maximum_retarget retarget then to_compact_lossy maximum_retarget
    else to_compact_lossy retarget))))).
(** :350-367 *)
Definition from_header_difficulty_adjustment (last_epoch_boundary current : header) (p : params) : rust N :=
  let timespan := (Z.of_N (h_time current) - Z.of_N (h_time last_epoch_boundary))%Z in
  let bits := if p_enforce_bip94 p then h_bits last_epoch_boundary else h_bits current in
  from_next_work_required bits timespan p.
(** :275-277; the interval is never zero for the shipped parameters *)
Definition is_retarget_height (height interval : N) : rust bool :=
  if interval =? 0 then Panic else Ret (height mod interval =? 0).
(** BlockHash::GENESIS_PREVIOUS_BLOCK_HASH *)
Definition GENESIS_PREV : bytes := repeat 0 32.
Fixpoint bytes_eqb (a b : bytes) : bool :=
  match a, b with
  | [], [] => true
  | x :: a', y :: b' => (x =? y) && bytes_eqb a' b'
  | _, _ => false
  end.
(** next_target_after :221-272.  The callback [get] is modelled as a function (a callback that answers
    differently when asked again is not modelled).  The loop goes down one height a round; [fuel]
    exceeds the height. *)
Section NextTarget.
  Variable E : Type.
  Variable get : N -> result header E.
  Fixpoint walk_back (fuel : nat) (hd : header) (height interval pow_limit : N) : rust (result N E) :=
    match fuel with
    | O => Panic
    | S f =>
        rbind (is_retarget_height height interval) (fun r =>
        if negb (bytes_eqb (h_prev hd) GENESIS_PREV) && negb r && (h_bits hd =? pow_limit) then
          let height := sat_sub32 height 1 in
          match get height with
          | Err e => Ret (Err e)
          | Ok hd => walk_back f hd height interval pow_limit
          end
        else Ret (Ok (h_bits hd)))
    end.
  Definition next_target_after (current : header) (height : N) (p : params) (new_time : option N) : rust (result N E) :=
    rbind (difficulty_adjustment_interval p) (fun interval =>
    rbind (is_retarget_height (sat_add32 height 1) interval) (fun r =>
    if negb r then
      if p_allow_min_difficulty_blocks p then
        match new_time with
        | None => Panic
        | Some new_time =>
            rbind (to_compact_lossy (p_max_attainable_target p)) (fun pow_limit =>
            let slack := p_pow_target_spacing p * 2 in
            if 2 ^ 32 <=? slack then Panic
            else if 2 ^ 32 <=? h_time current + slack then Panic
            else if h_time current + slack <? new_time then Ret (Ok pow_limit)
            else walk_back (S (N.to_nat height)) current height interval pow_limit)
        end
      else Ret (Ok (h_bits current))
    else
      if interval =? 0 then Panic else
      match get (sat_sub32 height (interval - 1)) with
      | Err e => Ret (Err e)
      | Ok first => rbind (from_header_difficulty_adjustment first current p) (fun c => Ret (Ok c))
      end)).
End NextTarget.
Arguments next_target_after {E}.
Arguments walk_back {E}.

(** bitcoin/src/blockdata/block.rs:48-78, primitives/src/block.rs:489-497 (block_hash: the double SHA-256
    of the header); the hash function is a parameter *)
Section Header.
  Variable sha256d : bytes -> bytes.
  Definition header_target (h : header) : rust u256 := from_compact (h_bits h).
  Definition header_block_hash (h : header) : bytes := sha256d (header_encode h).
  Inductive validation_error := BadTarget | BadProofOfWork.
  Definition validate_pow (h : header) (required : u256) : rust (result bytes validation_error) :=
    rbind (header_target h) (fun target =>
    if negb (u_eqb target required) then Ret (Err BadTarget)
    else
      let block_hash := header_block_hash h in
      Ret (if is_met_by target block_hash then Ok block_hash else Err BadProofOfWork)).
  Definition header_work (h : header) : rust u256 := rbind (header_target h) to_work.
  Definition header_difficulty (h : header) (p : params) : rust N := rbind (header_target h) (fun t => difficulty t p).
End Header.
