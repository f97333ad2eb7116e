(** Checked blocks: bitcoin/src/blockdata/block.rs (sizes, weight, the height of BIP34) and the version bits of
    primitives/src/block.rs.  [validate], [new_checked]'s work, is in MMerkle.v; [validate_pow], [target], [work] and
    [difficulty] of headers are in MPow.v.  The floating point difficulty is not modelled. *)
From Verif Require Import Base MDec MWitness MTx MTxSize MMerkle MScript.
Local Open Scope N_scope.

(** the i32 inside a version: primitives/src/block.rs:651 *)
Definition version_i32 (v : N) : Z := if v <? 2147483648 then Z.of_N v else (Z.of_N v - 4294967296)%Z.

(** new_checked :128-134: Block::validate *)
Definition new_checked (sha256d : bytes -> bytes) (h : header) (txs : list transaction) : rust (result (block * option bytes) invalid_block) :=
  validate sha256d {| b_header := h; b_txs := txs |}.
(** total_size :146-153; Header::SIZE = 80: primitives/src/block.rs:488 *)
Definition block_total_size (b : block) : rust N :=
  rbind (rmap tx_total_size (b_txs b)) (fun l => usz (80 + cs_encoded_size (lenN (b_txs b)) + sumN l)).
(** block_base_size :192-199 *)
Definition block_base_size (txs : list transaction) : rust N :=
  rbind (rmap tx_base_size txs) (fun l => usz (80 + cs_encoded_size (lenN txs) + sumN l)).
(** weight :140-144 *)
Definition block_weight (b : block) : rust N :=
  rbind (block_base_size (b_txs b)) (fun s => rbind (usz (s * 3)) (fun s3 => rbind (block_total_size b) (fun t => usz (s3 + t)))).
(** coinbase :155-158: [transactions()[0]]; first_input bitcoin/src/blockdata/transaction.rs:1003: [inputs[0]] *)
Definition block_coinbase (b : block) : rust transaction := match b_txs b with [] => Panic | tx :: _ => Ret tx end.
Definition first_input (tx : transaction) : rust txin := match tx_inputs tx with [] => Panic | i :: _ => Ret i end.

(** Bip34Error :227-236 *)
Inductive bip34_err := B34Unsupported | B34NotPresent | B34NonMinimalPush | B34NegativeHeight.
(** From<ScriptIntError> :265-273, to_bip34_error :276-281 *)
Definition of_int_err (e : int_err) : bip34_err := match e with IntNonMinimal => B34NonMinimalPush | IntOverflow => B34NotPresent end.
Definition to_bip34_error (e : script_err) : bip34_err := match e with NonMinimalPush => B34NonMinimalPush | _ => B34NotPresent end.
(** bip34_block_height :161-189 *)
Definition bip34_block_height (b : block) : rust (result N bip34_err) :=
  if (version_i32 (h_version (b_header b)) <? 2)%Z then Ret (Err B34Unsupported)
  else
    rbind (block_coinbase b) (fun cb =>
    rbind (first_input cb) (fun input =>
    rbind (instr_next true (ti_script input)) (fun '(o, _) =>
    match o with
    | None => Ret (Err B34NotPresent)
    | Some (Err e) => Ret (Err (to_bip34_error e))
    | Some (Ok push) =>
        rbind (script_num push) (fun num =>
        rbind (match push with PushBytes d => rbind (read_scriptint d) (fun r => Ret (Some r)) | Op _ => Ret None end) (fun int =>
        Ret match num, int with
            | Some n, Some (Ok _) | Some n, None => if (n <? 0)%Z then Err B34NegativeHeight else Ok (Z.to_N n)
            | _, Some (Err e) => Err (of_int_err e)
            | None, _ => Err B34NotPresent
            end))
    end))).

(** is_signalling_soft_fork primitives/src/block.rs:687-700; a version is its u32.  [1 << bit] cannot overflow: bit <= 28 there. *)
Definition VERSION_BITS_MASK : N := 0x1FFFFFFF.
Definition USE_VERSION_BITS : N := 0x20000000.
Definition is_signalling_soft_fork (v bit : N) : bool :=
  if 28 <? bit then false
  else if negb (N.land v (4294967295 - VERSION_BITS_MASK) =? USE_VERSION_BITS) then false
  else 0 <? N.land (N.land v VERSION_BITS_MASK) (N.shiftl 1 bit).
