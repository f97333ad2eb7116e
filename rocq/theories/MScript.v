(** Model of script bytes: the instruction iterators, the builder, script integers, script
    recognition and signature-operation counting.
    Sources: bitcoin/src/blockdata/script/{instruction,mod,borrowed,owned,builder,push_bytes}.rs,
    bitcoin/src/blockdata/opcodes.rs, internals/src/script.rs,
    primitives/src/script/{owned,borrowed,builder,push_bytes,mod}.rs,
    primitives/src/witness_version.rs.  A script is its bytes; an opcode is its byte.  The marker
    type parameter of Script/ScriptBuf has no runtime content and is dropped. *)
From Verif Require Import Base MDec MWitness MAmount MTx MTxSize.
Local Open Scope N_scope.

(** ** Opcodes: bitcoin/src/blockdata/opcodes.rs:196-330, primitives/src/opcodes.rs *)
Definition OP_PUSHBYTES_0 : N := 0.
Definition OP_PUSHBYTES_2 : N := 2.
Definition OP_PUSHBYTES_20 : N := 20.
Definition OP_PUSHBYTES_32 : N := 32.
Definition OP_PUSHBYTES_33 : N := 33.
Definition OP_PUSHBYTES_65 : N := 65.
Definition OP_PUSHBYTES_75 : N := 75.
Definition OP_PUSHDATA1 : N := 76.
Definition OP_PUSHDATA2 : N := 77.
Definition OP_PUSHDATA4 : N := 78.
Definition OP_1NEGATE : N := 79.
Definition OP_RESERVED : N := 80.
Definition OP_1 : N := 81.
Definition OP_16 : N := 96.
Definition OP_NOP : N := 97.
Definition OP_VER : N := 98.
Definition OP_VERIF : N := 101.
Definition OP_VERNOTIF : N := 102.
Definition OP_VERIFY : N := 105.
Definition OP_RETURN : N := 106.
Definition OP_DUP : N := 118.
Definition OP_EQUAL : N := 135.
Definition OP_EQUALVERIFY : N := 136.
Definition OP_RESERVED1 : N := 137.
Definition OP_RESERVED2 : N := 138.
Definition OP_NUMEQUAL : N := 156.
Definition OP_NUMEQUALVERIFY : N := 157.
Definition OP_HASH160 : N := 169.
Definition OP_CHECKSIG : N := 172.
Definition OP_CHECKSIGVERIFY : N := 173.
Definition OP_CHECKMULTISIG : N := 174.
Definition OP_CHECKMULTISIGVERIFY : N := 175.
Definition OP_NOP1 : N := 176.
Definition OP_NOP10 : N := 185.
Definition OP_CHECKSIGADD : N := 186.
Definition OP_INVALIDOPCODE : N := 255.

(** opcodes.rs:439-454; an [Ordinary] is its byte. *)
Inductive class :=
| ClPushNum (n : Z) | ClPushBytes (n : N) | ClReturn | ClSuccess | ClIllegal | ClNoOp
| ClOrdinary (op : N).
(** opcodes.rs ClassifyContext *)
Inductive ctx := TapScript | Legacy.
Definition is_legacy (c : ctx) : bool := match c with Legacy => true | TapScript => false end.

Definition inb (x : N) (l : list N) : bool := existsb (N.eqb x) l.
Definition between (lo x hi : N) : bool := (lo <=? x) && (x <=? hi).

(** opcodes.rs:493-516: the opcodes of the [Ordinary] enum *)
Definition ordinary_ops : list N :=
  [76; 77; 78; 99; 100; 103; 104; 105; 107; 108; 109; 110; 111; 112; 113; 114; 117; 118; 119; 120;
   121; 122; 123; 124; 125; 115; 116; 130; 135; 136; 139; 140; 143; 144; 145; 146; 147; 148; 154;
   155; 156; 157; 158; 159; 160; 161; 162; 163; 164; 165; 166; 167; 168; 169; 170; 171; 172; 173;
   174; 175; 186].
(** opcodes.rs:474-479; [unreachable!] is [Panic] *)
Definition ordinary_with (op : N) : rust class := if inb op ordinary_ops then Ret (ClOrdinary op) else Panic.

(** opcodes.rs:346-352 *)
Definition disabled_ops : list N := [126; 127; 128; 129; 131; 132; 133; 134; 141; 142; 149; 150; 151; 152; 153].

(** opcodes.rs:339-398: the arms in source order *)
Definition classify (op : N) (c : ctx) : rust class :=
  if inb op [OP_VERIF; OP_VERNOTIF; OP_INVALIDOPCODE] then Ret ClIllegal
  else if inb op disabled_ops && is_legacy c then Ret ClIllegal
  else if negb (is_legacy c) &&
     ((op =? 80) || (op =? 98) || between 126 op 129 || between 131 op 134 || between 137 op 138
      || between 141 op 142 || between 149 op 153 || between 187 op 254) then Ret ClSuccess
  else if op =? OP_NOP then Ret ClNoOp
  else if between OP_NOP1 op OP_NOP10 then Ret ClNoOp
  else if op =? OP_RETURN then Ret ClReturn
  else if inb op [OP_RESERVED; OP_RESERVED1; OP_RESERVED2; OP_VER] && is_legacy c then Ret ClReturn
  else if is_legacy c && (OP_CHECKSIGADD <=? op) then Ret ClReturn
  else if inb op [OP_CHECKMULTISIG; OP_CHECKMULTISIGVERIFY] && negb (is_legacy c) then Ret ClReturn
  else if op =? OP_1NEGATE then Ret (ClPushNum (-1))
  else if between OP_1 op OP_16 then Ret (ClPushNum (1 + Z.of_N op - Z.of_N OP_1))
  else if op <=? OP_PUSHBYTES_75 then Ret (ClPushBytes op)
  else ordinary_with op.

(** opcodes.rs:409-416 *)
Definition decode_pushnum (op : N) : option N :=
  if between OP_1 op OP_16 then Some (op - OP_1 + 1) else None.

(** ** Instructions: instruction.rs *)
(** instruction.rs:14-21 *)
Inductive instr := PushBytes (d : bytes) | Op (op : N).
(** the variants of script::Error the iterator can produce *)
Inductive script_err := EarlyEndOfScript | NonMinimalPush | NumericOverflow.
Definition item := result instr script_err.

(** [slice::Iter::nth(n)]: drops n+1 elements, or all if there are fewer. *)
Definition iter_nth (n : N) (data : bytes) : bytes := skipn (N.to_nat (n + 1)) data.

(** instruction.rs:102-105 *)
Definition kill (data : bytes) : bytes := iter_nth (N.max (lenN data) 1 - 1) data.

(** [&s[..len]] *)
Definition slice_to (l : bytes) (n : N) : rust bytes :=
  if n <=? lenN l then Ret (firstn (N.to_nat n) l) else Panic.

(** push_bytes.rs:34-40 (64-bit) *)
Definition push_bytes_ok (l : bytes) : bool := lenN l <? 4294967296.

(** instruction.rs:111-124; the [expect] is a [Panic] *)
Definition take_slice_or_kill (data : bytes) (n : N) : rust (result bytes script_err * bytes) :=
  if n <=? lenN data then
    rbind (slice_to data n) (fun s =>
    let data' := if 0 <? n then iter_nth (n - 1) data else data in
    if push_bytes_ok s then Ret (Ok s, data') else Panic)
  else Ret (Err EarlyEndOfScript, kill data).

(** internals/src/script.rs:14-31: [ret |= byte << 8i] over the first [size] bytes; the bytes do
    not overlap so the [|=] is modelled as the little-endian value. *)
Definition read_push_data_len (data : bytes) (size : N) : option (N * bytes) :=
  if lenN data <? size then None
  else Some (le_val (firstn (N.to_nat size) data), skipn (N.to_nat size) data).

(** instruction.rs:126-148; [try_into] u32 *)
Definition next_push_data_len (minimal : bool) (data : bytes) (size min_push_len : N)
    : rust (option item * bytes) :=
  match read_push_data_len data size with
  | None => Ret (Some (Err EarlyEndOfScript), kill data)
  | Some (n, data1) =>
      if minimal && (n <? min_push_len) then Ret (Some (Err NonMinimalPush), kill data1)
      else if U32_MAX <? n then Ret (Some (Err NumericOverflow), data1)
      else rbind (take_slice_or_kill data1 n) (fun '(r, data2) =>
        Ret (Some (match r with Ok s => Ok (PushBytes s) | Err e => Err e end), data2))
  end.

(** instruction.rs:154-189 *)
Definition instr_next (minimal : bool) (data : bytes) : rust (option item * bytes) :=
  match data with
  | [] => Ret (None, [])
  | b :: data1 =>
      rbind (classify b Legacy) (fun cl =>
      match cl with
      | ClPushBytes n =>
          let dflt := rbind (take_slice_or_kill data1 n) (fun '(r, data2) =>
            Ret (Some (match r with Ok s => Ok (PushBytes s) | Err e => Err e end), data2)) in
          match data1 with
          | op_byte :: _ =>
              if minimal && (n =? 1) && ((op_byte =? 129) || ((0 <? op_byte) && (op_byte <=? 16)))
              then Ret (Some (Err NonMinimalPush), kill data1)
              else dflt
          | [] => if n =? 0 then Ret (Some (Ok (PushBytes [])), data1) else dflt
          end
      | ClOrdinary op =>
          if op =? OP_PUSHDATA1 then next_push_data_len minimal data1 1 76
          else if op =? OP_PUSHDATA2 then next_push_data_len minimal data1 2 256
          else if op =? OP_PUSHDATA4 then next_push_data_len minimal data1 4 65536
          else Ret (Some (Ok (Op b)), data1)
      | _ => Ret (Some (Ok (Op b)), data1)
      end)
  end.

(** instruction.rs:192-199 *)
Definition size_hint (data : bytes) : N * N := match data with [] => (0, 0) | _ => (1, lenN data) end.

(** Collecting the iterator: call [next] until it returns [None].  Running out of fuel counts as
    a panic, so theorems saying that the result is [Ret] also say that the iteration ends. *)
Fixpoint collect_fuel (fuel : nat) (minimal : bool) (data : bytes) : rust (list item) :=
  match fuel with
  | O => Panic
  | S fuel' =>
      rbind (instr_next minimal data) (fun '(o, data') =>
      match o with
      | None => Ret []
      | Some i => rbind (collect_fuel fuel' minimal data') (fun l => Ret (i :: l))
      end)
  end.
(** borrowed.rs:87-98 [instructions], [instructions_minimal], collected *)
Definition instructions (s : bytes) : rust (list item) := collect_fuel (S (length s)) false s.
Definition instructions_minimal (s : bytes) : rust (list item) := collect_fuel (S (length s)) true s.

(** instruction.rs:210-246: state (data, pos) *)
Definition indices_next (minimal : bool) (st : bytes * N)
    : rust (option (result (N * instr) script_err) * (bytes * N)) :=
  let '(data, pos) := st in
  let prev_remaining := lenN data in
  rbind (instr_next minimal data) (fun '(o, data') =>
  match o with
  | None => Ret (None, (data', pos))
  | Some i =>
      if prev_remaining <? lenN data' then Panic                  (* prev_remaining - remaining *)
      else
        let consumed := prev_remaining - lenN data' in
        rbind (usz (pos + consumed)) (fun pos' =>
        Ret (Some (match i with Ok x => Ok (pos, x) | Err e => Err e end), (data', pos')))
  end).
Fixpoint collect_indices_fuel (fuel : nat) (minimal : bool) (st : bytes * N)
    : rust (list (result (N * instr) script_err)) :=
  match fuel with
  | O => Panic
  | S fuel' =>
      rbind (indices_next minimal st) (fun '(o, st') =>
      match o with
      | None => Ret []
      | Some i => rbind (collect_indices_fuel fuel' minimal st') (fun l => Ret (i :: l))
      end)
  end.
(** borrowed.rs:108-119 *)
Definition instruction_indices (minimal : bool) (s : bytes) :=
  collect_indices_fuel (S (length s)) minimal (s, 0).

(** [Iterator::last] of [instructions()] *)
Definition last_item (s : bytes) : rust (option item) :=
  rbind (instructions s) (fun l => Ret (match rev l with [] => None | i :: _ => Some i end)).
(** borrowed.rs:388-393 *)
Definition last_opcode (s : bytes) : rust (option N) :=
  rbind (last_item s) (fun o => Ret (match o with Some (Ok (Op op)) => Some op | _ => None end)).
(** borrowed.rs:398-409 *)
Definition last_pushdata (s : bytes) : rust (option bytes) :=
  rbind (last_item s) (fun o => Ret (match o with Some (Ok (PushBytes d)) => Some d | _ => None end)).

(** ** Building: primitives/src/script/owned.rs; a script buffer is its bytes.  [reserve] has no
    observable effect on the contents. *)
(** owned.rs:177 *)
Definition sb_push_opcode (s : bytes) (op : N) : bytes := s ++ [op].
(** owned.rs:240-267, also bitcoin owned.rs:168-195; [as u8] truncates *)
Definition as_u8 (n : N) : N := n mod 256.
Definition sb_push_slice_no_opt (s d : bytes) : bytes :=
  let n := lenN d in
  (if n <? OP_PUSHDATA1 then s ++ [as_u8 n]
   else if n <? 256 then (s ++ [OP_PUSHDATA1]) ++ [as_u8 n]
   else if n <? 65536 then ((s ++ [OP_PUSHDATA2]) ++ [as_u8 (n mod 256)]) ++ [as_u8 (n / 256)]
   else ((((s ++ [OP_PUSHDATA4]) ++ [as_u8 (n mod 256)]) ++ [as_u8 ((n / 256) mod 256)])
           ++ [as_u8 ((n / 65536) mod 256)]) ++ [as_u8 (n / 16777216)])
  ++ d.
(** owned.rs:214-218 *)
Definition sb_push_slice_non_minimal (s d : bytes) : bytes := sb_push_slice_no_opt s d.
(** owned.rs:190-207; the u8 addition cannot overflow on 1..=16 *)
Definition sb_push_slice (s d : bytes) : bytes :=
  match d with
  | [b] =>
      if b =? 129 then sb_push_opcode s OP_1NEGATE
      else if between 1 b 16 then sb_push_opcode s (b + (OP_1 - 1))
      else sb_push_slice_non_minimal s d
  | _ => sb_push_slice_non_minimal s d
  end.

(** ** Script integers: script/mod.rs *)
(** [out[len] = v; len += 1] on the 8-byte array *)
Definition out_put (out : bytes) (len v : N) : rust (bytes * N) :=
  if len <? 8 then Ret (firstn (N.to_nat len) out ++ [v] ++ skipn (N.to_nat len + 1) out, len + 1)
  else Panic.
(** mod.rs:128-132; u64 has 8 bytes so 8 rounds are enough (out of fuel is [Panic]) *)
Fixpoint write_loop (fuel : nat) (out : bytes) (len abs : N) : rust (bytes * N * N) :=
  match fuel with
  | O => Panic
  | S f =>
      if 255 <? abs then
        rbind (out_put out len (N.land abs 255)) (fun '(out', len') =>
        write_loop f out' len' (N.shiftr abs 8))
      else Ret (out, len, abs)
  end.
(** mod.rs:119-148: returns the buffer and the length *)
Definition write_scriptint (n : Z) : rust (bytes * N) :=
  let out := repeat 0 8 in
  if (n =? 0)%Z then Ret (out, 0)
  else
    let neg := (n <? 0)%Z in
    rbind (write_loop 9 out 0 (Z.abs_N n)) (fun '(out, len, abs) =>
    if negb (N.land abs 128 =? 0) then
      rbind (out_put out len (as_u8 abs)) (fun '(out, len) =>
      out_put out len (if neg then 128 else 0))
    else
      out_put out len (as_u8 (N.lor abs (if neg then 128 else 0)))).
(** owned.rs (bitcoin):225-230: [&buf[..len]] *)
Definition scriptint_bytes (n : Z) : rust bytes :=
  rbind (write_scriptint n) (fun '(out, len) => slice_to out len).
Definition sb_push_int_non_minimal (s : bytes) (n : Z) : rust bytes :=
  rbind (scriptint_bytes n) (fun d => Ret (sb_push_slice_no_opt s d)).
(** owned.rs (bitcoin):58-65 *)
Definition sb_push_int_unchecked (s : bytes) (n : Z) : rust bytes :=
  if (n =? -1)%Z then Ret (sb_push_opcode s OP_1NEGATE)
  else if (n =? 0)%Z then Ret (sb_push_opcode s OP_PUSHBYTES_0)
  else if ((1 <=? n) && (n <=? 16))%Z then Ret (sb_push_opcode s (Z.to_N n + (OP_1 - 1)))
  else sb_push_int_non_minimal s n.
Definition I32_MIN : Z := -2147483648.
(** owned.rs (bitcoin):33-41 *)
Definition sb_push_int (s : bytes) (n : Z) : rust (result bytes script_err) :=
  if (n =? I32_MIN)%Z then Ret (Err NumericOverflow)
  else rbind (sb_push_int_unchecked s n) (fun s' => Ret (Ok s')).

(** mod.rs:169-176: wrapping is impossible below 8 bytes, where it is only called *)
Definition scriptint_parse (v : bytes) : Z :=
  let '(ret, sh) := fold_left (fun '(acc, sh) n => (acc + Z.shiftl (Z.of_N n) sh, sh + 8)%Z) v (0, 0)%Z in
  if negb (N.land (last v 0) 128 =? 0)
  then (- Z.land ret (Z.shiftl 1 (sh - 1) - 1))%Z
  else ret.

Inductive int_err := IntOverflow | IntNonMinimal.
(** [i32::try_from(..).expect(..)] *)
Definition to_i32 (z : Z) : rust Z :=
  if ((-2147483648 <=? z) && (z <=? 2147483647))%Z then Ret z else Panic.
(** mod.rs:156-166 *)
Definition read_scriptint_non_minimal (v : bytes) : rust (result Z int_err) :=
  match v with
  | [] => Ret (Ok 0%Z)
  | _ => if 4 <? lenN v then Ret (Err IntOverflow)
         else rbind (to_i32 (scriptint_parse v)) (fun z => Ret (Ok z))
  end.
(** push_bytes.rs:64-89 *)
Definition read_scriptint_internal (v : bytes) (max_size : N) : result Z int_err :=
  match rev v with
  | [] => Ok 0%Z
  | lst :: _ =>
      if max_size <? lenN v then Err IntOverflow
      else if (N.land lst 127 =? 0)
           && ((lenN v <=? 1) || (N.land (nth (N.to_nat (lenN v - 2)) v 0) 128 =? 0))
      then Err IntNonMinimal
      else Ok (scriptint_parse v)
  end.
(** push_bytes.rs:26-30 *)
Definition read_scriptint (v : bytes) : rust (result Z int_err) :=
  match read_scriptint_internal v 4 with
  | Err e => Ret (Err e)
  | Ok z => rbind (to_i32 z) (fun z => Ret (Ok z))
  end.
(** push_bytes.rs:53-55 *)
Definition read_cltv_scriptint (v : bytes) : result Z int_err := read_scriptint_internal v 5.
(** mod.rs:183-188: [last & !0x80 == 0] *)
Definition read_scriptbool (v : bytes) : bool :=
  match rev v with
  | [] => false
  | lst :: rest => negb ((N.land lst 127 =? 0) && forallb (N.eqb 0) rest)
  end.

(** instruction.rs:38-53 and 68-82, the [Op] arm *)
Definition op_num (op : N) : option Z :=
  if between 81 op 96 then Some (Z.of_N op - 80)%Z
  else if op =? 79 then Some (-1)%Z else None.
(** instruction.rs:38-53 *)
Definition script_num (i : instr) : rust (option Z) :=
  match i with
  | Op op => Ret (op_num op)
  | PushBytes d => rbind (read_scriptint_non_minimal d) (fun r =>
      Ret (match r with Ok z => Some z | Err _ => None end))
  end.
(** instruction.rs:68-82 *)
Definition read_int (i : instr) : option Z :=
  match i with
  | Op op => op_num op
  | PushBytes d => match read_cltv_scriptint d with Ok z => Some z | Err _ => None end
  end.

(** ** More building: bitcoin/src/blockdata/script/owned.rs *)
(** owned.rs:73-86 *)
Definition sb_push_instruction (s : bytes) (i : instr) : bytes :=
  match i with Op op => sb_push_opcode s op | PushBytes d => sb_push_slice s d end.
Definition sb_push_instruction_no_opt (s : bytes) (i : instr) : bytes :=
  match i with Op op => sb_push_opcode s op | PushBytes d => sb_push_slice_no_opt s d end.
(** owned.rs:245-279; [hint] is the upper bound of the iterator's size_hint, [l] what it yields *)
Definition sb_extend (s : bytes) (hint : option N) (l : list instr) : rust bytes :=
  if match hint with Some m => m <? 6 | None => false end then
    if 5 <? lenN l then Panic                                   (* the assert *)
    else Ret (fold_left sb_push_instruction_no_opt l s)
  else Ret (fold_left sb_push_instruction l s).
(** owned.rs:234-243 *)
Definition sb_from_iter (hint : option N) (l : list instr) : rust bytes := sb_extend [] hint l.

(** mod.rs:190-198 *)
Definition opcode_to_verify (o : option N) : option N :=
  match o with
  | Some op =>
      if op =? OP_EQUAL then Some OP_EQUALVERIFY
      else if op =? OP_NUMEQUAL then Some OP_NUMEQUALVERIFY
      else if op =? OP_CHECKSIG then Some OP_CHECKSIGVERIFY
      else if op =? OP_CHECKMULTISIG then Some OP_CHECKMULTISIGVERIFY
      else None
  | None => None
  end.
(** owned.rs:102, 212-220; builder.rs:78-89 is the same computation *)
Definition sb_scan_and_push_verify (s : bytes) : rust bytes :=
  rbind (last_opcode s) (fun o =>
  Ret (match opcode_to_verify o with
       | Some op => sb_push_opcode (removelast s) op
       | None => sb_push_opcode s OP_VERIFY
       end)).

(** ** Recognition: primitives/src/script/borrowed.rs, bitcoin borrowed.rs *)
(** primitives/src/witness_version.rs: a version is its number 0..16. *)
Definition version_from_opcode (op : N) : option N :=
  if op =? 0 then Some 0
  else if (OP_1 <=? op) && (op <=? OP_16) then
    let no := op - OP_1 + 1 in if no <=? 16 then Some no else None
  else None.
(** witness_version.rs:154-161 *)
Definition version_to_opcode (v : N) : N := if v =? 0 then OP_PUSHBYTES_0 else OP_1 + v - 1.

(** [s[i]] with [i] in range *)
Definition at_ (s : bytes) (i : nat) : N := nth i s 0.

(** borrowed.rs:219-241; the indexing is guarded by the length test *)
Definition witness_version (s : bytes) : option N :=
  let n := lenN s in
  if negb (between 4 n 42) then None
  else
    let ver := at_ s 0 in
    let push := at_ s 1 in
    if (push <? 2) || (40 <? push) then None
    else if negb (n - 2 =? push) then None
    else version_from_opcode ver.
Definition version_is (s : bytes) (v : N) : bool :=
  match witness_version s with Some x => x =? v | None => false end.
(** borrowed.rs:245-263 *)
Definition is_p2wsh (s : bytes) : bool := (lenN s =? 34) && version_is s 0 && (at_ s 1 =? OP_PUSHBYTES_32).
Definition is_p2wpkh (s : bytes) : bool := (lenN s =? 22) && version_is s 0 && (at_ s 1 =? OP_PUSHBYTES_20).
(** bitcoin borrowed.rs:267-271 *)
Definition is_p2tr (s : bytes) : bool := (lenN s =? 34) && version_is s 1 && (at_ s 1 =? OP_PUSHBYTES_32).
(** borrowed.rs:269-307 *)
Definition is_witness_program (s : bytes) : bool := match witness_version s with Some _ => true | None => false end.
Definition is_p2sh (s : bytes) : bool :=
  (lenN s =? 23) && (at_ s 0 =? OP_HASH160) && (at_ s 1 =? OP_PUSHBYTES_20) && (at_ s 22 =? OP_EQUAL).
Definition is_p2pkh (s : bytes) : bool :=
  (lenN s =? 25) && (at_ s 0 =? OP_DUP) && (at_ s 1 =? OP_HASH160) && (at_ s 2 =? OP_PUSHBYTES_20)
  && (at_ s 23 =? OP_EQUALVERIFY) && (at_ s 24 =? OP_CHECKSIG).
(** primitives/src/script/mod.rs:94 *)
Definition P2A_PROGRAM : bytes := [78; 115].
Definition is_p2a (s : bytes) : bool :=
  (lenN s =? 4) && version_is s 1 && (at_ s 1 =? OP_PUSHBYTES_2) && beqb (skipn 2 s) P2A_PROGRAM.
Definition is_op_return (s : bytes) : bool := match s with b :: _ => b =? OP_RETURN | [] => false end.
(** bitcoin borrowed.rs:416-428, 214; [split_first]/[split_last] on the fixed-size array *)
Definition p2pk_pubkey_bytes (s : bytes) : option bytes :=
  if lenN s =? 67 then
    if (at_ s 0 =? OP_PUSHBYTES_65) && (at_ s 66 =? OP_CHECKSIG) then Some (removelast (tl s)) else None
  else if lenN s =? 35 then
    if (at_ s 0 =? OP_PUSHBYTES_33) && (at_ s 34 =? OP_CHECKSIG) then Some (removelast (tl s)) else None
  else None.
Definition is_p2pk (s : bytes) : bool := match p2pk_pubkey_bytes s with Some _ => true | None => false end.

(** borrowed.rs (bitcoin):61-73 *)
Fixpoint push_only_loop (l : list item) : bool :=
  match l with
  | [] => true
  | Err _ :: _ => false
  | Ok (PushBytes _) :: l' => push_only_loop l'
  | Ok (Op op) :: l' => if op <=? 96 then push_only_loop l' else false
  end.
Definition is_push_only (s : bytes) : rust bool := rbind (instructions s) (fun l => Ret (push_only_loop l)).

(** borrowed.rs (bitcoin):463-474 *)
Definition redeem_script (s : bytes) : rust (option bytes) :=
  rbind (instructions s) (fun l =>
  if existsb (fun i => match i with Err _ => true | Ok (Op _) => true | Ok (PushBytes _) => false end) l
  then Ret None
  else rbind (last_item s) (fun o =>
    Ret (match o with Some (Ok (PushBytes d)) => Some d | _ => None end))).

(** borrowed.rs (bitcoin):232-263 as a loop over what the iterator yields; the u8 addition panics
    on overflow (overflow checks on).  After an error the iterator yields nothing more (proved as
    C14), which the list reflects. *)
Fixpoint multisig_loop (l : list item) (num_pubkeys : N) : rust (option (N * list item)) :=
  match l with
  | Ok (PushBytes _) :: l' => if num_pubkeys <? 255 then multisig_loop l' (num_pubkeys + 1) else Panic
  | Ok (Op op) :: l' =>
      match decode_pushnum op with
      | Some n => if n =? num_pubkeys then Ret (Some (num_pubkeys, l')) else Ret None
      | None => Ret None
      end
  | Err _ :: l' => Ret (Some (num_pubkeys, l'))
  | [] => Ret (Some (num_pubkeys, []))
  end.
Definition is_multisig (s : bytes) : rust bool :=
  rbind (instructions s) (fun l =>
  match l with
  | Ok (Op op) :: l1 =>
      match decode_pushnum op with
      | None => Ret false
      | Some required =>
          rbind (multisig_loop l1 0) (fun o =>
          match o with
          | None => Ret false
          | Some (num_pubkeys, l2) =>
              if num_pubkeys <? required then Ret false
              else match l2 with
                   | Ok (Op op2) :: l3 =>
                       Ret ((op2 =? OP_CHECKMULTISIG) && match l3 with [] => true | _ => false end)
                   | _ => Ret false
                   end
          end)
      end
  | _ => Ret false
  end).

(** ** Standard scripts *)
(** primitives/src/script/owned.rs:272-288, addresses/src/lib.rs:184-220, mod.rs:101-109 *)
Definition new_op_return (d : bytes) : bytes := sb_push_slice (sb_push_opcode [] OP_RETURN) d.
Definition new_p2sh (h : bytes) : bytes :=
  sb_push_opcode (sb_push_slice (sb_push_opcode [] OP_HASH160) h) OP_EQUAL.
Definition new_p2pkh (h : bytes) : bytes :=
  sb_push_opcode (sb_push_opcode (sb_push_slice (sb_push_opcode (sb_push_opcode [] OP_DUP) OP_HASH160) h)
    OP_EQUALVERIFY) OP_CHECKSIG.
Definition new_p2pk (k : bytes) : bytes := sb_push_opcode (sb_push_slice [] k) OP_CHECKSIG.
(** primitives/src/script/mod.rs:102-111 (same in bitcoin mod.rs:206, addresses lib.rs:1203):
    debug assertions on *)
Definition new_witness_program_unchecked (version : N) (program : bytes) : rust bytes :=
  let n := lenN program in
  if negb ((2 <=? n) && (n <=? 40)) then Panic
  else if negb (negb (version =? 0) || (n =? 20) || (n =? 32)) then Panic
  else Ret (sb_push_slice (sb_push_opcode [] (version_to_opcode version)) program).
Definition new_p2wsh (h : bytes) : rust bytes := new_witness_program_unchecked 0 h.
Definition new_p2wpkh (h : bytes) : rust bytes := new_witness_program_unchecked 0 h.
Definition new_p2tr_tweaked (k : bytes) : rust bytes := new_witness_program_unchecked 1 k.
Definition new_p2a : rust bytes := new_witness_program_unchecked 1 P2A_PROGRAM.
(** borrowed.rs (bitcoin):158-169 *)
Definition p2wpkh_script_code (s : bytes) : rust (option bytes) :=
  if is_p2wpkh s then
    let b := skipn 2 s in
    if lenN b =? 20 then Ret (Some (new_p2pkh b)) else Panic     (* try_from(..).expect(..) *)
  else Ret None.

(** addresses/src/witness_program.rs:36-66 *)
Record witness_program := { wp_version : N; wp_program : bytes }.
Inductive wp_err := WpInvalidLength (n : N) | WpInvalidSegwitV0Length (n : N).
Definition wp_new (version : N) (b : bytes) : result witness_program wp_err :=
  let n := lenN b in
  if (n <? 2) || (40 <? n) then Err (WpInvalidLength n)
  else if (version =? 0) && (negb (n =? 20) && negb (n =? 32)) then Err (WpInvalidSegwitV0Length n)
  else Ok {| wp_version := version; wp_program := b |}.
(** witness_program.rs:141-156 *)
Definition wp_is_p2wpkh (p : witness_program) : bool := (wp_version p =? 0) && (lenN (wp_program p) =? 20).
Definition wp_is_p2wsh (p : witness_program) : bool := (wp_version p =? 0) && (lenN (wp_program p) =? 32).
Definition wp_is_p2tr (p : witness_program) : bool := (wp_version p =? 1) && (lenN (wp_program p) =? 32).
Definition wp_is_p2a (p : witness_program) : bool := (wp_version p =? 1) && beqb (wp_program p) P2A_PROGRAM.
(** addresses/src/lib.rs:214-219 *)
Definition new_witness_program (p : witness_program) : bytes :=
  sb_push_slice (sb_push_opcode [] (version_to_opcode (wp_version p))) (wp_program p).

(** ** Dust: borrowed.rs (bitcoin):314-332, 430-450 *)
Definition minimal_non_dust_internal (s : bytes) (rate_per_kvb : Z) : option Z :=
  let enc_len := Z.of_N (lenN (script_encode s)) in
  let factor :=
    (if is_op_return s then 0
     else if is_witness_program s then 32 + 4 + 1 + (107 / 4) + 4 + 8 + enc_len
     else 32 + 4 + 1 + 107 + 4 + 8 + enc_len)%Z in
  match u64_checked_mul rate_per_kvb factor with
  | None => None
  | Some x => ok_opt (amount_from_sat (x / 1000)%Z)
  end.
(** policy.rs: DUST_RELAY_TX_FEE = 3000 *)
Definition DUST_RELAY_TX_FEE : Z := 3000.
Definition minimal_non_dust (s : bytes) : rust Z :=
  match minimal_non_dust_internal s DUST_RELAY_TX_FEE with Some a => Ret a | None => Panic end.
Definition minimal_non_dust_custom (s : bytes) (rate : Z) : option Z :=
  minimal_non_dust_internal s (feerate_to_kvb_ceil rate).

(** ** Signature operations *)
(** borrowed.rs (bitcoin):343-383 *)
Fixpoint sigops_loop (accurate : bool) (l : list item) (n : N) (cache : option N) : rust N :=
  match l with
  | [] => Ret n
  | Err _ :: _ => Ret n
  | Ok (PushBytes _) :: l' => sigops_loop accurate l' n None
  | Ok (Op op) :: l' =>
      if (op =? OP_CHECKSIG) || (op =? OP_CHECKSIGVERIFY) then
        rbind (usz (n + 1)) (fun n' => sigops_loop accurate l' n' None)
      else if (op =? OP_CHECKMULTISIG) || (op =? OP_CHECKMULTISIGVERIFY) then
        rbind (usz (n + match accurate, cache with true, Some p => p | _, _ => 20 end))
              (fun n' => sigops_loop accurate l' n' None)
      else sigops_loop accurate l' n (decode_pushnum op)
  end.
Definition count_sigops_internal (accurate : bool) (s : bytes) : rust N :=
  rbind (instructions s) (fun l => sigops_loop accurate l 0 None).
(** borrowed.rs (bitcoin):40, 54 *)
Definition count_sigops (s : bytes) : rust N := count_sigops_internal true s.
Definition count_sigops_legacy (s : bytes) : rust N := count_sigops_internal false s.

(** bitcoin/src/blockdata/transaction.rs:419-428, 481-568 *)
Definition USIZE_MAX : N := USIZE - 1.
Definition sat_add (a b : N) : N := N.min (a + b) USIZE_MAX.
Definition sat_mul (a b : N) : N := N.min (a * b) USIZE_MAX.

(** [for x in l { count = count.saturating_add(f(x)) }] *)
Fixpoint sat_sum {A} (f : A -> rust N) (l : list A) (count : N) : rust N :=
  match l with
  | [] => Ret count
  | x :: l' => rbind (f x) (fun c => sat_sum f l' (sat_add count c))
  end.
(** transaction.rs:481-491 *)
Definition count_p2pk_p2pkh_sigops (tx : transaction) : rust N :=
  rbind (sat_sum (fun i => count_sigops_legacy (ti_script i)) (tx_inputs tx) 0) (fun c =>
  sat_sum (fun o => count_sigops_legacy (to_script o)) (tx_outputs tx) c).
(** [spent] is a closure; modelled as a function of the outpoint (a stateless closure). *)
(** transaction.rs:498-507 *)
Definition p2sh_sigops_one (prevout : txout) (i : txin) : rust N :=
  if is_p2sh (to_script prevout) then
    rbind (last_pushdata (ti_script i)) (fun o =>
    match o with
    | Some redeem => rbind (count_sigops redeem) (fun c => Ret (sat_add 0 c))
    | None => Ret 0
    end)
  else Ret 0.
Definition count_p2sh_sigops (spent : outpoint -> option txout) (tx : transaction) : rust N :=
  sat_sum (fun i => match spent (ti_prevout i) with Some p => p2sh_sigops_one p i | None => Ret 0 end)
    (tx_inputs tx) 0.
(** transaction.rs:523-535 *)
Definition witness_program_sigops (w : witness) (program : bytes) : rust N :=
  if is_p2wpkh program then Ret 1
  else if is_p2wsh program then
    rbind (wit_last w) (fun o => match o with Some s => count_sigops s | None => Ret 0 end)
  else Ret 0.
(** transaction.rs:537-559 *)
Definition witness_sigops_one (prevout : txout) (i : txin) : rust N :=
  let spk := to_script prevout in
  if is_witness_program spk then witness_program_sigops (ti_witness i) spk
  else if is_p2sh spk then
    rbind (is_push_only (ti_script i)) (fun po =>
    if po then
      rbind (last_pushdata (ti_script i)) (fun o =>
      match o with
      | Some d => witness_program_sigops (ti_witness i) d
      | None => Ret 0
      end)
    else Ret 0)
  else Ret 0.
Definition count_witness_sigops (spent : outpoint -> option txout) (tx : transaction) : rust N :=
  sat_sum (fun i => match spent (ti_prevout i) with Some p => witness_sigops_one p i | None => Ret 0 end)
    (tx_inputs tx) 0.
(** transaction.rs:419-428 *)
Definition total_sigop_cost (spent : outpoint -> option txout) (tx : transaction) : rust N :=
  rbind (count_p2pk_p2pkh_sigops tx) (fun a =>
  rbind (count_p2sh_sigops spent tx) (fun b =>
  rbind (count_witness_sigops spent tx) (fun c =>
  Ret (sat_add (sat_add (sat_mul a 4) (sat_mul b 4)) c)))).
