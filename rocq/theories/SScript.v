(** Specification vocabulary for scripts, written from the Bitcoin script wire format and BIP62,
    BIP141, BIP16 rather than from the code.  Only the data types [instr], [script_err] of the
    model are used. *)
From Verif Require Import Base MDec MWitness MAmount MTx MTxSize MScript.
Local Open Scope N_scope.

(** ** The script format: which byte strings encode which instruction *)
Inductive encodes : instr -> bytes -> Prop :=
| enc_direct : forall d, lenN d <= 75 -> encodes (PushBytes d) (lenN d :: d)
| enc_pushdata1 : forall d, lenN d < 2 ^ 8 -> encodes (PushBytes d) (76 :: le_bytes 1 (lenN d) ++ d)
| enc_pushdata2 : forall d, lenN d < 2 ^ 16 -> encodes (PushBytes d) (77 :: le_bytes 2 (lenN d) ++ d)
| enc_pushdata4 : forall d, lenN d < 2 ^ 32 -> encodes (PushBytes d) (78 :: le_bytes 4 (lenN d) ++ d)
| enc_opcode : forall op, 79 <= op <= 255 -> encodes (Op op) [op].

(** The stack element an instruction pushes, if it is a push (OP_1NEGATE and OP_1..OP_16 push the
    script numbers -1 and 1..16). *)
Definition pushed (i : instr) : option bytes :=
  match i with
  | PushBytes d => Some d
  | Op op => if op =? 79 then Some [129]
             else if (81 <=? op) && (op <=? 96) then Some [op - 80] else None
  end.

(** An encoding is minimal when no encoding of any push of the same element is shorter. *)
Definition shortest (i : instr) (e : bytes) : Prop :=
  forall d i' e', pushed i = Some d -> pushed i' = Some d -> encodes i' e' ->
    (length e <= length e')%nat.

(** No instruction can be read at the front of [s]. *)
Definition stuck (s : bytes) : Prop := forall i e s', encodes i e -> s <> e ++ s'.
(** [s] starts with a PUSHDATA opcode announcing a length that a shorter opcode could announce. *)
Definition short_header (s : bytes) : Prop :=
  (exists n r, s = 76 :: n :: r /\ n < 76) \/
  (exists a r, lenN a = 2 /\ s = 77 :: a ++ r /\ le_val a < 2 ^ 8) \/
  (exists a r, lenN a = 4 /\ s = 78 :: a ++ r /\ le_val a < 2 ^ 16).

(** What reading script [s] from offset [pos] must yield: instructions with their offsets, then
    possibly one error, which is the last item. *)
Inductive parses (minimal : bool) : N -> bytes -> list (result (N * instr) script_err) -> Prop :=
| parses_end : forall pos, parses minimal pos [] []
| parses_instr : forall pos i e s l,
    encodes i e -> (minimal = true -> shortest i e) ->
    parses minimal (pos + lenN e) s l ->
    parses minimal pos (e ++ s) (Ok (pos, i) :: l)
| parses_non_minimal : forall pos i e s,
    encodes i e -> minimal = true -> ~ shortest i e ->
    parses minimal pos (e ++ s) [Err NonMinimalPush]
| parses_short_header : forall pos s,
    stuck s -> minimal = true -> short_header s ->
    parses minimal pos s [Err NonMinimalPush]
| parses_early_end : forall pos s,
    s <> [] -> stuck s -> (minimal = true -> ~ short_header s) ->
    parses minimal pos s [Err EarlyEndOfScript].

Definition strip {E} (r : result (N * instr) E) : result instr E :=
  match r with Ok (_, i) => Ok i | Err e => Err e end.

(** ** Script numbers: little-endian sign-and-magnitude, the sign is the top bit *)
Definition num_val (b : bytes) : Z :=
  match b with
  | [] => 0%Z
  | _ => let top := (2 ^ (8 * lenN b - 1)) in
         if le_val b <? top then Z.of_N (le_val b) else (- Z.of_N (le_val b - top))%Z
  end.
(** [b] is the shortest representation of its value *)
Definition num_minimal (b : bytes) : Prop :=
  forall b', bytes_ok b' -> num_val b' = num_val b -> (length b <= length b')%nat.

(** ** Builder programs *)
Inductive bop :=
| BOpcode (op : N)           (* push_opcode *)
| BSlice (d : bytes)         (* push_slice *)
| BSliceNonMinimal (d : bytes)
| BInt (n : Z)               (* push_int_unchecked *)
| BVerify                    (* push_verify *)
| BInstr (i : instr).        (* push_instruction *)

Definition bop_ok (o : bop) : Prop :=
  match o with
  | BOpcode op => op = 0 \/ 79 <= op <= 255
  | BSlice d | BSliceNonMinimal d => bytes_ok d /\ lenN d < 2 ^ 32
  | BInt n => (- (2 ^ 63) < n < 2 ^ 63)%Z
  | BVerify => True
  | BInstr (Op op) => 79 <= op <= 255
  | BInstr (PushBytes d) => bytes_ok d /\ lenN d < 2 ^ 32
  end.
(** the program only uses the pushes documented as minimal *)
Definition bop_min (o : bop) : bool := match o with BSliceNonMinimal _ => false | _ => true end.

(** What each operation must do to the sequence of instructions of the script. *)
Definition pushes_element (i : instr) (d : bytes) : Prop := pushed i = Some d.
Definition verify_of (op : N) : option N :=
  if op =? 135 then Some 136            (* OP_EQUAL -> OP_EQUALVERIFY *)
  else if op =? 156 then Some 157       (* OP_NUMEQUAL -> OP_NUMEQUALVERIFY *)
  else if op =? 172 then Some 173       (* OP_CHECKSIG -> OP_CHECKSIGVERIFY *)
  else if op =? 174 then Some 175       (* OP_CHECKMULTISIG -> OP_CHECKMULTISIGVERIFY *)
  else None.
Inductive bstep : bop -> list instr -> list instr -> Prop :=
| bs_opcode : forall op l, 79 <= op -> bstep (BOpcode op) l (l ++ [Op op])
| bs_op_0 : forall l, bstep (BOpcode 0) l (l ++ [PushBytes []])
| bs_slice : forall d l i, pushes_element i d -> bstep (BSlice d) l (l ++ [i])
| bs_slice_nm : forall d l, bstep (BSliceNonMinimal d) l (l ++ [PushBytes d])
| bs_int : forall n l i d, pushes_element i d -> num_val d = n -> num_minimal d ->
    bstep (BInt n) l (l ++ [i])
| bs_verify_fuse : forall l op op', verify_of op = Some op' ->
    bstep BVerify (l ++ [Op op]) (l ++ [Op op'])
| bs_verify : forall l, (forall l' op op', l = l' ++ [Op op] -> verify_of op <> Some op') ->
    bstep BVerify l (l ++ [Op 105])
| bs_instr_op : forall l op, bstep (BInstr (Op op)) l (l ++ [Op op])
| bs_instr_push : forall l d i, pushes_element i d -> bstep (BInstr (PushBytes d)) l (l ++ [i]).
Inductive bsteps : list bop -> list instr -> list instr -> Prop :=
| bsteps_nil : forall l, bsteps [] l l
| bsteps_cons : forall o os l l1 l2, bstep o l l1 -> bsteps os l1 l2 -> bsteps (o :: os) l l2.

(** The model's builder running such a program. *)
Definition run_op (s : bytes) (o : bop) : rust bytes :=
  match o with
  | BOpcode op => Ret (sb_push_opcode s op)
  | BSlice d => Ret (sb_push_slice s d)
  | BSliceNonMinimal d => Ret (sb_push_slice_non_minimal s d)
  | BInt n => sb_push_int_unchecked s n
  | BVerify => sb_scan_and_push_verify s
  | BInstr i => Ret (sb_push_instruction s i)
  end.
Fixpoint run_ops (s : bytes) (os : list bop) : rust bytes :=
  match os with [] => Ret s | o :: os' => rbind (run_op s o) (fun s' => run_ops s' os') end.

(** ** Output templates *)
Definition t_p2pkh (h : bytes) : bytes := [118; 169; 20] ++ h ++ [136; 172].
Definition t_p2sh (h : bytes) : bytes := [169; 20] ++ h ++ [135].
Definition t_p2pk (k : bytes) : bytes := [lenN k] ++ k ++ [172].
(** BIP141: a version opcode then a direct push of 2 to 40 bytes *)
Definition version_op (v : N) : N := if v =? 0 then 0 else 80 + v.
Definition t_witness (v : N) (p : bytes) : bytes := [version_op v; lenN p] ++ p.
Definition program_ok (v : N) (p : bytes) : Prop := v <= 16 /\ 2 <= lenN p <= 40.
(** BIP141: version 0 programs have 20 or 32 bytes *)
Definition program_valid (v : N) (p : bytes) : Prop :=
  program_ok v p /\ (v = 0 -> lenN p = 20 \/ lenN p = 32).

(** ** Signature operations (Bitcoin Core's CScript::GetSigOpCount on an instruction sequence) *)
Definition multisig_keys (accurate : bool) (prev : option instr) : N :=
  match accurate, prev with
  | true, Some (Op op) => if (81 <=? op) && (op <=? 96) then op - 80 else 20
  | _, _ => 20
  end.
Fixpoint sigops_from (accurate : bool) (prev : option instr) (l : list instr) : N :=
  match l with
  | [] => 0
  | i :: l' =>
      match i with
      | Op op => if (op =? 172) || (op =? 173) then 1
                 else if (op =? 174) || (op =? 175) then multisig_keys accurate prev else 0
      | PushBytes _ => 0
      end + sigops_from accurate (Some i) l'
  end.
Definition sigops (accurate : bool) (l : list instr) : N := sigops_from accurate None l.

(** ** Reading scripts as a whole *)
(** the instructions before the first error *)
Definition oks (r : list (result (N * instr) script_err)) : list instr :=
  flat_map (fun x => match x with Ok (_, i) => [i] | Err _ => [] end) r.
Definition script_sigops (accurate : bool) (s : bytes) (n : N) : Prop :=
  exists r, parses false 0 s r /\ n = sigops accurate (oks r).
(** every instruction is a push: data, or an opcode up to OP_16 *)
Definition push_only (s : bytes) : Prop :=
  exists r, parses false 0 s r /\
    Forall (fun x => match x with
                     | Ok (_, PushBytes _) => True
                     | Ok (_, Op op) => op <= 96
                     | Err _ => False
                     end) r.
(** [o] is what the last instruction pushes explicitly *)
Definition last_push (s : bytes) (o : option bytes) : Prop :=
  exists r, parses false 0 s r /\
    o = match rev r with Ok (_, PushBytes d) :: _ => Some d | _ => None end.
(** m-of-n bare multisig: OP_m, n keys, OP_n, OP_CHECKMULTISIG *)
Definition multisig (l : list instr) : Prop :=
  exists m keys, 1 <= m <= lenN keys /\ lenN keys <= 16 /\
    l = Op (80 + m) :: map PushBytes keys ++ [Op (80 + lenN keys); Op 174].

(** ** Signature operation cost (BIP141) *)
Definition is_sh (spk : bytes) : Prop := exists h, lenN h = 20 /\ spk = t_p2sh h.
Definition p2sh_cost (spk sig : bytes) (n : N) : Prop :=
  (is_sh spk /\ exists o, last_push sig o /\
     match o with Some d => script_sigops true d n | None => n = 0 end)
  \/ (~ is_sh spk /\ n = 0).
Definition program_cost (spk : bytes) (stack : list bytes) (n : N) : Prop :=
  (exists p, lenN p = 20 /\ spk = t_witness 0 p /\ n = 1) \/
  (exists p, lenN p = 32 /\ spk = t_witness 0 p /\
     match rev stack with e :: _ => script_sigops true e n | [] => n = 0 end) \/
  ((~ exists p, (lenN p = 20 \/ lenN p = 32) /\ spk = t_witness 0 p) /\ n = 0).
Definition is_program (spk : bytes) : Prop := exists v p, program_ok v p /\ spk = t_witness v p.
Definition witness_cost (spk sig : bytes) (stack : list bytes) (n : N) : Prop :=
  (is_program spk /\ program_cost spk stack n) \/
  (is_sh spk /\ push_only sig /\ exists o, last_push sig o /\
     match o with Some d => program_cost d stack n | None => n = 0 end) \/
  (~ is_program spk /\ ~ (is_sh spk /\ push_only sig) /\ n = 0).
(** the cost of an input given what it spends; unknown outputs count nothing *)
Definition input_cost (spent : outpoint -> option txout) (i : txin) (p2sh wit : N) : Prop :=
  match spent (ti_prevout i) with
  | None => p2sh = 0 /\ wit = 0
  | Some o => p2sh_cost (to_script o) (ti_script i) p2sh /\
      exists stack, from_slice stack = Ret (ti_witness i) /\ witness_cost (to_script o) (ti_script i) stack wit
  end.
Definition sumN (l : list N) : N := fold_right N.add 0 l.
