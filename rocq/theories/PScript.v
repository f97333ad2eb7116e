(** Properties C13, C14, C15, C16 and C41: scripts.
    Model: MScript.v.  Specification: SScript.v ([encodes i e]: the bytes [e] encode instruction [i];
    [parses minimal pos s r]: what reading [s] must yield; [num_val], [num_minimal]: script numbers;
    [bsteps]: what a builder program means; the [t_*] templates; [sigops]). *)
From Verif Require Import Base MDec MWitness MAmount MTx MTxSize SWire MScript SScript LScript LScript2 LScriptNum LScript3 LScript4 LScript5.
Local Open Scope N_scope.

(** *** C14 *)
(** Reading any byte string ends without panicking and yields exactly what the script format
    prescribes, in both modes; there is only one such reading. *)
Theorem C14_reads : forall (m : bool) s, bytes_ok s -> exists r,
  parses m 0 s r /\ (forall r', parses m 0 s r' -> r' = r) /\
  (if m then instructions_minimal s else instructions s) = Ret (map strip r) /\
  (lenN s < 2 ^ 64 -> instruction_indices m s = Ret r).
Proof.
  intros m s H. destruct (instrs_parses m s H) as (r & P & E & I). exists r. split; [exact P|].
  split; [intros r' P'; eapply parses_det; eauto|]. split; [|exact I]. destruct m; exact E.
Qed.
Print Assumptions C14_reads.

(** At most one item per byte; everything before the last item is an instruction; the size hint
    brackets the number of items. *)
Theorem C14_shape : forall (m : bool) s, bytes_ok s -> exists (l : list instr) (tail : list (result instr script_err)),
  (if m then instructions_minimal s else instructions s) = Ret (map Ok l ++ tail) /\
  (tail = [] \/ exists e, tail = [Err e]) /\
  fst (size_hint s) <= lenN (map Ok l ++ tail) <= snd (size_hint s) /\
  lenN (map Ok l ++ tail) <= lenN s.
Proof.
  intros m s H. destruct (instrs_parses m s H) as (r & P & E & _).
  destruct (reads_shape _ _ _ _ P) as (tail & Sh & T). exists (oks r), tail. rewrite <- Sh.
  split; [destruct m; exact E|]. split; [exact T|]. rewrite lenN_map. pose proof (reads_count _ _ _ _ P) as C.
  split; [|exact C]. unfold size_hint. destruct s as [|b s]; cbn [fst snd].
  - rewrite lenN_nil in C. lia.
  - split; [|exact C]. destruct r; [|rewrite lenN_cons; lia]. inversion P.
Qed.
Print Assumptions C14_shape.

(** Fused: an error empties the iterator, an empty iterator yields nothing and stays empty, and
    every yielded instruction removes exactly its own encoding from the front. *)
Theorem C14_step : forall (m : bool) s, bytes_ok s ->
  (s = [] /\ instr_next m s = Ret (None, [])) \/
  (exists e, instr_next m s = Ret (Some (Err e), [])) \/
  (exists i e s', s = e ++ s' /\ encodes i e /\ instr_next m s = Ret (Some (Ok i), s')).
Proof.
  intros m [|b s] H; [left; split; reflexivity|]. right.
  destruct (step_all m b s H) as [(i & e & s' & A & B & C & D)|[(i & e & s' & A & B & C & D & E)|[(A & B & C & D)|(A & B & C)]]];
    [right; exists i, e, s'; auto|left..]; eauto.
Qed.
Print Assumptions C14_step.

(** Every opcode is classified, in both execution contexts. *)
Theorem C14_classify_total : forall c b, b < 256 -> exists cl, classify b c = Ret cl.
Proof. exact classify_total. Qed.
Print Assumptions C14_classify_total.

Example C14_nonvacuous : bytes_ok [76; 1; 5; 81; 2; 9] /\
  instructions [76; 1; 5; 81; 2; 9] = Ret [Ok (PushBytes [5]); Ok (Op 81); Err EarlyEndOfScript] /\
  instructions_minimal [76; 1; 5; 81; 2; 9] = Ret [Err NonMinimalPush] /\
  instruction_indices false [76; 1; 5; 81; 2; 9] = Ret [Ok (0, PushBytes [5]); Ok (3, Op 81); Err EarlyEndOfScript].
Proof. split; [repeat constructor|]. split; [reflexivity|]. split; reflexivity. Qed.

(** *** C13 *)
(** The format is unambiguous: a script starts with at most one instruction, of one length. *)
Theorem C13_unambiguous : forall i e s i' e' s', encodes i e -> encodes i' e' ->
  e ++ s = e' ++ s' -> i = i' /\ e = e' /\ s = s'.
Proof. exact encodes_prefix. Qed.
Print Assumptions C13_unambiguous.

(** push_slice appends one instruction that pushes exactly the data, in the shortest encoding, and
    leaves the reading of the existing script unchanged. *)
Theorem C13_push_slice : forall s l d, bytes_ok s -> bytes_ok d -> lenN d < 2 ^ 32 ->
  instructions s = Ret (map Ok l) ->
  exists i e, sb_push_slice s d = s ++ e /\ encodes i e /\ shortest i e /\ pushed i = Some d /\
    instructions (sb_push_slice s d) = Ret (map Ok (l ++ [i])) /\
    (instructions_minimal s = Ret (map Ok l) ->
     instructions_minimal (sb_push_slice s d) = Ret (map Ok (l ++ [i]))).
Proof.
  intros s l d Hs Hd L R. exists (canon d).
  assert (A : exists e, sb_push_slice s d = s ++ e /\ encodes (canon d) e /\ shortest (canon d) e).
  { rewrite push_slice_cases. unfold canon. destruct (special d) eqn:Sp.
    - exists [special_op d]. split; [reflexivity|]. split; [|apply shortest_op]. constructor. destruct (special_push d Sp). lia.
    - destruct (push_no_opt_enc s d L) as (e & E1 & E2 & _ & E3). exists e. auto. }
  destruct A as (e & A1 & A2 & A3). exists e. split; [exact A1|]. split; [exact A2|]. split; [exact A3|].
  split; [apply canon_pushed|]. split.
  - assert (B : built false s l) by (apply built_reads; auto). apply (built_reads false). apply push_slice_built; auto.
  - intro R2. assert (B : built true s l) by (apply built_reads; auto). apply (built_reads true). apply push_slice_built; auto.
Qed.
Print Assumptions C13_push_slice.

(** The unoptimised push is read back as a data push of exactly the data. *)
Theorem C13_push_slice_non_minimal : forall s l d, bytes_ok s -> bytes_ok d -> lenN d < 2 ^ 32 ->
  instructions s = Ret (map Ok l) ->
  exists e, sb_push_slice_non_minimal s d = s ++ e /\ encodes (PushBytes d) e /\
    instructions (sb_push_slice_non_minimal s d) = Ret (map Ok (l ++ [PushBytes d])).
Proof.
  intros s l d Hs Hd L R. destruct (push_no_opt_enc s d L) as (e & E1 & E2 & _ & _). exists e.
  split; [exact E1|]. split; [exact E2|]. assert (B : built false s l) by (apply built_reads; auto).
  apply (built_reads false). apply push_slice_nm_built; auto.
Qed.
Print Assumptions C13_push_slice_non_minimal.

(** Appending any bytes to a completely readable script leaves its instructions in place, followed
    by the reading of the appended bytes. *)
Theorem C13_append : forall s s' l r, bytes_ok s -> bytes_ok s' ->
  (instructions s = Ret (map Ok l) -> instructions s' = Ret r ->
   instructions (s ++ s') = Ret (map Ok l ++ r)) /\
  (instructions_minimal s = Ret (map Ok l) -> instructions_minimal s' = Ret r ->
   instructions_minimal (s ++ s') = Ret (map Ok l ++ r)).
Proof.
  intros s s' l r Hs Hs'. split; intros E E'; [apply (instrs_app false)|apply (instrs_app true)]; auto.
Qed.
Print Assumptions C13_append.

(** Any program of builder operations, from the empty script, does not panic and is read back as
    the sequence of instructions the program means. *)
Theorem C13_builder : forall os, Forall bop_ok os ->
  exists s l, run_ops [] os = Ret s /\ bsteps os [] l /\ bytes_ok s /\
    instructions s = Ret (map Ok l) /\
    (forallb bop_min os = true -> instructions_minimal s = Ret (map Ok l)).
Proof.
  intros os H. destruct (forallb bop_min os) eqn:M.
  - destruct (run_ops_built true os [] [] (built_nil true) H (fun _ => M)) as (s & l & E & B & S1). exists s, l.
    split; [exact E|]. split; [exact S1|]. pose proof (built_weaken _ _ _ B) as B2.
    apply built_reads in B2. apply built_reads in B. destruct B as [B1 B3], B2 as [_ B4]. auto.
  - destruct (run_ops_built false os [] [] (built_nil false) H) as (s & l & E & B & S1); [discriminate|]. exists s, l.
    split; [exact E|]. split; [exact S1|]. apply built_reads in B. destruct B as [B1 B3]. split; [exact B1|].
    split; [exact B3|discriminate].
Qed.
Print Assumptions C13_builder.

(** Re-assembling a script from the instructions of the minimal iterator gives back the script. *)
Theorem C13_reassemble : forall s l hint, bytes_ok s -> instructions_minimal s = Ret (map Ok l) ->
  (forall m, hint = Some m -> lenN l <= m) -> sb_from_iter hint l = Ret s.
Proof. exact from_iter_round_trip. Qed.
Print Assumptions C13_reassemble.

(** Extending by instructions, through the growing branch: each is read back as itself, or as
    another push of the same data. *)
Theorem C13_extend : forall s l0 l, bytes_ok s -> instructions s = Ret (map Ok l0) ->
  Forall (fun i => match i with Op op => 79 <= op <= 255 | PushBytes d => bytes_ok d /\ lenN d < 2 ^ 32 end) l ->
  exists s' l1, sb_extend s None l = Ret s' /\ instructions s' = Ret (map Ok (l0 ++ l1)) /\
    Forall2 (fun i j => match i with Op op => j = Op op | PushBytes d => pushed j = Some d end) l l1.
Proof.
  intros s l0 l Hs R F. assert (B : built false s l0) by (apply built_reads; auto).
  destruct (fold_push_built false l s l0 B F) as (l1 & B1 & _ & F1). exists (fold_left sb_push_instruction l s), l1.
  split; [reflexivity|]. split; [|exact F1]. apply (built_reads false). exact B1.
Qed.
Print Assumptions C13_extend.

(** Finding: what [extend]/[from_iter] writes depends on the size hint of the iterator: a single
    push of [0x01] is written minimally or not. *)
Theorem C13_extend_hint_refuted : exists l s1 s2, sb_from_iter (Some 1) l = Ret s1 /\ sb_from_iter None l = Ret s2 /\
  s1 <> s2 /\ instructions_minimal s1 = Ret [Err NonMinimalPush].
Proof. exists [PushBytes [1]], [1; 1], [81]. split; [reflexivity|]. split; [reflexivity|]. split; [discriminate|reflexivity]. Qed.
Print Assumptions C13_extend_hint_refuted.

(** Finding: [push_opcode] accepts the data push opcodes, which swallow what is pushed later. *)
Theorem C13_push_opcode_refuted : exists s, run_ops [] [BOpcode 1; BOpcode 172] = Ret s /\
  instructions s = Ret [Ok (PushBytes [172])].
Proof. exists [1; 172]. split; reflexivity. Qed.
Print Assumptions C13_push_opcode_refuted.

Example C13_nonvacuous : exists os s, Forall bop_ok os /\ run_ops [] os = Ret s /\
  os = [BOpcode 118; BSlice (repeat 7 80); BInt 1000; BInt 5; BOpcode 172; BVerify] /\
  instructions s = Ret (map Ok [Op 118; PushBytes (repeat 7 80); PushBytes [232; 3]; Op 85; Op 173]).
Proof.
  eexists _, _. split; [|split; [|split; [reflexivity|]]].
  - repeat constructor; unfold byte_ok; lia.
  - reflexivity.
  - vm_compute. reflexivity.
Qed.

(** *** C15 *)
(** Writing gives the shortest representation of the number. *)
Theorem C15_write : forall n, (- 2 ^ 63 < n < 2 ^ 63)%Z ->
  exists b, scriptint_bytes n = Ret b /\ bytes_ok b /\ num_val b = n /\ num_minimal b /\ lenN b <= 8.
Proof. exact scriptint_bytes_ok. Qed.
Print Assumptions C15_write.

(** Finding: the remaining i64 panics (index out of the 8-byte buffer). *)
Theorem C15_write_min_refuted : scriptint_bytes (- 2 ^ 63) = Panic /\ forall s, sb_push_int_unchecked s (- 2 ^ 63) = Panic.
Proof. split; [exact scriptint_min_panics|]. intro s. reflexivity. Qed.
Print Assumptions C15_write_min_refuted.

(** The minimal readers accept exactly the shortest representations within their size limit. *)
Theorem C15_read : forall v, bytes_ok v ->
  (lenN v <= 4 -> num_minimal v -> read_scriptint v = Ret (Ok (num_val v))) /\
  (lenN v <= 4 -> ~ num_minimal v -> read_scriptint v = Ret (Err IntNonMinimal)) /\
  (4 < lenN v -> read_scriptint v = Ret (Err IntOverflow)).
Proof. exact read_scriptint_spec. Qed.
Print Assumptions C15_read.

Theorem C15_read_cltv : forall v, bytes_ok v ->
  (lenN v <= 5 -> num_minimal v -> read_cltv_scriptint v = Ok (num_val v)) /\
  (lenN v <= 5 -> ~ num_minimal v -> read_cltv_scriptint v = Err IntNonMinimal) /\
  (5 < lenN v -> read_cltv_scriptint v = Err IntOverflow).
Proof. intros v H. apply read_internal_spec. exact H. Qed.
Print Assumptions C15_read_cltv.

(** A byte string is accepted iff it is the written form of its value, of at most 4 bytes. *)
Theorem C15_read_iff_written : forall v n, bytes_ok v -> (- 2 ^ 63 < n < 2 ^ 63)%Z ->
  (read_scriptint v = Ret (Ok n) <-> scriptint_bytes n = Ret v /\ lenN v <= 4).
Proof.
  intros v n Hv Hn. destruct (scriptint_bytes_ok n Hn) as (b & E & Hb & V & M & L).
  destruct (read_scriptint_spec v Hv) as (A & B & C). split.
  - intro R. destruct (N.le_gt_cases (lenN v) 4) as [L4|L4]; [|rewrite (C L4) in R; discriminate].
    split; [|exact L4]. rewrite E. f_equal. destruct (code_min_ok v Hv) as [_ _].
    destruct (code_min v) eqn:Cm.
    + apply code_min_ok in Cm; [|exact Hv]. rewrite (A L4 Cm) in R. apply num_minimal_inj; auto. congruence.
    + rewrite (B L4) in R; [discriminate|]. intro Q. apply code_min_ok in Q; [|exact Hv]. congruence.
  - intros [E2 L4]. assert (b = v) by congruence. subst b. rewrite (A L4 M). congruence.
Qed.
Print Assumptions C15_read_iff_written.

(** Reading what was written, within the size limit of each reader. *)
Theorem C15_write_read : forall n, (- 2 ^ 31 < n < 2 ^ 31)%Z -> exists b, scriptint_bytes n = Ret b /\
  read_scriptint b = Ret (Ok n) /\ read_scriptint_non_minimal b = Ret (Ok n) /\ read_cltv_scriptint b = Ok n.
Proof.
  intros n Hn. destruct (scriptint_bytes_ok n ltac:(lia)) as (b & E & Hb & V & M & _). exists b. split; [exact E|].
  assert (L : lenN b <= 4).
  { pose proof (num_of_len n b Hb M V 4 ltac:(lia) ltac:(change (2 ^ (8 * Z.of_nat 4 - 1))%Z with (2 ^ 31)%Z; lia)).
    unfold lenN. lia. }
  destruct (read_scriptint_spec b Hb) as (A & _). destruct (read_internal_spec b 5 Hb) as (B & _).
  rewrite read_non_minimal_spec by exact Hb. destruct (N.leb_spec (lenN b) 4); [|lia].
  unfold read_cltv_scriptint. rewrite (A L M), (B ltac:(lia) M), V. auto.
Qed.
Print Assumptions C15_write_read.

Theorem C15_write_read_cltv : forall n, (- 2 ^ 39 < n < 2 ^ 39)%Z -> exists b, scriptint_bytes n = Ret b /\
  read_cltv_scriptint b = Ok n.
Proof.
  intros n Hn. destruct (scriptint_bytes_ok n ltac:(lia)) as (b & E & Hb & V & M & _). exists b. split; [exact E|].
  assert (L : lenN b <= 5).
  { pose proof (num_of_len n b Hb M V 5 ltac:(lia) ltac:(change (2 ^ (8 * Z.of_nat 5 - 1))%Z with (2 ^ 39)%Z; lia)).
    unfold lenN. lia. }
  destruct (read_internal_spec b 5 Hb) as (B & _). unfold read_cltv_scriptint. rewrite (B L M), V. reflexivity.
Qed.
Print Assumptions C15_write_read_cltv.

(** The lenient reader gives the value of any string of at most 4 bytes (so it agrees with the
    minimal reader wherever that succeeds), and the boolean is "the number is not zero". *)
Theorem C15_non_minimal : forall v, bytes_ok v ->
  read_scriptint_non_minimal v = Ret (if lenN v <=? 4 then Ok (num_val v) else Err IntOverflow).
Proof. exact read_non_minimal_spec. Qed.
Print Assumptions C15_non_minimal.

Theorem C15_agree : forall v n, bytes_ok v -> read_scriptint v = Ret (Ok n) ->
  read_scriptint_non_minimal v = Ret (Ok n) /\ read_cltv_scriptint v = Ok n.
Proof.
  intros v n Hv R. destruct (read_scriptint_spec v Hv) as (A & B & C).
  destruct (N.le_gt_cases (lenN v) 4) as [L4|L4]; [|rewrite (C L4) in R; discriminate].
  destruct (code_min v) eqn:Cm.
  - apply code_min_ok in Cm; [|exact Hv]. rewrite (A L4 Cm) in R. assert (num_val v = n) by congruence. subst n.
    rewrite read_non_minimal_spec by exact Hv. destruct (N.leb_spec (lenN v) 4); [|lia]. split; [reflexivity|].
    destruct (read_internal_spec v 5 Hv) as (D & _). apply D; [lia|exact Cm].
  - rewrite (B L4) in R; [discriminate|]. intro Q. apply code_min_ok in Q; [|exact Hv]. congruence.
Qed.
Print Assumptions C15_agree.

Theorem C15_bool : forall v, bytes_ok v -> read_scriptbool v = negb (num_val v =? 0)%Z.
Proof. exact scriptbool_spec. Qed.
Print Assumptions C15_bool.

(** push_int of every i32 but the minimum succeeds and is read back as that number, also by the
    minimal iterator; the minimum is refused. *)
Theorem C15_push_int : forall s l n, bytes_ok s -> instructions s = Ret (map Ok l) ->
  (- 2 ^ 31 < n < 2 ^ 31)%Z ->
  exists s' i, sb_push_int s n = Ret (Ok s') /\ instructions s' = Ret (map Ok (l ++ [i])) /\
    script_num i = Ret (Some n) /\ read_int i = Some n /\
    (instructions_minimal s = Ret (map Ok l) -> instructions_minimal s' = Ret (map Ok (l ++ [i]))).
Proof.
  intros s l n Hs R Hn. assert (B : built false s l) by (apply built_reads; auto).
  destruct (push_int_built false s l n B ltac:(lia)) as (s' & i & d & E & B' & P & Hd & V & M & K). exists s', i.
  unfold sb_push_int, I32_MIN. destruct (Z.eqb_spec n (-2147483648)); [lia|]. rewrite E. cbn [rbind]. split; [reflexivity|].
  split; [apply (built_reads false); exact B'|].
  assert (L : lenN d <= 4).
  { pose proof (num_of_len n d Hd M V 4 ltac:(lia) ltac:(change (2 ^ (8 * Z.of_nat 4 - 1))%Z with (2 ^ 31)%Z; lia)).
    unfold lenN. lia. }
  split; [|split].
  - destruct K as [->|(op & -> & O)]; cbn [script_num].
    + rewrite read_non_minimal_spec by exact Hd. destruct (N.leb_spec (lenN d) 4); [|lia]. cbn [rbind]. rewrite V. reflexivity.
    + rewrite O. reflexivity.
  - destruct K as [->|(op & -> & O)]; cbn [read_int]; [|exact O].
    destruct (read_internal_spec d 5 Hd) as (D & _). unfold read_cltv_scriptint. rewrite (D ltac:(lia) M), V. reflexivity.
  - intro R2. assert (B2 : built true s l) by (apply built_reads; auto).
    destruct (push_int_built true s l n B2 ltac:(lia)) as (s2 & i2 & d2 & E2 & B2' & P2 & Hd2 & V2 & M2 & K2).
    assert (s2 = s') by congruence. subst s2.
    pose proof (built_weaken _ _ _ B2') as B3. apply built_reads in B3. apply built_reads in B'. destruct B3 as [_ B3], B' as [_ B4].
    assert (Q : map (Ok (E := script_err)) (l ++ [i2]) = map Ok (l ++ [i])) by congruence.
    rewrite <- Q. apply (built_reads true). exact B2'.
Qed.
Print Assumptions C15_push_int.

Theorem C15_push_int_min : forall s, sb_push_int s (- 2 ^ 31) = Ret (Err NumericOverflow).
Proof. reflexivity. Qed.
Print Assumptions C15_push_int_min.

Theorem C15_push_int_unchecked : forall s l n, bytes_ok s -> instructions s = Ret (map Ok l) ->
  (- 2 ^ 39 < n < 2 ^ 39)%Z ->
  exists s' i, sb_push_int_unchecked s n = Ret s' /\ instructions s' = Ret (map Ok (l ++ [i])) /\ read_int i = Some n.
Proof.
  intros s l n Hs R Hn. assert (B : built false s l) by (apply built_reads; auto).
  destruct (push_int_built false s l n B ltac:(lia)) as (s' & i & d & E & B' & P & Hd & V & M & K). exists s', i.
  split; [exact E|]. split; [apply (built_reads false); exact B'|].
  destruct K as [->|(op & -> & O)]; cbn [read_int]; [|exact O].
  assert (L : lenN d <= 5).
  { pose proof (num_of_len n d Hd M V 5 ltac:(lia) ltac:(change (2 ^ (8 * Z.of_nat 5 - 1))%Z with (2 ^ 39)%Z; lia)).
    unfold lenN. lia. }
  destruct (read_internal_spec d 5 Hd) as (D & _). unfold read_cltv_scriptint. rewrite (D L M), V. reflexivity.
Qed.
Print Assumptions C15_push_int_unchecked.

Example C15_nonvacuous : scriptint_bytes (-255) = Ret [255; 128] /\ num_val [255; 128] = (-255)%Z /\
  read_scriptint [255; 0] = Ret (Ok 255%Z) /\ read_scriptint [5; 0] = Ret (Err IntNonMinimal) /\ num_val [5; 0] = 5%Z.
Proof. repeat split; reflexivity. Qed.

(** *** C16 *)
Theorem C16_witness_version : forall s v, witness_version s = Some v <-> exists p, program_ok v p /\ s = t_witness v p.
Proof. exact witness_version_iff. Qed.
Print Assumptions C16_witness_version.

(** (version, program) and output script determine each other. *)
Theorem C16_one_to_one : forall v p w q, program_ok v p -> program_ok w q ->
  (t_witness v p = t_witness w q <-> v = w /\ p = q).
Proof. intros v p w q A B. split; [apply t_witness_inj; auto|]. intros [-> ->]. reflexivity. Qed.
Print Assumptions C16_one_to_one.

Theorem C16_predicates : forall s,
  (is_witness_program s = true <-> exists v p, program_ok v p /\ s = t_witness v p) /\
  (is_p2wpkh s = true <-> exists p, lenN p = 20 /\ s = t_witness 0 p) /\
  (is_p2wsh s = true <-> exists p, lenN p = 32 /\ s = t_witness 0 p) /\
  (is_p2tr s = true <-> exists p, lenN p = 32 /\ s = t_witness 1 p) /\
  (is_p2a s = true <-> s = t_witness 1 [78; 115]) /\
  (is_p2sh s = true <-> exists h, lenN h = 20 /\ s = t_p2sh h) /\
  (is_p2pkh s = true <-> exists h, lenN h = 20 /\ s = t_p2pkh h) /\
  (is_p2pk s = true <-> exists k, (lenN k = 33 \/ lenN k = 65) /\ s = t_p2pk k) /\
  (forall k, p2pk_pubkey_bytes s = Some k <-> (lenN k = 33 \/ lenN k = 65) /\ s = t_p2pk k) /\
  (is_op_return s = true <-> exists t, s = 106 :: t).
Proof.
  intro s. split; [apply is_wp_iff|]. split; [apply is_p2wpkh_iff|]. split; [apply is_p2wsh_iff|]. split; [apply is_p2tr_iff|].
  split; [apply is_p2a_iff|]. split; [apply is_p2sh_iff|]. split; [apply is_p2pkh_iff|]. split.
  - unfold is_p2pk. destruct (p2pk_pubkey_bytes s) as [k|] eqn:E.
    + split; [intros _; exists k; apply p2pk_iff; exact E|reflexivity].
    + split; [discriminate|]. intros (k & H). apply p2pk_iff in H. congruence.
  - split; [apply p2pk_iff|]. unfold is_op_return. destruct s as [|b s].
    + split; [discriminate|]. intros (t & H). discriminate.
    + change OP_RETURN with 106. destruct (N.eqb_spec b 106) as [->|N].
      * split; [eauto|reflexivity].
      * split; [discriminate|]. intros (t & H). congruence.
Qed.
Print Assumptions C16_predicates.

(** No script is recognised as two different kinds. *)
Theorem C16_exclusive : forall s,
  (length (filter (fun b => b) [is_p2wpkh s; is_p2wsh s; is_p2tr s; is_p2a s; is_p2sh s; is_p2pkh s; is_p2pk s; is_op_return s]) <= 1)%nat.
Proof.
  intro s. destruct (C16_predicates s) as (_ & A & B & C & D & E & F & G & _ & H).
  assert (Z : forall b P, (b = true <-> P) -> b = false \/ b = true /\ P) by (intros [] P [I1 I2]; auto).
  destruct (Z _ _ A) as [->|[-> (p1 & L1 & E1)]], (Z _ _ B) as [->|[-> (p2 & L2 & E2)]], (Z _ _ C) as [->|[-> (p3 & L3 & E3)]],
    (Z _ _ D) as [->|[-> E4]], (Z _ _ E) as [->|[-> (p5 & L5 & E5)]], (Z _ _ F) as [->|[-> (p6 & L6 & E6)]],
    (Z _ _ G) as [->|[-> (p7 & L7 & E7)]], (Z _ _ H) as [->|[-> (p8 & E8)]];
    cbn [filter length]; try lia; exfalso;
    unfold t_witness, version_op, t_p2sh, t_p2pkh, t_p2pk in *; cbn [N.eqb app] in *; subst s;
    repeat match goal with
    | X : _ :: _ = _ :: _ |- _ => injection X as; subst; try discriminate; try lia
    end; try congruence.
Qed.
Print Assumptions C16_exclusive.

(** Building: the constructors produce the templates. *)
Theorem C16_build : 
  (forall h, lenN h = 20 -> new_p2pkh h = t_p2pkh h /\ new_p2sh h = t_p2sh h /\ new_p2wpkh h = Ret (t_witness 0 h)) /\
  (forall h, lenN h = 32 -> new_p2wsh h = Ret (t_witness 0 h) /\ new_p2tr_tweaked h = Ret (t_witness 1 h)) /\
  (forall k, lenN k = 33 \/ lenN k = 65 -> new_p2pk k = t_p2pk k) /\
  new_p2a = Ret (t_witness 1 [78; 115]) /\
  (forall v p, program_valid v p -> new_witness_program_unchecked v p = Ret (t_witness v p)) /\
  (forall v p, v <= 16 -> ~ program_valid v p -> new_witness_program_unchecked v p = Panic).
Proof.
  split; [|split; [|split; [|split; [reflexivity|split; [exact unchecked_ok|exact unchecked_panics]]]]].
  - intros h L. unfold new_p2pkh, new_p2sh, new_p2wpkh, sb_push_opcode. rewrite !push_plain by lia. rewrite L.
    cbn [app]. rewrite <- !app_assoc. split; [reflexivity|]. split; [reflexivity|].
    apply unchecked_ok. split; [split; lia|]. intros _. auto.
  - intros h L. split; apply unchecked_ok; (split; [split; lia|]); intros; [right; auto|lia].
  - intros k L. unfold new_p2pk, sb_push_opcode, t_p2pk. rewrite push_plain by lia. cbn [app]. reflexivity.
Qed.
Print Assumptions C16_build.

(** A witness program that was accepted is recognised in its own output script, with the same
    version and program. *)
Theorem C16_program_round_trip : forall v b w, v <= 16 -> wp_new v b = Ok w ->
  wp_version w = v /\ wp_program w = b /\
  witness_version (new_witness_program w) = Some v /\ skipn 2 (new_witness_program w) = b /\
  (wp_is_p2wpkh w = is_p2wpkh (new_witness_program w)) /\
  (wp_is_p2wsh w = is_p2wsh (new_witness_program w)) /\
  (wp_is_p2tr w = is_p2tr (new_witness_program w)) /\
  (wp_is_p2a w = is_p2a (new_witness_program w)).
Proof.
  intros v b w Hv H. apply wp_new_iff in H; [|exact Hv]. destruct H as [[Hok H0] ->]. cbn [wp_version wp_program].
  split; [reflexivity|]. split; [reflexivity|]. rewrite new_wp_ok by exact Hok. cbn [wp_version wp_program].
  assert (T : forall v2 b2 P, (P = true <-> exists p, lenN p = b2 /\ t_witness v b = t_witness v2 p) -> v2 <= 16 ->
     (v =? v2) && (lenN b =? b2) = P).
  { intros v2 b2 P HP Hv2. apply eq_true_iff_eq. rewrite HP, andb_true_iff, !N.eqb_eq. split.
    - intros [-> <-]. eauto.
    - intros (p & <- & E). unfold t_witness in E. cbn [app] in E. injection E as E1 E2 E3.
      split; [apply version_op_inj; auto|congruence]. }
  split; [apply witness_version_iff; eauto|]. split; [reflexivity|].
  split; [apply T; [apply is_p2wpkh_iff|lia]|]. split; [apply T; [apply is_p2wsh_iff|lia]|].
  split; [apply T; [apply is_p2tr_iff|lia]|].
  unfold wp_is_p2a. cbn [wp_version wp_program]. apply eq_true_iff_eq. rewrite is_p2a_iff, andb_true_iff, N.eqb_eq, LWitness.beqb_spec.
  split.
  - intros [-> ->]. reflexivity.
  - intro E. change [81; 2; 78; 115] with (t_witness 1 [78; 115]) in E. apply t_witness_inj in E; [exact E|exact Hok|].
    split; [lia|]. change (lenN [78; 115]) with 2. lia.
Qed.
Print Assumptions C16_program_round_trip.

Theorem C16_program_new : forall v b, v <= 16 -> 
  ((exists w, wp_new v b = Ok w) <-> program_valid v b) /\
  (forall n, wp_new v b = Err (WpInvalidLength n) -> n = lenN b /\ (n < 2 \/ 40 < n)) /\
  (forall n, wp_new v b = Err (WpInvalidSegwitV0Length n) -> n = lenN b /\ v = 0 /\ n <> 20 /\ n <> 32).
Proof.
  intros v b Hv. split; [|split].
  - split; [intros (w & H); apply wp_new_iff in H; tauto|]. intro H. eexists. apply wp_new_iff; auto.
  - intros n H. unfold wp_new in H. destruct ((lenN b <? 2) || (40 <? lenN b)) eqn:R.
    + inv H. split; [reflexivity|]. apply orb_true_iff in R. destruct R as [R|R]; apply N.ltb_lt in R; auto.
    + destruct (_ && _); discriminate.
  - intros n H. unfold wp_new in H. destruct ((lenN b <? 2) || (40 <? lenN b)); [discriminate|].
    destruct ((v =? 0) && (negb (lenN b =? 20) && negb (lenN b =? 32))) eqn:R; [|discriminate]. inv H.
    apply andb_true_iff in R. destruct R as [R1 R]. apply andb_true_iff in R. destruct R as [R2 R3].
    apply N.eqb_eq in R1. apply negb_true_iff, N.eqb_neq in R2, R3. auto.
Qed.
Print Assumptions C16_program_new.

(** BIP143: the script code of a P2WPKH output is the P2PKH script of its hash. *)
Theorem C16_p2wpkh_script_code : forall s, 
  (forall h, lenN h = 20 -> s = t_witness 0 h -> p2wpkh_script_code s = Ret (Some (t_p2pkh h))) /\
  ((~ exists h, lenN h = 20 /\ s = t_witness 0 h) -> p2wpkh_script_code s = Ret None).
Proof.
  intro s. unfold p2wpkh_script_code. split.
  - intros h L ->. rewrite (proj2 (is_p2wpkh_iff _)) by eauto. cbv zeta. change (skipn 2 (t_witness 0 h)) with h.
    rewrite L. change (20 =? 20) with true. cbv iota. destruct (proj1 C16_build h L) as (-> & _). reflexivity.
  - intro N. destruct (is_p2wpkh s) eqn:E; [|reflexivity]. exfalso. apply N. apply is_p2wpkh_iff. exact E.
Qed.
Print Assumptions C16_p2wpkh_script_code.

Theorem C16_push_only : forall s, bytes_ok s -> exists b, is_push_only s = Ret b /\ (b = true <-> push_only s).
Proof. exact is_push_only_spec. Qed.
Print Assumptions C16_push_only.

(** The redeem script is the last of a sequence of data pushes. *)
Theorem C16_redeem_script : forall s, bytes_ok s -> exists o, redeem_script s = Ret o /\
  forall d, o = Some d <-> exists ds, instructions s = Ret (map Ok (map PushBytes (ds ++ [d]))).
Proof. exact redeem_spec. Qed.
Print Assumptions C16_redeem_script.

(** Multisig recognition is exact for scripts with at most 255 consecutive pushes after the first
    opcode. *)
Theorem C16_multisig : forall s, bytes_ok s ->
  (forall op keys rest, instructions s = Ret (Ok (Op op) :: map (fun d => Ok (PushBytes d)) keys ++ rest) -> lenN keys <= 255) ->
  exists b, is_multisig s = Ret b /\ (b = true <-> exists l, instructions s = Ret (map Ok l) /\ multisig l).
Proof. exact multisig_spec. Qed.
Print Assumptions C16_multisig.

(** Finding: with more pushes the u8 counter overflows (a panic with overflow checks; without them
    it wraps, so 257 keys count as one). *)
Theorem C16_multisig_total_refuted : exists s, bytes_ok s /\ is_multisig s = Panic.
Proof.
  exists (81 :: concat (repeat [1; 7] 256)). split; [|vm_compute; reflexivity].
  constructor; [unfold byte_ok; lia|]. apply Forall_forall. intros x H. apply in_concat in H.
  destruct H as (y & H1 & H2). apply repeat_spec in H1. subst y. unfold byte_ok.
  destruct H2 as [<-|[<-|[]]]; lia.
Qed.
Print Assumptions C16_multisig_total_refuted.

Example C16_nonvacuous : program_valid 1 (repeat 9 32) /\ program_ok 16 [1; 2] /\ ~ program_valid 0 [1; 2] /\
  is_multisig [81; 1; 7; 1; 8; 82; 174] = Ret true /\ redeem_script [1; 7; 2; 5; 6] = Ret (Some [5; 6]).
Proof.
  split; [split; [split; vm_compute; try split; discriminate|discriminate]|].
  split; [split; vm_compute; try split; discriminate|].
  split; [intros [_ H]; destruct (H eq_refl); discriminate|]. split; vm_compute; reflexivity.
Qed.

(** *** C41 *)
(** Counting never panics and gives the count of the instructions before the first error. *)
Theorem C41_count : forall s, bytes_ok s -> 20 * lenN s < 2 ^ 64 ->
  exists a n, count_sigops s = Ret a /\ count_sigops_legacy s = Ret n /\
    script_sigops true s a /\ script_sigops false s n /\ a <= n <= 20 * lenN s.
Proof.
  intros s Hs L. destruct (count_sigops_spec true s Hs L) as (a & A1 & A2 & A3).
  destruct (count_sigops_spec false s Hs L) as (n & B1 & B2 & B3). exists a, n.
  split; [exact A1|]. split; [exact B1|]. split; [exact A2|]. split; [exact B2|]. split; [|exact B3].
  destruct A2 as (r & P & ->), B2 as (r' & P' & ->). rewrite (parses_det _ _ _ _ P _ P').
  apply sigops_from_acc_le.
Qed.
Print Assumptions C41_count.

(** Additivity at an instruction boundary: exact for the legacy count; for the accurate count
    exact unless the second part starts with OP_CHECKMULTISIG(VERIFY), and never more than the sum. *)
Theorem C41_additive : forall s s' l l' tail, bytes_ok s -> bytes_ok s' -> 20 * lenN (s ++ s') < 2 ^ 64 ->
  instructions s = Ret (map Ok l) -> instructions s' = Ret (map Ok l' ++ tail) -> (tail = [] \/ exists e, tail = [Err e]) ->
  exists a a' c n n' m,
    count_sigops s = Ret a /\ count_sigops s' = Ret a' /\ count_sigops (s ++ s') = Ret c /\
    count_sigops_legacy s = Ret n /\ count_sigops_legacy s' = Ret n' /\ count_sigops_legacy (s ++ s') = Ret m /\
    m = n + n' /\ c <= a + a' /\
    ((forall t, l' <> Op 174 :: t /\ l' <> Op 175 :: t) -> c = a + a').
Proof.
  intros s s' l l' tail Hs Hs' L R R' T.
  assert (R2 : instructions (s ++ s') = Ret (map Ok (l ++ l') ++ tail)).
  { rewrite map_app, <- app_assoc. apply (instrs_app false); auto. }
  assert (LL : lenN (s ++ s') = lenN s + lenN s') by apply lenN_app.
  assert (K : forall acc s l tail, bytes_ok s -> instructions s = Ret (map Ok l ++ tail) -> (tail = [] \/ exists e, tail = [Err e]) ->
     20 * lenN s < 2 ^ 64 -> count_sigops_internal acc s = Ret (sigops acc l)).
  { intros acc x k t Bx Rx Tx Lx. unfold count_sigops_internal. rewrite Rx. cbn [rbind]. change None with (prev_cache None).
    rewrite sigops_loop_ok; [reflexivity|exact Tx|]. change USIZE with (2 ^ 64).
    assert (lenN k <= lenN x).
    { destruct (instrs_parses false x Bx) as (r & P & E & _). unfold instrs in E. unfold instructions in Rx.
      assert (Q : map strip r = map Ok k ++ t) by congruence. apply (f_equal (@lenN _)) in Q. rewrite lenN_map, lenN_app, lenN_map in Q.
      pose proof (reads_count _ _ _ _ P). lia. }
    lia. }
  assert (B : bytes_ok (s ++ s')) by (apply bytes_ok_app; auto).
  assert (R0 : instructions s = Ret (map Ok l ++ [])) by (rewrite app_nil_r; exact R).
  eexists _, _, _, _, _, _. unfold count_sigops, count_sigops_legacy.
  split; [apply (K true s l []); auto; lia|]. split; [apply (K true s' l' tail); auto; lia|].
  split; [apply (K true (s ++ s') (l ++ l') tail); auto; lia|].
  split; [apply (K false s l []); auto; lia|]. split; [apply (K false s' l' tail); auto; lia|].
  split; [apply (K false (s ++ s') (l ++ l') tail); auto; lia|].
  unfold sigops. split; [apply sigops_legacy_app|]. rewrite sigops_app. split.
  - pose proof (sigops_prev_le true l' (last_opt None l)). lia.
  - intro H. f_equal. apply sigops_prev_eq. intros op t -> [->| ->]; destruct (H t); congruence.
Qed.
Print Assumptions C41_additive.

(** Finding: the accurate count is not additive in general: OP_1 before OP_CHECKMULTISIG. *)
Theorem C41_accurate_additive_refuted : exists s s' a a' c, count_sigops s = Ret a /\ count_sigops s' = Ret a' /\
  instructions s = Ret [Ok (Op 81)] /\ count_sigops (s ++ s') = Ret c /\ c <> a + a'.
Proof. exists [81], [174], 0, 20, 1. repeat (split; [reflexivity|]). discriminate. Qed.
Print Assumptions C41_accurate_additive_refuted.

(** The cost of a transaction is 4 per legacy and P2SH operation and 1 per witness operation; it
    never panics or saturates for transactions within the decoders' limits. *)
Theorem C41_total_cost : forall spent tx, tx_shape tx -> (forall p o, spent p = Some o -> script_ok (to_script o)) ->
  exists ins outs sh wit,
    Forall2 (fun i n => script_sigops false (ti_script i) n) (tx_inputs tx) ins /\
    Forall2 (fun o n => script_sigops false (to_script o) n) (tx_outputs tx) outs /\
    Forall2 (fun i '(a, b) => input_cost spent i a b) (tx_inputs tx) (combine sh wit) /\
    length sh = length wit /\ length wit = length (tx_inputs tx) /\
    total_sigop_cost spent tx = Ret (4 * (sumN ins + sumN outs) + 4 * sumN sh + sumN wit).
Proof. exact total_cost_spec. Qed.
Print Assumptions C41_total_cost.

(** Finding: the P2SH part does not require the input script to be push only, where consensus code
    (Bitcoin Core's GetSigOpCount) counts nothing for such an input. *)
Theorem C41_p2sh_push_only_refuted : exists o i n, ~ push_only (ti_script i) /\ is_sh (to_script o) /\
  p2sh_sigops_one o i = Ret n /\ n <> 0.
Proof.
  exists {| to_amount := 0; to_script := t_p2sh (repeat 0 20) |},
    {| ti_prevout := null_outpoint; ti_script := [97; 1; 172]; ti_sequence := 0; ti_witness := wit_new |}, 1.
  cbn [ti_script to_script]. split; [|split; [exists (repeat 0 20); split; reflexivity|split; [vm_compute; reflexivity|discriminate]]].
  intros H. destruct (is_push_only_spec [97; 1; 172] ltac:(repeat constructor)) as (b & E & Q).
  assert (b = false) by (vm_compute in E; congruence). subst b. apply Q in H. discriminate.
Qed.
Print Assumptions C41_p2sh_push_only_refuted.

Example C41_nonvacuous : count_sigops [82; 1; 7; 1; 8; 1; 9; 83; 174; 172] = Ret 4 /\
  count_sigops_legacy [82; 1; 7; 1; 8; 1; 9; 83; 174; 172] = Ret 21.
Proof. split; reflexivity. Qed.

(** A data-carrying output script: OP_RETURN, then the data in its shortest push. *)
Theorem C16_op_return : forall d, bytes_ok d -> lenN d < 2 ^ 32 ->
  exists i e, new_op_return d = 106 :: e /\ encodes i e /\ shortest i e /\ pushed i = Some d /\
    is_op_return (new_op_return d) = true /\ instructions (new_op_return d) = Ret [Ok (Op 106); Ok i].
Proof.
  intros d OK L. assert (R : instructions [106] = Ret (map Ok [Op 106])) by reflexivity.
  assert (B : bytes_ok [106]) by (repeat constructor).
  destruct (C13_push_slice [106] [Op 106] d B OK L R) as (i & e & E & EN & SH & P & I & _). exists i, e.
  change (new_op_return d) with (sb_push_slice [106] d). split; [exact E|]. split; [exact EN|]. split; [exact SH|]. split; [exact P|]. split; [|exact I].
  rewrite E. reflexivity.
Qed.
Print Assumptions C16_op_return.
