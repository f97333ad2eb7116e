(** C43: readers and writers behave like cursors over byte strings.  Every theorem about "a reader" holds of every one that keeps
    the trait's contract (SIo.reads_from), whatever sizes its answers have and whenever it fails. *)
From Verif Require Import Base MDec MHash MSha2 MHash2 MHmac SHmac LHmac PHash MIo SIo LDec LWitness LIo LIo2.
Local Open Scope N_scope.

(** ** The readers of the crate give the bytes they are said to have *)
Theorem C43_slice : reads_from slice_reader (fun s d => d = s).
Proof. exact slice_lawful. Qed.
Theorem C43_cursor : reads_from cursor_reader (fun c d => lenN (cu_inner c) < 2 ^ 64 /\ d = dropN (cu_pos c) (cu_inner c)).
Proof. exact cursor_lawful. Qed.
Theorem C43_take : forall R at_, reads_from R at_ -> reads_from (take R) (fun s d => exists all, at_ (fst s) all /\ d = takeN (snd s) all).
Proof. exact take_lawful. Qed.
(** One read of a slice is as long as it can be; a cursor gives the same bytes, keeps its contents and moves its position. *)
Theorem C43_slice_read : forall s n, rread slice_reader s n = Ret (Ok (takeN n s), dropN n s).
Proof. intros. cbn [rread slice_reader]. now rewrite N.min_comm, takeN_min, dropN_min. Qed.
Theorem C43_cursor_read : forall c n, lenN (cu_inner c) < 2 ^ 64 -> exists piece,
  piece = takeN n (dropN (cu_pos c) (cu_inner c)) /\ rread cursor_reader c n = Ret (Ok piece, mk_cursor (cu_inner c) (cu_pos c + lenN piece)).
Proof.
  intros [inner pos] n L. cbn [cu_inner cu_pos] in *. eexists. split; [reflexivity|]. cbn [rread cursor_reader]. unfold cursor_read. cbn [cu_inner cu_pos]. destruct (N.leb_spec (lenN inner) pos) as [G|G].
  - rewrite dropN_all by lia. rewrite take_of_nil, lenN_nil, N.add_0_r. reflexivity.
  - assert (E : takeN (N.min (lenN inner - pos) n) (dropN pos inner) = takeN n (dropN pos inner)).
    { rewrite <- (takeN_min n), lenN_dropN. f_equal. lia. }
    rewrite E. rewrite lenN_takeN, lenN_dropN. do 3 f_equal. unfold U64_MAX. lia.
Qed.
(** Any number of reads, of any sizes, whatever fails between them: the pieces are consecutive, none is longer than asked, and the
    reader stands just after the last. *)
Theorem C43_consecutive : forall R at_, reads_from R at_ -> forall ns st d, at_ st d ->
  exists rs st' d', reads R st ns = Ret (rs, st') /\ d = got rs ++ d' /\ at_ st' d' /\
    Forall2 (fun n r => match r with Ok bs => lenN bs <= n | Err _ => True end) ns rs.
Proof. intros R at_ L ns st d A. exact (reads_spec R at_ L ns st d A). Qed.
(** Never beyond the limit: a limited reader takes from the one below exactly what it gives, and counts it. *)
Theorem C43_limit : forall R at_, reads_from R at_ -> forall ns st limit all, at_ st all ->
  exists rs st' all', reads (take R) (st, limit) ns = Ret (rs, (st', limit - lenN (got rs))) /\
    all = got rs ++ all' /\ lenN (got rs) <= limit /\ at_ st' all'.
Proof. intros R at_ L ns st limit all A. exact (take_reads_spec R at_ L ns st limit all A). Qed.
(** Consuming more than there is: a slice and a limited reader panic; a cursor is at its end. *)
Theorem C43_consume_too_much : (forall s k, lenN s < k -> rconsume slice_reader s k = Panic) /\
  (forall R st limit k, limit < k -> rconsume (take R) (st, limit) k = Panic) /\
  (forall c k, lenN (cu_inner c) < 2 ^ 64 -> lenN (cu_inner c) <= cu_pos c + k -> exists c', rconsume cursor_reader c k = Ret c' /\ cu_inner c' = cu_inner c /\ cursor_at c' []).
Proof.
  split; [|split].
  - intros s k L. cbn [rconsume slice_reader]. now replace (lenN s <? k) with true by lia.
  - intros R st limit k L. cbn [rconsume take]. unfold take_consume. now replace (limit <? k) with true by lia.
  - intros [inner pos] k L G. cbn [cu_inner cu_pos] in *. eexists. split; [reflexivity|]. split; [reflexivity|]. split; [exact L|]. cbn [cu_inner cu_pos]. symmetry. apply dropN_all. unfold U64_MAX. lia.
Qed.

(** ** read_exact *)
(** For every reader: success is exactly the bytes asked for, the next ones; failure is short, is not an interruption, and what was
    read is still the next bytes. *)
Theorem C43_read_exact : forall R at_, reads_from R at_ -> forall fuel st d n r, at_ st d -> read_exact R fuel st n [] = Some r ->
  exists res bs st' d', r = Ret (res, bs, st') /\ d = bs ++ d' /\ at_ st' d' /\
    match res with Ok _ => lenN bs = n | Err UnexpectedEof => lenN bs < n | Err e => lenN bs < n /\ e <> Interrupted end.
Proof. intros R at_ L fuel st d n r A E. exact (read_exact_spec R at_ L fuel st d n [] r A E). Qed.
(** It ends when only finitely many reads fail. *)
Theorem C43_read_exact_ends : forall R at_ m, reads_from R at_ -> settles R at_ m -> forall fuel st d n, at_ st d -> (m st + length d < fuel)%nat ->
  read_exact R fuel st n [] <> None.
Proof. intros R at_ m L S fuel st d n A F. exact (read_exact_ends R at_ L m S fuel st d n [] A F). Qed.
(** And when all failures are interruptions, it succeeds exactly when there are enough bytes: no schedule of sizes and interruptions
    changes the result. *)
Theorem C43_read_exact_iff : forall R at_ m, reads_from R at_ -> settles R at_ m -> patient R at_ -> forall fuel st d n, at_ st d -> (m st + length d < fuel)%nat ->
  exists st', read_exact R fuel st n [] = Some (Ret (if n <=? lenN d then Ok tt else Err UnexpectedEof, takeN n d, st')) /\ at_ st' (dropN n d).
Proof. intros R at_ m L S P fuel st d n A F. exact (read_exact_patient R at_ L m S P fuel st d n [] A F). Qed.

(** ** read_to_limit *)
Theorem C43_read_to_limit : forall R at_, reads_from R at_ -> forall fuel st d buf limit r, at_ st d -> read_to_limit R fuel st buf limit = Some r ->
  exists res bs st' d', r = Ret (res, buf ++ bs, st') /\ d = bs ++ d' /\ at_ st' d' /\ lenN bs <= limit /\
    match res with Ok k => bs = takeN limit d /\ k = lenN bs | Err e => e <> Interrupted end.
Proof.
  intros R at_ L fuel st d buf limit r A E. unfold read_to_limit in E. destruct (read_to_end R fuel (st, limit) buf 0) as [r'|] eqn:E'; [|discriminate].
  destruct (read_to_end_spec R at_ L fuel st limit d buf 0 r' A E') as (res & bs & st' & d' & -> & Ed & A' & H). exists res, bs, st', d'. split; [injection E as <-; reflexivity|]. split; [exact Ed|]. split; [exact A'|]. destruct res as [k|e].
  - destruct H as [H1 H2]. split; [rewrite H1, lenN_takeN; lia|]. split; [exact H1|lia].
  - exact H.
Qed.
Theorem C43_read_to_limit_iff : forall R at_ m, reads_from R at_ -> settles R at_ m -> patient R at_ -> forall fuel st d buf limit, at_ st d -> (m st + length d < fuel)%nat ->
  exists st', read_to_limit R fuel st buf limit = Some (Ret (Ok (N.min limit (lenN d)), buf ++ takeN limit d, st')) /\ at_ st' (dropN limit d).
Proof.
  intros R at_ m L S P fuel st d buf limit A F. destruct (read_to_end_patient R at_ L m S P fuel st limit d buf 0 A F) as (st' & E & A'). exists st'. split; [|exact A']. unfold read_to_limit. rewrite E. do 4 f_equal. now rewrite lenN_takeN.
Qed.
(** The readers of the crate, and any world that is only interrupted, meet these conditions; so does any of them limited. *)
Theorem C43_conditions : (settles slice_reader (fun s d => d = s) (fun _ => 0%nat) /\ patient slice_reader (fun s d => d = s)) /\
  (settles cursor_reader cursor_at (fun _ => 0%nat) /\ patient cursor_reader cursor_at) /\
  (reads_from world_reader quiet_at /\ settles world_reader quiet_at (fun w => length (w_events w)) /\ patient world_reader quiet_at) /\
  (forall R at_ m, reads_from R at_ -> settles R at_ m -> settles (take R) (take_at R at_) (fun s => m (fst s))) /\
  (forall R at_, patient R at_ -> patient (take R) (take_at R at_)).
Proof.
  split; [exact (conj slice_settles slice_patient)|]. split; [exact (conj cursor_settles cursor_patient)|]. split; [exact quiet_lawful|]. split; [|exact take_patient]. intros R at_ m L S. exact (take_settles R at_ L m S).
Qed.
(** A world that also fails otherwise still keeps the contract. *)
Theorem C43_world : reads_from world_reader world_at /\ settles world_reader world_at (fun w => length (w_events w)).
Proof. exact (conj world_lawful world_settles). Qed.

(** ** Writing *)
(** write_all gives the writer exactly the bytes, or a proper prefix of them and an error that is not an interruption. *)
Theorem C43_write_all : forall W out, writes_to W out -> forall fuel st buf r, write_all W fuel st buf = Some r ->
  exists res st' p q, r = Ret (res, st') /\ buf = p ++ q /\ out st' = out st ++ p /\ match res with Ok _ => q = [] | Err e => q <> [] /\ e <> Interrupted end.
Proof. exact write_all_spec. Qed.
Theorem C43_writers : writes_to vec_writer (fun v => v) /\ writes_to slice_writer fst /\ writes_to world_writer fst.
Proof. exact (conj vec_writes (conj slice_writes world_writes)). Qed.
Theorem C43_vec_write : forall fuel v buf, (0 < fuel)%nat -> write_all vec_writer fuel v buf = Some (Ret (Ok tt, v ++ buf)).
Proof. exact vec_write_all. Qed.
(** A slice takes what fits, and the room left shrinks by it. *)
Theorem C43_slice_write : forall fuel done room buf, (1 < fuel)%nat -> write_all slice_writer fuel (done, room) buf =
  Some (Ret (if lenN buf <=? lenN room then Ok tt else Err UnexpectedEof, (done ++ takeN (lenN room) buf, dropN (lenN buf) room))).
Proof. exact slice_write_all. Qed.
(** A cursor overwrites its contents from its position on, never changing their length; past the end it writes nothing. *)
Theorem C43_cursor_write : forall c buf, lenN (cu_inner c) < 2 ^ 64 -> cu_pos c < 2 ^ 64 -> exists n,
  n = N.min (lenN (cu_inner c) - cu_pos c) (lenN buf) /\
  wwrite cursor_writer c buf = Ret (Ok n, mk_cursor (overwrite (cu_inner c) (N.min (cu_pos c) (lenN (cu_inner c))) (takeN n buf)) (cu_pos c + n)) /\
  lenN (overwrite (cu_inner c) (N.min (cu_pos c) (lenN (cu_inner c))) (takeN n buf)) = lenN (cu_inner c) /\
  (lenN (cu_inner c) <= cu_pos c -> overwrite (cu_inner c) (N.min (cu_pos c) (lenN (cu_inner c))) (takeN n buf) = cu_inner c).
Proof.
  intros [inner pos] buf L P. cbn [cu_inner cu_pos] in *. eexists. split; [reflexivity|]. cbn [wwrite cursor_writer]. unfold cursor_write, overwrite. cbn [cu_inner cu_pos]. set (p := N.min pos (lenN inner)).
  replace (lenN inner - p) with (lenN inner - pos) by (unfold p; lia). set (n := N.min (lenN inner - pos) (lenN buf)). replace (U64_MAX <? pos + n) with false by (unfold U64_MAX, n; lia).
  assert (Ln : lenN (takeN n buf) = n) by (rewrite lenN_takeN; unfold n; lia). rewrite Ln. split; [reflexivity|]. split.
  - rewrite !lenN_app, Ln, lenN_takeN, lenN_dropN. unfold p, n. lia.
  - intro G. assert (n = 0) as -> by (unfold n; lia). change (takeN 0 buf) with (@nil N). rewrite N.add_0_r. apply takeN_dropN.
Qed.
(** A write stays before and after where it wrote. *)
Theorem C43_overwrite : forall old pos new i, pos + lenN new <= lenN old -> pos <= i -> i < pos + lenN new ->
  nth_error (overwrite old pos new) (N.to_nat i) = nth_error new (N.to_nat (i - pos)).
Proof.
  intros old pos new i L P I. unfold overwrite. assert (LT : length (takeN pos old) = N.to_nat pos) by (pose proof (lenN_takeN pos old); unfold lenN in *; lia).
  rewrite nth_error_app2 by (rewrite LT; lia). rewrite LT. rewrite nth_error_app1 by (unfold lenN in *; lia). f_equal. lia.
Qed.
Theorem C43_overwrite_else : forall old pos new i, pos + lenN new <= lenN old -> i < pos \/ pos + lenN new <= i ->
  nth_error (overwrite old pos new) (N.to_nat i) = nth_error old (N.to_nat i).
Proof.
  intros old pos new i L P. unfold overwrite. assert (LT : length (takeN pos old) = N.to_nat pos) by (pose proof (lenN_takeN pos old); unfold lenN in *; lia). destruct P as [P|P].
  - rewrite nth_error_app1 by (rewrite LT; lia). rewrite <- (takeN_dropN pos old) at 2. now rewrite nth_error_app1 by (rewrite LT; lia).
  - rewrite nth_error_app2 by (rewrite LT; lia). rewrite LT. rewrite nth_error_app2 by (unfold lenN in *; lia). rewrite <- (takeN_dropN (pos + lenN new) old) at 2.
    assert (LT2 : length (takeN (pos + lenN new) old) = N.to_nat (pos + lenN new)) by (pose proof (lenN_takeN (pos + lenN new) old); unfold lenN in *; lia).
    rewrite (nth_error_app2 (takeN (pos + lenN new) old)) by (rewrite LT2; lia). rewrite LT2. f_equal. unfold lenN. lia.
Qed.
Theorem C43_sink : (forall buf, wwrite sink_writer tt buf = Ret (Ok (lenN buf), tt)) /\ forall buf, sink_write_all tt buf = Ok tt.
Proof. split; reflexivity. Qed.

(** ** hash_reader *)
(** The hash of all the bytes the reader gives, however it splits them, when it succeeds; and it fails only when the reader does. *)
Theorem C43_hash_reader : forall h H R at_, In (h, H) hashers -> reads_from R at_ -> forall fuel st d r, at_ st d -> bytes_ok d -> lenN d < 2 ^ 61 ->
  hash_reader h R fuel st = Some r -> r = Ret (Ok (H d)) \/ exists k, r = Ret (Err k).
Proof.
  intros h H R at_ I L fuel st d r A B Ld E. destruct (hash_loop_spec h R at_ L fuel st d (h_default h) r A E) as [K|(ps & <- & ->)]; [auto|]. left.
  pose proof (C27_every_splitting h H ps I B Ld) as C. unfold hash_byte_chunks in C. destruct (feed h (h_default h) ps) as [e|]; [|discriminate]. cbn [rbind] in *. now rewrite C.
Qed.
Theorem C43_hash_reader_ends : forall h R at_ m, reads_from R at_ -> settles R at_ m -> forall fuel st d, at_ st d -> (length d < fuel)%nat -> hash_reader h R fuel st <> None.
Proof. intros h R at_ m L S fuel st d A F. exact (hash_loop_ends h R at_ m L S fuel st d _ A F). Qed.
(** A slice or a cursor never fails. *)
Theorem C43_hash_slice : forall h H fuel s, In (h, H) hashers -> bytes_ok s -> lenN s < 2 ^ 61 -> (1 < fuel)%nat -> hash_reader h slice_reader fuel s = Some (Ret (Ok (H s))).
Proof.
  intros h H [|[|fuel]] s I B L F; try lia. assert (E : exists r, hash_reader h slice_reader (S (S fuel)) s = Some r /\ forall k, r <> Ret (Err k)).
  { unfold hash_reader. cbn [hash_loop rfill slice_reader]. destruct s as [|b s].
    - eexists. split; [reflexivity|]. intro k. destruct (h_finalize h (h_default h)); discriminate.
    - destruct (h_input h (h_default h) (b :: s)) as [e|]; [|eexists; split; [reflexivity|discriminate]]. cbn [rconsume slice_reader]. replace (lenN (b :: s) <? lenN (b :: s)) with false by lia. rewrite dropN_all by lia. eexists. split; [reflexivity|]. intro k. destruct (h_finalize h e); discriminate. }
  destruct E as (r & E & K). rewrite E. destruct (C43_hash_reader h H slice_reader _ I slice_lawful (S (S fuel)) s s r eq_refl B L E) as [->|[k ->]]; [reflexivity|]. now destruct (K k).
Qed.
(** Unlike read_exact and read_to_limit, it gives up at an interruption. *)
Theorem C43_hash_retries_refuted : exists w d, quiet_at w d /\ hash_reader sha256_h world_reader 10 w = Some (Ret (Err Interrupted)) /\
  exists w', read_to_limit world_reader 10 w [] 100 = Some (Ret (Ok 3, d, w')).
Proof. exists (mk_world [] [97; 98; 99] [MIo.Fail Interrupted]), [97; 98; 99]. split; [split; [reflexivity|repeat constructor]|]. split; [reflexivity|]. eexists. vm_compute. reflexivity. Qed.

(** ** Concrete cases *)
(** one byte, an interruption, at most two bytes *)
Definition ex_world : world := mk_world [] [1; 2; 3; 4; 5] [Give 1; MIo.Fail Interrupted; Give 2].
Example C43_ex_world : quiet_at ex_world [1; 2; 3; 4; 5] /\ (length (w_events ex_world) + 5 < 10)%nat.
Proof. repeat split; [repeat constructor|]. cbn. lia. Qed.
Example C43_ex_exact : exists w, read_exact world_reader 10 ex_world 4 [] = Some (Ret (Ok tt, [1; 2; 3; 4], w)).
Proof. eexists. reflexivity. Qed.
Example C43_ex_short : exists w, read_exact world_reader 10 ex_world 6 [] = Some (Ret (Err UnexpectedEof, [1; 2; 3; 4; 5], w)).
Proof. eexists. reflexivity. Qed.
Example C43_ex_take : exists w, reads (take world_reader) (ex_world, 3) [10; 10; 10; 10] = Ret ([Ok [1]; Err Interrupted; Ok [2; 3]; Ok []], (w, 0)).
Proof. eexists. reflexivity. Qed.
Example C43_ex_fail : exists w, read_exact world_reader 10 (mk_world [] [1; 2; 3] [Give 2; MIo.Fail (OtherKind 1)]) 3 [] = Some (Ret (Err (OtherKind 1), [1; 2], w)).
Proof. eexists. reflexivity. Qed.
Example C43_ex_write : write_all world_writer 10 ([], [Give 2; MIo.Fail Interrupted; Give 1]) [1; 2; 3; 4] = Some (Ret (Ok tt, ([1; 2; 3; 4], []))).
Proof. reflexivity. Qed.
Example C43_ex_cursor : wwrite cursor_writer (mk_cursor [1; 2; 3; 4] 1) [8; 9] = Ret (Ok 2, mk_cursor [1; 8; 9; 4] 3).
Proof. reflexivity. Qed.
Example C43_ex_hash : exists r, hash_reader sha256_h world_reader 10 (mk_world [] [97; 98; 99] [Give 2]) = Some (Ret (Ok r)) /\ hash_reader sha256_h slice_reader 2 [97; 98; 99] = Some (Ret (Ok r)).
Proof. eexists. split; vm_compute; reflexivity. Qed.
Print Assumptions C43_slice.
Print Assumptions C43_cursor.
Print Assumptions C43_take.
Print Assumptions C43_slice_read.
Print Assumptions C43_cursor_read.
Print Assumptions C43_consecutive.
Print Assumptions C43_limit.
Print Assumptions C43_consume_too_much.
Print Assumptions C43_read_exact.
Print Assumptions C43_read_exact_ends.
Print Assumptions C43_read_exact_iff.
Print Assumptions C43_read_to_limit.
Print Assumptions C43_read_to_limit_iff.
Print Assumptions C43_conditions.
Print Assumptions C43_world.
Print Assumptions C43_write_all.
Print Assumptions C43_writers.
Print Assumptions C43_vec_write.
Print Assumptions C43_slice_write.
Print Assumptions C43_cursor_write.
Print Assumptions C43_overwrite.
Print Assumptions C43_overwrite_else.
Print Assumptions C43_sink.
Print Assumptions C43_hash_reader.
Print Assumptions C43_hash_reader_ends.
Print Assumptions C43_hash_slice.
Print Assumptions C43_hash_retries_refuted.

(** A new cursor gives all its bytes; after moving, those from the new position on. *)
Theorem C43_cursor_seek : forall b p, lenN b < 2 ^ 64 ->
  cursor_at (cursor_new b) b /\ cursor_at (set_position (cursor_new b) p) (dropN p b).
Proof. intros b p L. split; split; auto. Qed.
Print Assumptions C43_cursor_seek.
