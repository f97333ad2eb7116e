(** Lemmas on ChaCha20. *)
From Verif Require Import Base MDec LDec LU256 MHash SHash LHash MSha2 SHash2 LSha2 LHash2 MChaCha SChaCha.
Local Open Scope N_scope.

(** * The block function *)
Definition lanes (x : u32x4) : list N := [x0 x; x1 x; x2 x; x3 x].
Definition flat (s : chacha_state) : list N := lanes (row_a s) ++ lanes (row_b s) ++ lanes (row_c s) ++ lanes (row_d s).
Definition w32 (x : N) : Prop := x < 2 ^ 32.
Definition good (s : chacha_state) : Prop := Forall w32 (flat s).
(** the scalar round of the code *)
Definition mqr (a b c d : N) : N * N * N * N :=
  let a := wadd 32 a b in let d := rotl 32 16 (N.lxor d a) in
  let c := wadd 32 c d in let b := rotl 32 12 (N.lxor b c) in
  let a := wadd 32 a b in let d := rotl 32 8 (N.lxor d a) in
  let c := wadd 32 c d in let b := rotl 32 7 (N.lxor b c) in
  (a, b, c, d).
Lemma rotl32_lt : forall n x, w32 x -> n <= 32 -> w32 (rotl 32 n x).
Proof. intros. unfold w32 in *. rewrite rotl_rol by auto. now apply rol_lt. Qed.
Lemma lxor32_lt : forall a b, w32 a -> w32 b -> w32 (N.lxor a b). Proof. intros. now apply lxor_lt. Qed.
Lemma wadd32_lt : forall a b, w32 (wadd 32 a b). Proof. intros. unfold w32. apply wadd_lt. Qed.
Lemma mqr_spec : forall a b c d, w32 a -> w32 b -> w32 c -> w32 d ->
  quarter_round (a, b, c, d) = mqr a b c d /\ (let '(a', b', c', d') := mqr a b c d in w32 a' /\ w32 b' /\ w32 c' /\ w32 d').
Proof.
  intros a b c d A B C D. unfold quarter_round, mqr. change plus32 with (wadd 32).
  set (a1 := wadd 32 a b). assert (A1 : w32 a1) by apply wadd32_lt.
  rewrite <- (rotl_rol 32 16) by (try lia; now apply lxor32_lt). set (d1 := rotl 32 16 (N.lxor d a1)). assert (D1 : w32 d1) by (apply rotl32_lt; [now apply lxor32_lt|lia]).
  set (c1 := wadd 32 c d1). assert (C1 : w32 c1) by apply wadd32_lt.
  rewrite <- (rotl_rol 32 12) by (try lia; now apply lxor32_lt). set (b1 := rotl 32 12 (N.lxor b c1)). assert (B1 : w32 b1) by (apply rotl32_lt; [now apply lxor32_lt|lia]).
  set (a2 := wadd 32 a1 b1). assert (A2 : w32 a2) by apply wadd32_lt.
  rewrite <- (rotl_rol 32 8) by (try lia; now apply lxor32_lt). set (d2 := rotl 32 8 (N.lxor d1 a2)). assert (D2 : w32 d2) by (apply rotl32_lt; [now apply lxor32_lt|lia]).
  set (c2 := wadd 32 c1 d2). assert (C2 : w32 c2) by apply wadd32_lt.
  rewrite <- (rotl_rol 32 7) by (try lia; now apply lxor32_lt). set (b2 := rotl 32 7 (N.lxor b1 c2)). assert (B2 : w32 b2) by (apply rotl32_lt; [now apply lxor32_lt|lia]).
  split; [reflexivity|]. auto.
Qed.
(** rows: the vector round is four scalar rounds *)
Definition fst4 (q : N * N * N * N) := fst (fst (fst q)).
Definition snd4 (q : N * N * N * N) := snd (fst (fst q)).
Definition thd4 (q : N * N * N * N) := snd (fst q).
Definition fth4 (q : N * N * N * N) := snd q.
Lemma x4_round : forall a b c d, let m0 := mqr (x0 a) (x0 b) (x0 c) (x0 d) in let m1 := mqr (x1 a) (x1 b) (x1 c) (x1 d) in
  let m2 := mqr (x2 a) (x2 b) (x2 c) (x2 d) in let m3 := mqr (x3 a) (x3 b) (x3 c) (x3 d) in
  x4_quarter_round a b c d = mk_cs (mk_x4 (fst4 m0) (fst4 m1) (fst4 m2) (fst4 m3)) (mk_x4 (snd4 m0) (snd4 m1) (snd4 m2) (snd4 m3))
    (mk_x4 (thd4 m0) (thd4 m1) (thd4 m2) (thd4 m3)) (mk_x4 (fth4 m0) (fth4 m1) (fth4 m2) (fth4 m3)).
Proof.
  intros [a0 a1 a2 a3] [b0 b1 b2 b3] [c0 c1 c2 c3] [d0 d1 d2 d3].
  cbv beta iota zeta delta [x4_quarter_round x4_add x4_xor x4_rotl map2_x4 mqr fst4 snd4 thd4 fth4 x0 x1 x2 x3 fst snd]. reflexivity.
Qed.
Lemma mqr_quad : forall a b c d, w32 a -> w32 b -> w32 c -> w32 d -> exists a' b' c' d', mqr a b c d = (a', b', c', d') /\ quarter_round (a, b, c, d) = (a', b', c', d') /\
  w32 a' /\ w32 b' /\ w32 c' /\ w32 d'.
Proof.
  intros a b c d A B C D. destruct (mqr_spec a b c d A B C D) as [E W]. destruct (mqr a b c d) as [[[a' b'] c'] d'] eqn:M. exists a', b', c', d'. rewrite E. split; [reflexivity|]. split; [reflexivity|exact W].
Qed.
Lemma QR_step : forall s i j k l a b c d, quarter_round (get s i, get s j, get s k, get s l) = (a, b, c, d) -> QUARTERROUND s (i, j, k, l) = set (set (set (set s i a) j b) k c) l d.
Proof. intros. unfold QUARTERROUND. rewrite H. reflexivity. Qed.
Definition cols : list (nat * nat * nat * nat) := [(0, 4, 8, 12); (1, 5, 9, 13); (2, 6, 10, 14); (3, 7, 11, 15)]%nat.
Definition diags : list (nat * nat * nat * nat) := [(0, 5, 10, 15); (1, 6, 11, 12); (2, 7, 8, 13); (3, 4, 9, 14)]%nat.
Definition col_step (s : chacha_state) : chacha_state := x4_quarter_round (row_a s) (row_b s) (row_c s) (row_d s).
Definition unrot (s : chacha_state) : chacha_state :=
  mk_cs (row_a s) (rotate_elements_right 1 (row_b s)) (rotate_elements_right 2 (row_c s)) (rotate_elements_right 3 (row_d s)).
Definition rot (s : chacha_state) : chacha_state :=
  mk_cs (row_a s) (rotate_elements_left 1 (row_b s)) (rotate_elements_left 2 (row_c s)) (rotate_elements_left 3 (row_d s)).
Lemma double_steps : forall s, double_round s = unrot (col_step (rot (col_step s))).
Proof.
  intros. unfold double_round. change (x4_quarter_round (row_a s) (row_b s) (row_c s) (row_d s)) with (col_step s). generalize (col_step s). clear s. intro t. cbv zeta.
  change (x4_quarter_round (row_a t) (rotate_elements_left 1 (row_b t)) (rotate_elements_left 2 (row_c t)) (rotate_elements_left 3 (row_d t))) with (col_step (rot t)).
  generalize (col_step (rot t)). clear t. intro t. reflexivity.
Qed.
(** four rounds on four disjoint quadruples *)
Ltac quad a b c d := let M := fresh "M" in let Q := fresh "Q" in
  destruct (mqr_quad a b c d) as (?z & ?z & ?z & ?z & M & Q & ? & ? & ? & ?); [assumption|assumption|assumption|assumption|rewrite M; clear M].
Ltac qstep Q := match goal with |- context [QUARTERROUND ?s (?i, ?j, ?k, ?l)] => rewrite (QR_step s i j k l _ _ _ _ Q); cbn [set] end.
Lemma col_spec : forall s, good s -> fold_left QUARTERROUND cols (flat s) = flat (col_step s) /\ good (col_step s).
Proof.
  intros [[a0 a1 a2 a3] [b0 b1 b2 b3] [c0 c1 c2 c3] [d0 d1 d2 d3]] G. unfold good, flat, lanes in G. cbn [row_a row_b row_c row_d x0 x1 x2 x3 app] in G.
  repeat match goal with H : Forall _ (_ :: _) |- _ => apply Forall_cons_iff in H; destruct H as [? H] end. clear G.
  unfold col_step. cbn [row_a row_b row_c row_d]. rewrite x4_round. cbn [x0 x1 x2 x3].
  quad a0 b0 c0 d0. quad a1 b1 c1 d1. quad a2 b2 c2 d2. quad a3 b3 c3 d3. cbv beta iota zeta delta [fst4 snd4 thd4 fth4 fst snd].
  split; [|unfold good, flat, lanes; cbn [row_a row_b row_c row_d x0 x1 x2 x3 app]; repeat constructor; assumption].
  unfold cols, flat, lanes. cbn [row_a row_b row_c row_d x0 x1 x2 x3 app fold_left].
  qstep Q. qstep Q0.
  qstep Q1. qstep Q2. reflexivity.
Qed.
Lemma diag_spec : forall s, good s -> fold_left QUARTERROUND diags (flat s) = flat (unrot (col_step (rot s))) /\ good (unrot (col_step (rot s))).
Proof.
  intros [[a0 a1 a2 a3] [b0 b1 b2 b3] [c0 c1 c2 c3] [d0 d1 d2 d3]] G. unfold good, flat, lanes in G. cbn [row_a row_b row_c row_d x0 x1 x2 x3 app] in G.
  repeat match goal with H : Forall _ (_ :: _) |- _ => apply Forall_cons_iff in H; destruct H as [? H] end. clear G.
  unfold rot, col_step. cbn [row_a row_b row_c row_d rotate_elements_left x0 x1 x2 x3]. rewrite x4_round. cbn [x0 x1 x2 x3].
  quad a0 b1 c2 d3. quad a1 b2 c3 d0. quad a2 b3 c0 d1. quad a3 b0 c1 d2. cbv beta iota zeta delta [fst4 snd4 thd4 fth4 fst snd].
  unfold unrot. cbn [row_a row_b row_c row_d rotate_elements_right x0 x1 x2 x3].
  split; [|unfold good, flat, lanes; cbn [row_a row_b row_c row_d x0 x1 x2 x3 app]; repeat constructor; assumption].
  unfold diags, flat, lanes. cbn [row_a row_b row_c row_d x0 x1 x2 x3 app fold_left].
  qstep Q. qstep Q0.
  qstep Q1. qstep Q2. reflexivity.
Qed.
Lemma inner_spec : forall s, good s -> inner_block (flat s) = flat (double_round s) /\ good (double_round s).
Proof.
  intros s G. destruct (col_spec s G) as [E1 G1]. destruct (diag_spec _ G1) as [E2 G2]. rewrite double_steps. split; [|exact G2].
  change (inner_block (flat s)) with (fold_left QUARTERROUND (cols ++ diags) (flat s)). rewrite fold_left_app, E1. exact E2.
Qed.
Lemma iter_spec : forall n s, good s -> Nat.iter n inner_block (flat s) = flat (Nat.iter n double_round s) /\ good (Nat.iter n double_round s).
Proof.
  induction n as [|n IH]; intros s G; [auto|]. destruct (IH s G) as [E G']. change (Nat.iter (S n) ?f ?x) with (f (Nat.iter n f x)). rewrite E. apply inner_spec, G'.
Qed.
Lemma le32_w32 : forall l i, bytes_ok l -> w32 (le32 l i).
Proof.
  intros l i O. unfold le32, w32. eapply N.lt_le_trans; [apply le_val_lt|].
  - rewrite <- (takeN_dropN i l) in O. apply bytes_ok_app in O. destruct O as [_ O]. rewrite <- (takeN_dropN 4 (dropN i l)) in O. now apply bytes_ok_app in O.
  - change (2 ^ 32) with (256 ^ 4). apply N.pow_le_mono_r; [lia|]. rewrite lenN_takeN. lia.
Qed.
Lemma state_new_good : forall key nonce n, bytes_ok key -> bytes_ok nonce -> w32 n -> good (chacha_state_new key nonce n).
Proof.
  intros. unfold good, flat, lanes, chacha_state_new. cbn [row_a row_b row_c row_d x0 x1 x2 x3 app].
  repeat (apply Forall_cons; [first [now apply le32_w32|assumption|reflexivity]|]). constructor.
Qed.
Lemma words8 : forall key, lenN key = 32 -> words_of key = [le32 key 0; le32 key 4; le32 key 8; le32 key 12; le32 key 16; le32 key 20; le32 key 24; le32 key 28].
Proof.
  intros key L. assert (LL : length key = 32%nat) by (unfold lenN in L; lia). clear L.
  do 32 (destruct key as [|? key]; [discriminate LL|]). destruct key; [|discriminate LL]. reflexivity.
Qed.
Lemma words3 : forall n, lenN n = 12 -> words_of n = [le32 n 0; le32 n 4; le32 n 8].
Proof.
  intros n L. assert (LL : length n = 12%nat) by (unfold lenN in L; lia). clear L.
  do 12 (destruct n as [|? n]; [discriminate LL|]). destruct n; [|discriminate LL]. reflexivity.
Qed.
Lemma keystream_spec : forall key nonce off b blk, bytes_ok key -> bytes_ok nonce -> lenN key = 32 -> lenN nonce = 12 -> b < 2 ^ 32 ->
  keystream_at_block (mk_chacha key nonce blk off) b = chacha20_block key nonce b.
Proof.
  intros key nonce off b blk OK ON LK LN B. unfold keystream_at_block, chacha20_block. cbn [cc_key cc_nonce]. rewrite words8, words3 by auto.
  assert (G := state_new_good key nonce b OK ON B). set (s := chacha_state_new key nonce b) in *.
  cbv zeta. match goal with |- _ = concat (map _ (combine ?l (Nat.iter 10 inner_block ?l))) => change l with (flat s) end.
  destruct (iter_spec 10 s G) as [E _]. rewrite E. unfold chacha_block. set (w := Nat.iter 10 double_round s). clearbody w s. clear.
  destruct s as [[a0 a1 a2 a3] [b0 b1 b2 b3] [c0 c1 c2 c3] [d0 d1 d2 d3]]. destruct w as [[e0 e1 e2 e3] [f0 f1 f2 f3] [g0 g1 g2 g3] [h0 h1 h2 h3]].
  unfold chacha_keystream, x4_bytes, flat, lanes, x4_add, map2_x4. cbn [row_a row_b row_c row_d x0 x1 x2 x3 app combine map concat fst snd].
  change plus32 with (wadd 32). rewrite <- !app_assoc, app_nil_r. unfold wadd.
  rewrite (N.add_comm a0), (N.add_comm a1), (N.add_comm a2), (N.add_comm a3), (N.add_comm b0), (N.add_comm b1), (N.add_comm b2), (N.add_comm b3),
    (N.add_comm c0), (N.add_comm c1), (N.add_comm c2), (N.add_comm c3), (N.add_comm d0), (N.add_comm d1), (N.add_comm d2), (N.add_comm d3). reflexivity.
Qed.
