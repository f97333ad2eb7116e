(** Lemmas: the specialised double hash of 64 bytes. *)
From Verif Require Import Base MDec LDec LU256 MHash SHash LHash MSha2 SSha2 LSha2 SHashApi LSha2b LSha2c.
Local Open Scope N_scope.
#[local] Transparent iterate sha256_comp compress.

Definition i_ord (i : instr) : list nat := match i with Ins od _ _ => od end.
Definition i_k (i : instr) : N := match i with Ins _ k _ => k end.
Section Ops.
  Variable o : sha2_ops.
  Fixpoint words (is : list instr) (w : list N) : list N * list N :=
    match is with
    | [] => ([], w)
    | Ins _ _ x :: is' => let '(v, w1) := word_step o w x in let '(vs, w2) := words is' w1 in (v :: vs, w2)
    end.
  Lemma words_cons : forall od k x is w v w1 vs w2, word_step o w x = (v, w1) -> words is w1 = (vs, w2) -> words (Ins od k x :: is) w = (v :: vs, w2).
  Proof. intros od k x is w v w1 vs w2 E1 E2. cbn [words]. now rewrite E1, E2. Qed.
  Lemma words_app : forall a b w, words (a ++ b) w = (fst (words a w) ++ fst (words b (snd (words a w))), snd (words b (snd (words a w)))).
  Proof.
    induction a as [|[od k x] a IH]; intros b w; cbn [app words fst snd]; [now destruct (words b w)|]. destruct (word_step o w x) as [v w1]. rewrite IH.
    destruct (words a w1) as [vs w2]. reflexivity.
  Qed.
  Lemma run_roles : forall is t r w, map i_ord is = map ord (seq t (length is)) -> length r = 8%nat ->
    snd (run o is (r, w)) = snd (words is w) /\ length (fst (run o is (r, w))) = 8%nat /\
    role (t + length is) (fst (run o is (r, w))) = msteps o (role t r) (combine (map i_k is) (fst (words is w))).
  Proof.
    induction is as [|[od k x] is IH]; intros t r w OD L; cbn [length run words].
    - rewrite Nat.add_0_r. auto.
    - cbn [map length seq] in OD. injection OD as E OD. cbn [i_ord] in E. subst od. cbn [snd fst].
      destruct (word_step o w x) as [v w1] eqn:EW. destruct (IH (S t) (round o (ord t) k v r) w1 OD ltac:(now rewrite round_length)) as (A & B & C).
      destruct (words is w1) as [vs w2] eqn:EV. cbn [snd fst] in *. split; [exact A|]. split; [exact B|].
      replace (t + S (length is))%nat with (S t + length is)%nat by lia. rewrite C. rewrite round_mstep by auto. reflexivity.
  Qed.
  Lemma run64 : forall is r w, map i_ord is = map ord (seq 0 64) -> length r = 8%nat ->
    run o is (r, w) = (msteps o r (combine (map i_k is) (fst (words is w))), snd (words is w)) .
  Proof.
    intros is r w OD L. assert (LI : length is = 64%nat) by (apply (f_equal (@length _)) in OD; rewrite !map_length, seq_length in OD; exact OD).
    destruct (run_roles is 0 r w ltac:(now rewrite LI) L) as (A & B & C). rewrite LI in C.
    rewrite (role0 (0 + 64)) in C by (auto; reflexivity). rewrite (role0 0) in C by (auto; reflexivity). rewrite <- C, <- A. now destruct (run o is (r, w)).
  Qed.
  (** only the sum of the constant and the word matters *)
  Definition kw_sums (l : list (N * N)) : list N := map (fun p => (fst p + snd p) mod 2 ^ wd o) l.
  Lemma msteps_sums : forall a b r, kw_sums a = kw_sums b -> msteps o r a = msteps o r b.
  Proof.
    induction a as [|[k w] a IH]; intros [|[k' w'] b] r H; try discriminate; [reflexivity|]. cbn [kw_sums map fst snd] in H. injection H as H1 H2.
    unfold msteps. cbn [fold_left fst snd]. assert (E : mstep o r k w = mstep o r k' w').
    { unfold mstep. destruct r as [|r0 [|r1 [|r2 [|r3 [|r4 [|r5 [|r6 [|r7 [|]]]]]]]]]; try reflexivity.
      assert (T : forall x, wadd (wd o) (wadd (wd o) x k) w = wadd (wd o) (wadd (wd o) x k') w').
      { intro x. rewrite !wadd_wadd. unfold wadd. rewrite <- N.add_mod_idemp_r by apply (W0 o). rewrite H1. now rewrite N.add_mod_idemp_r by apply (W0 o). }
      rewrite T. reflexivity. }
    rewrite E. apply IH. exact H2.
  Qed.
End Ops.

(** the second block of a 64-byte message *)
Definition pad64 : list N := [0x80000000; 0; 0; 0; 0; 0; 0; 0; 0; 0; 0; 0; 0; 0; 0; 512].
Lemma ords1 : map i_ord d64_rounds1 = map ord (seq 0 64) /\ map i_ord d64_rounds2 = map ord (seq 0 64) /\ map i_ord d64_rounds3 = map ord (seq 0 64).
Proof. split; [|split]; vm_compute; reflexivity. Qed.
Lemma table_d1 : d64_rounds1 = std_table (fK sha256_std).
Proof. vm_compute. reflexivity. Qed.
Definition is_const0 (i : instr) : bool := match i with Ins _ _ (WConst 0) => true | _ => false end.
Lemma table_d2 : forallb is_const0 d64_rounds2 = true /\
  kw_sums ops256 (combine (map i_k d64_rounds2) (repeat 0 64)) = kw_sums ops256 (combine (fK sha256_std) (pad64 ++ slide ops256 48 pad64)).
Proof. split; vm_compute; reflexivity. Qed.
Lemma words_const0 : forall o is w, forallb is_const0 is = true -> words o is w = (repeat 0 (length is), w).
Proof.
  intros o is w. induction is as [|[od k x] is IH]; intro H; [reflexivity|]. cbn [forallb is_const0] in H. apply andb_prop in H as [H1 H2].
  destruct x as [| [|] |]; try discriminate. cbn [words word_step]. rewrite IH by auto. reflexivity.
Qed.
(** the third table: words 0 to 31 *)
Definition first32 : list instr := firstn 32 d64_rounds3.
Lemma table_d3 : d64_rounds3 = first32 ++ map (std_instr (fK sha256_std)) (seq 32 32).
Proof. vm_compute. reflexivity. Qed.
Notation "a +w b" := (wadd 32 a b) (at level 50, left associativity).
Lemma s_consts : s1 ops256 0 = 0 /\ s0 ops256 0 = 0 /\ s1 ops256 256 = 0xa00000 /\ s0 ops256 0x80000000 = 0x11002000 /\ s0 ops256 256 = 0x400022.
Proof. repeat split. Qed.
Lemma words_first32 : forall x0 x1 x2 x3 x4 x5 x6 x7 g0 g1 g2 g3 g4 g5 g6 g7 y0 y1 y2 y3 y4 y5 y6 y7 y8 y9 y10 y11 y12 y13 y14 y15,
  y0 = x0 +w s0 ops256 x1 -> y1 = x1 +w 0xa00000 +w s0 ops256 x2 -> y2 = x2 +w s1 ops256 y0 +w s0 ops256 x3 -> y3 = x3 +w s1 ops256 y1 +w s0 ops256 x4 ->
  y4 = x4 +w s1 ops256 y2 +w s0 ops256 x5 -> y5 = x5 +w s1 ops256 y3 +w s0 ops256 x6 -> y6 = x6 +w s1 ops256 y4 +w 0x100 +w s0 ops256 x7 -> y7 = x7 +w s1 ops256 y5 +w y0 +w 0x11002000 ->
  y8 = s1 ops256 y6 +w y1 +w 0x80000000 -> y9 = s1 ops256 y7 +w y2 -> y10 = s1 ops256 y8 +w y3 -> y11 = s1 ops256 y9 +w y4 -> y12 = s1 ops256 y10 +w y5 -> y13 = s1 ops256 y11 +w y6 ->
  y14 = s1 ops256 y12 +w y7 +w 0x400022 -> y15 = s1 ops256 y13 +w y8 +w s0 ops256 y0 +w 0x100 ->
  words ops256 first32 [x0; x1; x2; x3; x4; x5; x6; x7; g0; g1; g2; g3; g4; g5; g6; g7] =
    ([x0; x1; x2; x3; x4; x5; x6; x7; 0; 0; 0; 0; 0; 0; 0; 0; y0; y1; y2; y3; y4; y5; y6; y7; y8; y9; y10; y11; y12; y13; y14; y15],
     [y0; y1; y2; y3; y4; y5; y6; y7; y8; y9; y10; y11; y12; y13; y14; y15]) /\
  slide ops256 16 [x0; x1; x2; x3; x4; x5; x6; x7; 0x80000000; 0; 0; 0; 0; 0; 0; 256] =
    [y0; y1; y2; y3; y4; y5; y6; y7; y8; y9; y10; y11; y12; y13; y14; y15].
Proof.
  intros x0 x1 x2 x3 x4 x5 x6 x7 g0 g1 g2 g3 g4 g5 g6 g7 y0 y1 y2 y3 y4 y5 y6 y7 y8 y9 y10 y11 y12 y13 y14 y15 H0 H1 H2 H3 H4 H5 H6 H7 H8 H9 H10 H11 H12 H13 H14 H15.
  split.
  - let t := eval vm_compute in first32 in change first32 with t.
    do 16 (eapply words_cons; [reflexivity|]).
    Ltac ws H := eapply words_cons; [unfold word_step, sum_val, term_val; cbn [nth fold_left upd]; change (wd ops256) with 32; rewrite <- H; reflexivity|].
    ws H0. ws H1. ws H2. ws H3. ws H4. ws H5. ws H6. ws H7. ws H8. ws H9. ws H10. ws H11. ws H12. ws H13. ws H14. ws H15. reflexivity.
  - destruct s_consts as (C1 & C2 & C3 & C4 & C5).
    assert (NX : forall v0 v1 v2 v3 v4 v5 v6 v7 v8 v9 v10 v11 v12 v13 v14 v15, mnext ops256 [v0; v1; v2; v3; v4; v5; v6; v7; v8; v9; v10; v11; v12; v13; v14; v15] = (v0 + s1 ops256 v14 + v9 + s0 ops256 v1) mod 2 ^ 32).
    { intros. unfold mnext. cbn [nth]. change (wd ops256) with 32. rewrite !(wadd_wadd ops256). unfold wadd. change (wd ops256) with 32. f_equal. lia. }
    assert (F2 : forall a b, a +w b = (a + b) mod 2 ^ 32) by reflexivity.
    assert (F3 : forall a b c, a +w b +w c = (a + b + c) mod 2 ^ 32) by (intros; rewrite (wadd_wadd ops256); unfold wadd; change (wd ops256) with 32; f_equal; lia).
    assert (F4 : forall a b c d, a +w b +w c +w d = (a + b + c + d) mod 2 ^ 32) by (intros; rewrite !(wadd_wadd ops256); unfold wadd; change (wd ops256) with 32; f_equal; lia).
    rewrite F3 in H1, H2, H3, H4, H5, H8, H14. rewrite F4 in H6, H7, H15. rewrite F2 in H0, H9, H10, H11, H12, H13. clear F2 F3 F4.
    assert (ST : forall n v y, mnext ops256 v = y -> slide ops256 (S n) v = y :: slide ops256 n (tl v ++ [y])) by (intros n v y <-; reflexivity).
    Ltac nx ST NX H C1 C2 C3 C4 C5 := erewrite ST; [|rewrite NX; rewrite ?C1, ?C2, ?C3, ?C4, ?C5; rewrite ?N.add_0_l, ?N.add_0_r; symmetry; etransitivity; [exact H|]; f_equal; ring]; cbn [tl app].
    nx ST NX H0 C1 C2 C3 C4 C5.
    nx ST NX H1 C1 C2 C3 C4 C5. nx ST NX H2 C1 C2 C3 C4 C5. nx ST NX H3 C1 C2 C3 C4 C5. nx ST NX H4 C1 C2 C3 C4 C5.
    nx ST NX H5 C1 C2 C3 C4 C5. nx ST NX H6 C1 C2 C3 C4 C5. nx ST NX H7 C1 C2 C3 C4 C5. nx ST NX H8 C1 C2 C3 C4 C5.
    nx ST NX H9 C1 C2 C3 C4 C5. nx ST NX H10 C1 C2 C3 C4 C5. nx ST NX H11 C1 C2 C3 C4 C5. nx ST NX H12 C1 C2 C3 C4 C5.
    nx ST NX H13 C1 C2 C3 C4 C5. nx ST NX H14 C1 C2 C3 C4 C5. nx ST NX H15 C1 C2 C3 C4 C5. reflexivity.
Qed.
Lemma words_std : forall o K n t w, (16 <= t)%nat -> length w = 16%nat -> fst (words o (map (std_instr K) (seq t n)) w) = slide o n (win t w).
Proof.
  intros o K. induction n as [|n IH]; intros t w T L; [reflexivity|]. cbn [seq map]. unfold std_instr at 1, word_std. destruct (Nat.ltb_spec t 16); [lia|]. cbn [words word_step].
  destruct (word_win o t w L) as [E1 E2]. set (x := sum_val o w [TW (t mod 16); TS1 ((t + 14) mod 16); TW ((t + 9) mod 16); TS0 ((t + 1) mod 16)]) in *.
  pose proof (IH (S t) (upd (t mod 16) x w) ltac:(lia) ltac:(now rewrite upd_length)) as I. destruct (words o (map (std_instr K) (seq (S t) n)) (upd (t mod 16) x w)) as [vs w2]. cbn [fst] in *.
  cbn [slide]. rewrite <- E1, <- E2, <- I. reflexivity.
Qed.
Lemma slide_app : forall o a b v, (0 < length v)%nat -> slide o (a + b) v = slide o a v ++ slide o b (skipn a (v ++ slide o a v)).
Proof.
  intros o. induction a as [|a IH]; intros b v L; cbn [Nat.add slide app skipn]; [now rewrite app_nil_r|]. f_equal.
  destruct v as [|x v]; [cbn [length] in L; lia|]. set (m := mnext o (x :: v)). cbn [tl]. rewrite IH by (rewrite app_length; cbn [length]; lia). f_equal. f_equal.
  cbn [app skipn]. now rewrite <- app_assoc.
Qed.
Lemma kw_app : forall o a b a' b', length a = length b -> kw_sums o (combine (a ++ a') (b ++ b')) = kw_sums o (combine a b) ++ kw_sums o (combine a' b').
Proof. intros. rewrite <- combine_app by auto. unfold kw_sums. apply map_app. Qed.
Lemma third_sums : forall x g, length x = 8%nat -> length g = 8%nat ->
  kw_sums ops256 (combine (map i_k d64_rounds3) (fst (words ops256 d64_rounds3 (x ++ g)))) =
  kw_sums ops256 (combine (fK sha256_std) ((x ++ [0x80000000; 0; 0; 0; 0; 0; 0; 256]) ++ slide ops256 48 (x ++ [0x80000000; 0; 0; 0; 0; 0; 0; 256]))).
Proof.
  intros x g LX LG. apply len8 in LX as (x0 & x1 & x2 & x3 & x4 & x5 & x6 & x7 & ->). apply len8 in LG as (g0 & g1 & g2 & g3 & g4 & g5 & g6 & g7 & ->). cbn [app].
  destruct (words_first32 x0 x1 x2 x3 x4 x5 x6 x7 g0 g1 g2 g3 g4 g5 g6 g7 _ _ _ _ _ _ _ _ _ _ _ _ _ _ _ _ eq_refl eq_refl eq_refl eq_refl eq_refl eq_refl eq_refl eq_refl eq_refl eq_refl eq_refl eq_refl eq_refl eq_refl eq_refl eq_refl) as [A B].
  match type of B with _ = ?l => set (ys := l) in *; assert (LY : length ys = 16%nat) by reflexivity; clearbody ys end.
  assert (A' : words ops256 first32 [x0; x1; x2; x3; x4; x5; x6; x7; g0; g1; g2; g3; g4; g5; g6; g7] = ([x0; x1; x2; x3; x4; x5; x6; x7; 0; 0; 0; 0; 0; 0; 0; 0] ++ ys, ys)) by exact A.
  clear A. rewrite table_d3 at 2. rewrite words_app, A'. cbn [fst snd]. rewrite words_std by (auto; lia). rewrite (win0 ops256 32) by auto.
  change 48%nat with (16 + 32)%nat. rewrite slide_app by (cbn [length]; lia). rewrite B.
  change (skipn 16 ([x0; x1; x2; x3; x4; x5; x6; x7; 0x80000000; 0; 0; 0; 0; 0; 0; 256] ++ ys)) with ys.
  replace (map i_k d64_rounds3) with (firstn 8 (fK sha256_std) ++ firstn 8 (skipn 8 (map i_k d64_rounds3)) ++ skipn 16 (fK sha256_std)) by (vm_compute; reflexivity).
  replace (fK sha256_std) with (firstn 8 (fK sha256_std) ++ firstn 8 (skipn 8 (fK sha256_std)) ++ skipn 16 (fK sha256_std)) at 3 by (vm_compute; reflexivity).
  change ([x0; x1; x2; x3; x4; x5; x6; x7; 0; 0; 0; 0; 0; 0; 0; 0]) with ([x0; x1; x2; x3; x4; x5; x6; x7] ++ [0; 0; 0; 0; 0; 0; 0; 0]).
  match goal with |- _ = kw_sums _ (combine _ ?l) => change l with ([x0; x1; x2; x3; x4; x5; x6; x7] ++ [0x80000000; 0; 0; 0; 0; 0; 0; 256] ++ (ys ++ slide ops256 32 ys)) end.
  rewrite <- !app_assoc. rewrite !kw_app by (vm_compute; reflexivity). apply (f_equal2 (@app N)); [reflexivity|]. apply (f_equal2 (@app N)); [|reflexivity]. vm_compute. reflexivity.
Qed.
Lemma wadd2_comm : forall o a b, wadd2 o a b = wadd2 o b a.
Proof. intro o. induction a as [|x a IH]; intros [|y b]; try reflexivity. cbn [wadd2]. rewrite IH. f_equal. unfold wadd. f_equal. lia. Qed.

Lemma msteps_good_gen : forall f, agree ops256 f -> length (fK f) = 64%nat -> forall st w, good ops256 st -> small ops256 w -> length w = 16%nat ->
  wadd2 ops256 st (msteps ops256 st (combine (fK f) (w ++ slide ops256 48 w))) =
  add_words f (fold_left (step f) (combine (fK f) (schedule f 48 w)) st) st.
Proof.
  intros f AG LK st w [SM L] SW LW.
  pose proof (block_words ops256 f AG ltac:(rewrite LK; lia) ltac:(rewrite LK; reflexivity) st w SM L SW LW) as E.
  destruct (run_std ops256 (fK f) st w ltac:(rewrite LK; lia) ltac:(rewrite LK; reflexivity) L LW) as (w' & R & _). rewrite R in E. cbn [fst] in E.
  rewrite LK in E. exact E.
Qed.
Lemma compress_words_gen : forall f, agree ops256 f -> length (fK f) = 64%nat -> forall st b w, good ops256 st -> words_of f b = w -> small ops256 w -> length w = 16%nat ->
  compress f st b = wadd2 ops256 st (msteps ops256 st (combine (fK f) (w ++ slide ops256 48 w))).
Proof.
  intros f AG LK st b w G E SW LW. rewrite (msteps_good_gen f AG LK) by auto. unfold compress. rewrite E. rewrite LK. reflexivity.
Qed.
Definition compress_words := compress_words_gen sha256_std agree256 (proj1 len_K).
Lemma words_blocks : forall ls, full 4 ls -> words_of sha256_std (concat ls) = map be_val ls.
Proof. intros ls F. unfold words_of. change (fw sha256_std / 8) with 4. now rewrite blocks_full. Qed.
Lemma out_concat : forall st, full 4 (map (be_bytes 4) st).
Proof. induction st; cbn [map]; constructor; [apply be_bytes_len|auto]. Qed.
Definition pad64_bytes : bytes := 128 :: repeat 0 61 ++ [2; 0].
Definition pad32_bytes : bytes := 128 :: repeat 0 29 ++ [1; 0].
Lemma stage1 : forall st inp, good ops256 st -> bytes_ok inp -> lenN inp = 64 ->
  exists r w, run ops256 d64_rounds1 (st, be_words 4 inp) = (r, w) /\ wadd2 ops256 r st = compress sha256_std st inp /\ length w = 16%nat.
Proof.
  intros st inp G OK L. destruct (be_words_small ops256 ltac:(exists 4; split; [reflexivity|lia]) inp OK L) as [SW LW]. change (wd ops256 / 8) with 4 in SW, LW.
  destruct (run_std ops256 (fK sha256_std) st (be_words 4 inp) ltac:(rewrite (proj1 len_K); lia) ltac:(rewrite (proj1 len_K); reflexivity) (proj2 G) LW) as (w1 & R1 & LW1).
  rewrite <- table_d1 in R1. destruct (comp256_spec st inp G OK L) as [E _]. rewrite <- E. unfold sha256_comp, sha2_block. rewrite table256, <- table_d1. change (wd ops256 / 8) with 4. rewrite R1.
  eexists. eexists. split; [reflexivity|]. split; [|exact LW1]. cbn [fst]. apply wadd2_comm.
Qed.
Lemma stage2 : forall t w, good ops256 t -> exists r, run ops256 d64_rounds2 (t, w) = (r, w) /\ wadd2 ops256 t r = compress sha256_std t pad64_bytes.
Proof.
  intros t w G. eexists. split; [|].
  - rewrite (run64 ops256 d64_rounds2 t w (proj1 (proj2 ords1)) (proj2 G)). rewrite (words_const0 ops256 d64_rounds2 w (proj1 table_d2)). reflexivity.
  - cbn [fst]. change (length d64_rounds2) with 64%nat. rewrite (msteps_sums ops256 _ _ t (proj2 table_d2)). symmetry.
    apply (compress_words t pad64_bytes pad64 G); [vm_compute; reflexivity| |reflexivity]. repeat (constructor; [vm_compute; reflexivity|]). constructor.
Qed.
Lemma stage3_words : forall H, good ops256 H -> words_of sha256_std (out sha256_std H ++ pad32_bytes) = H ++ [0x80000000; 0; 0; 0; 0; 0; 0; 256].
Proof.
  intros H1 G2. pose proof (words_blocks (map (be_bytes 4) H1 ++ [[128; 0; 0; 0]; [0; 0; 0; 0]; [0; 0; 0; 0]; [0; 0; 0; 0]; [0; 0; 0; 0]; [0; 0; 0; 0]; [0; 0; 0; 0]; [0; 0; 1; 0]])) as WB.
  rewrite concat_app in WB. change (concat (map (be_bytes 4) H1)) with (out sha256_std H1) in WB. change (concat [[128; 0; 0; 0]; [0; 0; 0; 0]; [0; 0; 0; 0]; [0; 0; 0; 0]; [0; 0; 0; 0]; [0; 0; 0; 0]; [0; 0; 0; 0]; [0; 0; 1; 0]]) with pad32_bytes in WB.
  rewrite WB by (apply full_app; split; [apply out_concat|repeat (constructor; [reflexivity|]); constructor]). rewrite map_app, map_map. f_equal.
  destruct G2 as [SM _]. unfold small in SM. change (2 ^ wd ops256) with (2 ^ 32) in SM. clear -SM. induction SM as [|x l X _ IH]; [reflexivity|]. cbn [map]. rewrite IH. now rewrite be_val_bytes4.
Qed.
Lemma stage3 : forall st H g, good ops256 st -> good ops256 H -> length g = 8%nat ->
  exists r w, run ops256 d64_rounds3 (st, H ++ g) = (r, w) /\ wadd2 ops256 r st = compress sha256_std st (out sha256_std H ++ pad32_bytes).
Proof.
  intros st H g GS G LG. eexists. eexists. split; [apply (run64 ops256 d64_rounds3 st (H ++ g) (proj2 (proj2 ords1)) (proj2 GS))|].
  rewrite (msteps_sums ops256 _ _ st (third_sums H g (proj2 G) LG)). rewrite wadd2_comm. symmetry.
  apply (compress_words st (out sha256_std H ++ pad32_bytes) (H ++ [0x80000000; 0; 0; 0; 0; 0; 0; 256]) GS (stage3_words H G)).
  - apply Forall_app. split; [apply G|]. repeat (constructor; [vm_compute; reflexivity|]). constructor.
  - rewrite app_length, (proj2 G). reflexivity.
Qed.
#[local] Opaque compress.
Lemma sha256d_64_spec : forall inp, bytes_ok inp -> lenN inp = 64 -> software_sha256d_64 inp = SHA256d inp.
Proof.
  intros inp OK L. unfold software_sha256d_64. rewrite (proj1 ivs).
  destruct (stage1 iv256 inp (proj1 good_iv) OK L) as (r1 & w1 & R1 & C1 & LW1). rewrite R1, C1.
  destruct (comp256_spec iv256 inp (proj1 good_iv) OK L) as [_ G1]. set (t := compress sha256_std iv256 inp) in *.
  destruct (stage2 t w1 G1) as (r2 & R2 & C2). rewrite R2, C2.
  assert (OP : bytes_ok pad64_bytes) by (repeat (constructor; [vm_compute; reflexivity|]); constructor).
  destruct (comp256_spec t pad64_bytes G1 OP eq_refl) as [_ G2]. set (H1 := compress sha256_std t pad64_bytes) in *.
  assert (SH : SHA256 inp = out sha256_std H1).
  { unfold SHA256, hash_with, hash_words. change (2 * fw sha256_std) with 64. change (fw sha256_std / 4) with 8. change (N.to_nat 8) with 8%nat.
    assert (PD : md_pad 64 8 (be_bytes 8) inp = concat [inp; pad64_bytes]) by (unfold md_pad; rewrite L; cbn [concat]; rewrite app_nil_r; reflexivity).
    rewrite PD. unfold iterate. rewrite blocks_full; [reflexivity|lia|constructor; [auto|constructor; [reflexivity|constructor]]]. }
  assert (LD : length (dropN 8 w1) = 8%nat) by (unfold dropN; rewrite skipn_length, LW1; reflexivity).
  destruct (stage3 iv256 H1 (dropN 8 w1) (proj1 good_iv) G2 LD) as (r3 & w3 & R3 & C3). rewrite R3, C3.
  unfold SHA256d. rewrite SH. rewrite out_to. unfold SHA256, hash_with, hash_words. change (2 * fw sha256_std) with 64. change (fw sha256_std / 4) with 8. change (N.to_nat 8) with 8%nat.
  assert (LO : lenN (out sha256_std H1) = 32) by (rewrite <- SH; now apply SHA256_len).
  assert (PD : md_pad 64 8 (be_bytes 8) (out sha256_std H1) = concat [out sha256_std H1 ++ pad32_bytes]) by (unfold md_pad; rewrite LO; cbn [concat]; rewrite app_nil_r; reflexivity).
  rewrite PD. unfold iterate. rewrite blocks_full; [reflexivity|lia|constructor; [rewrite lenN_app, LO; reflexivity|constructor]].
Qed.
