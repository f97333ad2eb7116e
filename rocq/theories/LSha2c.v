(** Lemmas: the compile-time SHA-256 and the specialised double hash of 64 bytes. *)
From Verif Require Import Base MDec LDec LU256 MHash SHash LHash MSha2 SSha2 LSha2 SHashApi LSha2b.
Local Open Scope N_scope.
#[local] Transparent iterate sha256_comp.

(** * update_midstate_unoptimized *)
(** the last one or two blocks *)
Definition tail_blocks (r bits : bytes) : list bytes :=
  if lenN r <=? 55 then [r ++ 128 :: repeat 0 (N.to_nat (55 - lenN r)) ++ bits]
  else [r ++ 128 :: repeat 0 (N.to_nat (63 - lenN r)); repeat 0 56 ++ bits].
Lemma tail_full : forall r bits, lenN r < 64 -> lenN bits = 8 -> full 64 (tail_blocks r bits).
Proof.
  intros r bits R B. unfold tail_blocks. destruct (N.leb_spec (lenN r) 55).
  - constructor; [|constructor]. rewrite lenN_app, lenN_cons, lenN_app, repeat0_len. lia.
  - constructor; [|constructor; [|constructor]]; rewrite ?lenN_app, ?lenN_cons, ?lenN_app, ?repeat0_len; lia.
Qed.
Lemma pad_blocks : forall ls r, full 64 ls -> lenN r < 64 ->
  md_pad 64 8 (be_bytes 8) (concat ls ++ r) = concat (ls ++ tail_blocks r (be_bytes 8 (8 * lenN (concat ls ++ r)))).
Proof.
  intros ls r F R. unfold md_pad. rewrite concat_app, <- app_assoc. f_equal. set (bits := be_bytes 8 _).
  assert (FL : fill 64 (lenN (concat ls ++ r) + 1 + 8) = fill 64 (lenN r + 1 + 8)).
  { rewrite lenN_app, (full_len 64) by auto. rewrite <- !N.add_assoc. apply fill_add. lia. }
  rewrite FL. unfold tail_blocks. destruct (N.leb_spec (lenN r) 55); cbn [concat]; rewrite app_nil_r.
  - rewrite fill_small by lia. f_equal. f_equal. f_equal. f_equal. lia.
  - rewrite fill_big by lia. rewrite <- app_assoc. f_equal. cbn [app]. f_equal. rewrite app_assoc. f_equal. rewrite <- repeat_app. f_equal. lia.
Qed.
Lemma copy_zero : forall i src n, i + lenN src <= N.of_nat n ->
  copy_in i src (repeat 0 n) = Ret (repeat 0 (N.to_nat i) ++ src ++ repeat 0 (n - N.to_nat (i + lenN src))).
Proof.
  intros i src n H. rewrite copy_in_ok by (rewrite repeat0_len; lia). f_equal. f_equal; [|f_equal].
  - unfold takeN. clear -H. assert (L : (N.to_nat i <= n)%nat) by lia. revert L. generalize (N.to_nat i). clear. intro k. revert n.
    induction k as [|k IH]; intros [|n] L; try reflexivity; [lia|]. cbn [repeat firstn]. f_equal. apply IH. lia.
  - unfold dropN. generalize (N.to_nat (i + lenN src)). clear. intro k. revert n.
    induction k as [|k IH]; intros [|n]; try reflexivity. cbn [repeat skipn]. apply IH.
Qed.
Lemma takeN_repeat : forall i n, i <= N.of_nat n -> takeN i (repeat 0 n) = repeat 0 (N.to_nat i).
Proof.
  intros i n H. unfold takeN. assert (L : (N.to_nat i <= n)%nat) by lia. revert L. generalize (N.to_nat i). clear. intro k. revert n.
  induction k as [|k IH]; intros [|n] L; try reflexivity; [lia|]. cbn [repeat firstn]. f_equal. apply IH. lia.
Qed.
Lemma dropN_repeat : forall i n, dropN i (repeat 0 n) = repeat 0 (n - N.to_nat i).
Proof.
  intros i n. unfold dropN. generalize (N.to_nat i). clear. intro k. revert n. induction k as [|k IH]; intros [|n]; try reflexivity. cbn [repeat skipn]. apply IH.
Qed.
Lemma drop_full : forall ls (r : bytes) i, full 64 ls -> (i <= length ls)%nat -> dropN (N.of_nat i * 64) (concat ls ++ r) = concat (skipn i ls) ++ r.
Proof.
  intros ls r i F. revert i. induction F as [|x ls L F IH]; intros i I; cbn [length] in I.
  - assert (i = 0%nat) by lia. subst i. reflexivity.
  - destruct i as [|i]; [reflexivity|]. cbn [skipn concat]. rewrite <- app_assoc. rewrite dropN_app_ge by lia. rewrite L. replace (N.of_nat (S i) * 64 - 64) with (N.of_nat i * 64) by lia. apply IH. lia.
Qed.
Definition num_chunks (m : bytes) : N := (lenN m + 9 + 63) / 64.
Lemma num_chunks_eq : forall ls r, full 64 ls -> lenN r < 64 -> forall bits, num_chunks (concat ls ++ r) = lenN (ls ++ tail_blocks r bits).
Proof.
  intros ls r F R bits. unfold num_chunks. rewrite !lenN_app, (full_len 64) by auto. unfold tail_blocks.
  assert (G : forall q z k : N, k = 1 \/ k = 2 -> 64 * (k - 1) <= z + 8 < 64 * k -> (64 * q + z + 9 + 63) / 64 = q + k).
  { clear. intros q z k K H. symmetry. apply N.div_unique with (r := 64 * q + z + 9 + 63 - 64 * (q + k)); lia. }
  destruct (N.leb_spec (lenN r) 55).
  - apply (G _ _ 1); [left; reflexivity|lia].
  - apply (G _ _ 2); [right; reflexivity|lia].
Qed.
Lemma const_chunk_spec : forall ls r, full 64 ls -> lenN r < 64 -> lenN (concat ls ++ r) < 2 ^ 61 ->
  let m := concat ls ++ r in let PB := ls ++ tail_blocks r (be_bytes 8 (8 * lenN m)) in
  forall i, (i < length PB)%nat -> const_chunk m (N.of_nat i) (num_chunks m) = Ret (be_words 4 (nth i PB [])).
Proof.
  intros ls r F R L m PB i I. unfold const_chunk. pose proof (num_chunks_eq ls r F R (be_bytes 8 (8 * lenN m))) as NC. fold m PB in NC.
  assert (LM : lenN m = 64 * N.of_nat (length ls) + lenN r) by (unfold m; rewrite lenN_app, (full_len 64) by auto; reflexivity).
  assert (MM : lenN m mod 64 = lenN r) by (now apply aligned_rest). rewrite MM.
  assert (U : u64_ck (lenN m * 8) = Ret (8 * lenN m)).
  { unfold u64_ck. destruct (N.ltb_spec (lenN m * 8) (2 ^ 64)) as [_|X]; [f_equal; lia|change (2 ^ 64) with (2 ^ 61 * 8) in X; fold m in L; lia]. }
  assert (LPB : lenN PB = N.of_nat (length ls) + N.of_nat (length (tail_blocks r (be_bytes 8 (8 * lenN m))))) by (unfold PB; rewrite lenN_app; reflexivity).
  destruct (Nat.lt_ge_cases i (length ls)) as [C|C].
  - destruct (N.leb_spec (N.of_nat i * 64 + 64) (lenN m)) as [_|X]; [|lia]. f_equal. f_equal. unfold m. rewrite drop_full by (auto; lia). unfold PB. rewrite app_nth1 by auto.
    clear -C F. revert i C. induction F as [|x ls L F IH]; intros i C; cbn [length] in C; [lia|]. destruct i as [|i].
    + cbn [skipn concat nth]. rewrite <- app_assoc. rewrite takeN_app_le by lia. apply takeN_all. lia.
    + cbn [skipn nth]. apply IH. lia.
  - destruct (N.leb_spec (N.of_nat i * 64 + 64) (lenN m)) as [X|_]; [lia|]. change 64%nat with (N.to_nat 64) at 1.
    assert (DR : dropN (N.of_nat i * 64) m = if (i =? length ls)%nat then r else []).
    { destruct (Nat.eqb_spec i (length ls)) as [-> |NE]; [unfold m; rewrite drop_full by (auto; lia); rewrite skipn_all; reflexivity|]. apply dropN_all. lia. }
    rewrite DR. unfold PB in I |- *. rewrite app_nth2 by auto. rewrite app_length in I. rewrite NC, LPB. clear DR. unfold tail_blocks in *. destruct (N.leb_spec (lenN r) 55) as [SM|SM]; cbn [length] in *.
    + assert (i = length ls) by lia. subst i. rewrite Nat.eqb_refl. rewrite copy_zero by lia. cbn [rbind N.to_nat app repeat orb]. rewrite Nat.sub_diag. cbn [nth].
      change (N.to_nat 0) with 0%nat. cbn [repeat app]. rewrite copy_in_ok by (rewrite !lenN_app, repeat0_len; cbn; lia). cbn [rbind].
      destruct (N.eqb_spec (N.of_nat (length ls) + 1) (N.of_nat (length ls) + N.of_nat 1)) as [_|X]; [|lia]. rewrite U. cbn [rbind].
      assert (LO : lenN [128] = 1) by reflexivity. rewrite LO. rewrite N.add_0_l.
      rewrite takeN_app_le by lia. rewrite takeN_all by lia. rewrite dropN_app_ge by lia. rewrite dropN_repeat.
      rewrite copy_in_ok by (rewrite !lenN_app, LO, !repeat0_len, be_bytes_len; lia). cbn [rbind]. f_equal. f_equal.
      rewrite be_bytes_len. change (56 + N.of_nat 8) with 64.
      rewrite (dropN_all 64) by (rewrite !lenN_app, LO, repeat0_len; lia). rewrite app_nil_r. rewrite takeN_app_ge by lia. rewrite takeN_app_ge by (rewrite LO; lia). rewrite LO.
      rewrite takeN_repeat by lia. rewrite <- !app_assoc. cbn [app]. f_equal. f_equal. f_equal. f_equal. lia.
    + destruct (Nat.eqb_spec i (length ls)) as [-> |NE].
      * rewrite copy_zero by lia. cbn [rbind app orb]. rewrite Nat.sub_diag. cbn [nth]. change (N.to_nat 0) with 0%nat. cbn [repeat app].
        destruct (N.eqb_spec (N.of_nat (length ls) + 2) (N.of_nat (length ls) + N.of_nat 2)) as [_|X]; [|lia].
        rewrite copy_in_ok by (rewrite !lenN_app, repeat0_len; cbn; lia). cbn [rbind].
        destruct (N.eqb_spec (N.of_nat (length ls) + 1) (N.of_nat (length ls) + N.of_nat 2)) as [X|_]; [lia|]. cbn [rbind]. f_equal. f_equal.
        assert (LO : lenN [128] = 1) by reflexivity. rewrite LO. rewrite N.add_0_l.
        rewrite takeN_app_le by lia. rewrite takeN_all by lia. rewrite dropN_app_ge by lia. rewrite dropN_repeat. f_equal. cbn [app]. f_equal. f_equal. lia.
      * assert (i = S (length ls)) by lia. subst i. replace (S (length ls) - length ls)%nat with 1%nat by lia. cbn [nth].
        rewrite copy_zero by (rewrite lenN_nil; lia). rewrite lenN_nil. cbn [rbind app orb]. change (N.to_nat 0) with 0%nat. change (N.to_nat (0 + 0)) with 0%nat. cbn [repeat app].
        destruct (N.eqb_spec (N.of_nat (S (length ls)) + 2) (N.of_nat (length ls) + N.of_nat 2)) as [X|_]; [lia|]. cbn [rbind].
        destruct (N.eqb_spec (N.of_nat (S (length ls)) + 1) (N.of_nat (length ls) + N.of_nat 2)) as [_|X]; [|lia]. rewrite U. cbn [rbind].
        rewrite copy_zero by (rewrite be_bytes_len; lia). cbn [rbind]. rewrite be_bytes_len. change (N.to_nat 64 - 0)%nat with 64%nat.
        change (64 - N.to_nat (56 + N.of_nat 8))%nat with 0%nat. cbn [repeat]. rewrite app_nil_r. reflexivity.
Qed.
Lemma const_block : forall st b, wadd2 ops256 st (fst (run ops256 sha256_const_rounds (st, be_words 4 b))) = sha256_comp st b.
Proof. intros. unfold sha256_comp, sha2_block. rewrite table_const, table256. reflexivity. Qed.
Lemma const_loop_spec : forall m fin nc bl (c : nat) st, N.of_nat (c + length bl) = nc ->
  (forall i, (i < length bl)%nat -> const_chunk m (N.of_nat (c + i)) nc = Ret (be_words 4 (nth i bl []))) ->
  const_loop (length bl) m fin (N.of_nat c) nc st =
    Ret (fold_left sha256_comp (if fin then bl else firstn (length bl - 1) bl) st).
Proof.
  intros m fin nc. induction bl as [|b bl IH]; intros c st NC H; cbn [length const_loop].
  - destruct fin; reflexivity.
  - pose proof (H 0%nat ltac:(cbn [length]; lia)) as H0. rewrite Nat.add_0_r in H0. cbn [nth] in H0. cbn [length] in NC.
    assert (IH' : forall st, const_loop (length bl) m fin (N.of_nat c + 1) nc st = Ret (fold_left sha256_comp (if fin then bl else firstn (length bl - 1) bl) st)).
    { intro st'. replace (N.of_nat c + 1) with (N.of_nat (S c)) by lia. apply IH; [lia|]. intros i I. pose proof (H (S i) ltac:(cbn [length]; lia)) as Hi. cbn [nth] in Hi. rewrite <- Hi. f_equal. lia. }
    destruct fin; cbn [negb andb].
    + rewrite H0. cbn [rbind]. rewrite const_block. rewrite IH'. reflexivity.
    + destruct (N.eqb_spec (N.of_nat c + 1) nc) as [E|E].
      * assert (length bl = 0%nat) by lia. rewrite H1. cbn [Nat.sub firstn fold_left]. reflexivity.
      * rewrite H0. cbn [rbind]. rewrite const_block. rewrite IH'. destruct bl as [|b2 bl]; [cbn [length] in NC; lia|]. cbn [length]. replace (S (S (length bl)) - 1)%nat with (S (S (length bl) - 1)) by lia. reflexivity.
Qed.
Lemma update_unopt : forall ls0 ls r fin, full 64 ls0 -> bytes_ok (concat ls0) -> full 64 ls -> lenN r < 64 -> bytes_ok (concat ls ++ r) -> lenN (concat ls ++ r) < 2 ^ 61 ->
  lenN (concat ls0) + lenN (concat ls ++ r) < 2 ^ 64 ->
  let PB := ls ++ tail_blocks r (be_bytes 8 (8 * lenN (concat ls ++ r))) in
  update_midstate_unoptimized (midstate_of (concat ls0)) (concat ls ++ r) fin =
    Ret (Mid (to_be_words 4 (fold_left sha256_comp (if fin then PB else firstn (length PB - 1) PB) (fold_left sha256_comp ls0 sha256_iv))) (lenN (concat ls0) + lenN (concat ls ++ r))).
Proof.
  intros ls0 ls r fin F0 OK0 F R OK L L2 PB. unfold update_midstate_unoptimized. fold (num_chunks (concat ls ++ r)). cbv zeta.
  pose proof (num_chunks_eq ls r F R (be_bytes 8 (8 * lenN (concat ls ++ r)))) as NC. fold PB in NC.
  replace (N.to_nat (num_chunks (concat ls ++ r))) with (length PB) by (rewrite NC; unfold lenN; lia).
  destruct (fold_good ls0 F0 OK0) as [FG G].
  assert (BW : be_words 4 (mid_bytes (midstate_of (concat ls0))) = fold_left sha256_comp ls0 sha256_iv).
  { unfold midstate_of. cbn [mid_bytes]. rewrite <- FG, <- out_to. now apply be_words_to. }
  rewrite BW. change 0 with (N.of_nat 0) at 1. rewrite const_loop_spec.
  - cbn [rbind]. unfold midstate_of. cbn [mid_n]. unfold u64_ck. destruct (N.ltb_spec (lenN (concat ls0) + lenN (concat ls ++ r)) (2 ^ 64)); [reflexivity|lia].
  - rewrite NC. unfold lenN. f_equal.
  - intros i I. rewrite Nat.add_0_l. apply const_chunk_spec; auto.
Qed.
Lemma iv_midstate : SHA256_IV = midstate_of (concat []).
Proof. vm_compute. reflexivity. Qed.
Lemma hash_unopt_spec : forall m, bytes_ok m -> lenN m < 2 ^ 61 -> hash_unoptimized m = Ret (SHA256 m).
Proof.
  intros m OK L. destruct (split_blocks 64 m ltac:(lia)) as (ls & r & -> & F & R). unfold hash_unoptimized. rewrite iv_midstate.
  rewrite update_unopt; auto; [|constructor|constructor|cbn [concat]; rewrite lenN_nil; change (2 ^ 64) with (8 * 2 ^ 61); lia].
  cbn [rbind mid_bytes fold_left]. rewrite out_to. f_equal. unfold SHA256, hash_with, hash_words. f_equal.
  change (2 * fw sha256_std) with 64. change (fw sha256_std / 4) with 8. change (N.to_nat 8) with 8%nat.
  pose proof (md_pad_ok 64 8 (be_bytes 8) (concat ls ++ r) (be_bytes_ok 8) OK) as OKP. rewrite pad_blocks in OKP |- * by auto.
  destruct (fold_good (ls ++ tail_blocks r (be_bytes 8 (8 * lenN (concat ls ++ r)))) ltac:(apply full_app; split; auto; apply tail_full; auto; apply be_bytes_len) OKP) as [E _].
  exact E.
Qed.
Lemma SHA256_len : forall m, bytes_ok m -> lenN (SHA256 m) = 32 /\ bytes_ok (SHA256 m).
Proof.
  intros m OK. unfold SHA256, hash_with.
  destruct (iterate_ext _ (good ops256) 64 sha256_comp (compress sha256_std) iv256 (md_pad 64 8 (be_bytes 8) m) ltac:(lia)
    (md_pad_mod 64 8 (be_bytes 8) m ltac:(lia) (be_bytes_len 8)) (md_pad_ok 64 8 (be_bytes 8) m (be_bytes_ok 8) OK) (proj1 good_iv) comp256_spec) as [_ [_ LG]].
  unfold hash_words. change (2 * fw sha256_std) with 64. change (fw sha256_std / 4) with 8. change (N.to_nat 8) with 8%nat. revert LG. generalize (iterate 64 (compress sha256_std) iv256 (md_pad 64 8 (be_bytes 8) m)).
  intros st L8. unfold out. change (N.to_nat (fw sha256_std / 8)) with 4%nat. apply len8 in L8 as (a & b & c & d & e & f & g & h & ->). split; [reflexivity|].
  cbn [map concat]. repeat (apply bytes_ok_app; split; [apply be_bytes_ok|]). constructor.
Qed.
Lemma hash_tag_spec : forall tag, bytes_ok tag -> lenN tag < 2 ^ 61 -> hash_tag tag = Ret (midstate_of (SHA256 tag ++ SHA256 tag)).
Proof.
  intros tag OK L. unfold hash_tag. rewrite hash_unopt_spec by auto. cbn [rbind]. destruct (SHA256_len tag OK) as [HL HO]. set (h := SHA256 tag) in *. clearbody h.
  rewrite iv_midstate. assert (F : full 64 [h ++ h]) by (constructor; [rewrite lenN_app, HL; reflexivity|constructor]).
  assert (OH : bytes_ok (concat [h ++ h])) by (cbn [concat]; rewrite app_nil_r; apply bytes_ok_app; auto).
  replace (h ++ h) with (concat [h ++ h] ++ []) at 1 by (cbn [concat]; now rewrite !app_nil_r).
  rewrite update_unopt; auto; rewrite ?app_nil_r; auto; try constructor; try (cbn [concat]; rewrite !app_nil_r, ?lenN_app, ?HL, ?lenN_nil; reflexivity).
  set (bits := be_bytes 8 _). change (firstn (length ([h ++ h] ++ tail_blocks [] bits) - 1) ([h ++ h] ++ tail_blocks [] bits)) with [h ++ h].
  destruct (fold_good [h ++ h] F OH) as [E _]. cbn [fold_left] in E |- *. rewrite E, out_to. unfold midstate_of. cbn [concat]. rewrite !app_nil_r, lenN_nil. reflexivity.
Qed.
Lemma sha256t_spec : forall tag m, bytes_ok tag -> bytes_ok m -> lenN m + 64 < 2 ^ 61 ->
  sha256t_hash (midstate_of (SHA256 tag ++ SHA256 tag)) m = Ret (tagged_hash tag m).
Proof.
  intros tag m OT OK L. unfold sha256t_hash, tagged_hash. destruct (SHA256_len tag OT) as [HL HO]. set (h := SHA256 tag) in *. clearbody h.
  assert (F : full 64 [h ++ h]) by (constructor; [rewrite lenN_app, HL; reflexivity|constructor]).
  assert (OH : bytes_ok (concat [h ++ h])) by (cbn [concat]; rewrite app_nil_r; apply bytes_ok_app; auto).
  pose proof (to_engine_absorbed [h ++ h] F OH) as A. replace (concat [h ++ h]) with (h ++ h) in A by (cbn [concat]; now rewrite app_nil_r).
  assert (LH : lenN (h ++ h) = 64) by (rewrite lenN_app, HL; reflexivity).
  destruct (input_absorbed 64 sha256_comp ltac:(lia) _ _ [] _ m A ltac:(rewrite LH, lenN_nil; change (2 ^ 64) with (8 * 2 ^ 61); lia)) as (e & E & A2).
  unfold sha256_input. rewrite E. cbn [rbind]. rewrite app_assoc.
  apply finalize256_spec; [|apply bytes_ok_app; split; [apply bytes_ok_app; auto|auto]|rewrite lenN_app, LH; lia].
  exact (absorbed_prefix 64 sha256_comp ltac:(lia) sha256_iv (h ++ h) m e [h ++ h] ltac:(cbn [concat]; now rewrite app_nil_r) F A2).
Qed.
