(** Lemmas on the hash engines. *)
From Verif Require Import Base MDec LDec MHash SHash.
Local Open Scope N_scope.

Definition full (bs : N) (ls : list bytes) : Prop := Forall (fun b => lenN b = bs) ls.
Lemma full_len : forall bs ls, full bs ls -> lenN (concat ls) = bs * lenN ls.
Proof.
  intros bs ls. induction 1 as [|b ls L H IH]; cbn [concat]; [rewrite !lenN_nil; lia|]. rewrite lenN_app, lenN_cons, IH, L, N.mul_add_distr_l, N.mul_1_r. reflexivity.
Qed.
Lemma chunks_n_full : forall bs ls r, full bs ls -> chunks_n (length ls) bs (concat ls ++ r) = ls.
Proof.
  intros bs ls r. induction 1 as [|b ls L H IH]; [reflexivity|]. cbn [length chunks_n concat]. rewrite <- app_assoc.
  rewrite takeN_app_le by lia. rewrite takeN_all by lia. f_equal. rewrite dropN_app_ge by lia. rewrite L, N.sub_diag, dropN_0. exact IH.
Qed.
Lemma chunks_full : forall bs ls, bs <> 0 -> full bs ls -> chunks_exact bs (concat ls) = ls.
Proof.
  intros bs ls B F. unfold chunks_exact. rewrite (full_len bs) by auto. rewrite N.mul_comm, N.div_mul by auto. unfold lenN. rewrite Nat2N.id.
  rewrite <- (app_nil_r (concat ls)). now apply chunks_n_full.
Qed.
Lemma cut_full : forall bs ls fuel r, bs <> 0 -> full bs ls -> lenN r < bs -> (length ls < fuel)%nat ->
  cut fuel bs (concat ls ++ r) = ls ++ match r with [] => [] | _ => [r] end.
Proof.
  intros bs ls fuel r B F R. revert fuel. induction F as [|b ls L H IH]; intros [|fuel] FU; try (cbn [length] in FU; lia).
  - cbn [concat app cut]. destruct r as [|x r]; [reflexivity|]. rewrite takeN_all by lia. rewrite dropN_all by lia. destruct fuel; reflexivity.
  - cbn [concat cut]. rewrite <- app_assoc. destruct (b ++ concat ls ++ r) eqn:E.
    + destruct b; [rewrite lenN_nil in L; lia|discriminate].
    + rewrite <- E. clear E. rewrite takeN_app_le by lia. rewrite takeN_all by lia. rewrite dropN_app_ge by lia. rewrite L, N.sub_diag, dropN_0. cbn [app]. f_equal. apply IH. cbn [length] in FU. lia.
Qed.
Lemma blocks_full : forall bs ls, bs <> 0 -> full bs ls -> blocks bs (concat ls) = ls.
Proof.
  intros bs ls B F. unfold blocks. destruct ls as [|b ls0] eqn:E; [reflexivity|]. rewrite <- E in *.
  rewrite <- (app_nil_r (concat ls)) at 2. destruct (Nat.eq_dec (length ls) (length (concat ls))) as [EQ|NE].
  - (* bs = 1: one more unit of fuel is not available, but the list is exhausted *)
    assert (G : forall ls fuel, full bs ls -> (length ls <= fuel)%nat -> cut fuel bs (concat ls ++ []) = ls).
    { clear -B. intros ls fuel F. revert fuel. induction F as [|b ls L H IH]; intros [|fuel] FU; try (cbn [length] in FU; lia); try reflexivity.
      cbn [concat cut]. rewrite <- app_assoc. destruct (b ++ concat ls ++ []) eqn:E; [destruct b; [rewrite lenN_nil in L; lia|discriminate]|].
      rewrite <- E. clear E. rewrite takeN_app_le by lia. rewrite takeN_all by lia. rewrite dropN_app_ge by lia. rewrite L, N.sub_diag, dropN_0. f_equal. apply IH. cbn [length] in FU. lia. }
    apply G; auto. lia.
  - rewrite cut_full; auto; [apply app_nil_r|rewrite lenN_nil; lia|]. pose proof (full_len bs ls F) as L. unfold lenN in L. nia.
Qed.
(** every byte string is full blocks and a shorter rest *)
Lemma split_blocks : forall bs l, bs <> 0 -> exists ls r, l = concat ls ++ r /\ full bs ls /\ lenN r < bs.
Proof.
  intros bs l B. remember (length l) as n eqn:E. assert (LE : (length l <= n)%nat) by lia. clear E. revert l LE. induction n as [|n IH]; intros l LE.
  - destruct l; [|cbn [length] in LE; lia]. exists [], []. split; [reflexivity|]. split; [constructor|rewrite lenN_nil; lia].
  - destruct (N.lt_ge_cases (lenN l) bs) as [L|L]; [exists [], l; split; [reflexivity|]; split; [constructor|auto]|].
    destruct (IH (dropN bs l)) as (ls & r & E & F & R); [unfold dropN; rewrite skipn_length; unfold lenN in L; lia|].
    exists (takeN bs l :: ls), r. split; [cbn [concat]; rewrite <- app_assoc, <- E, takeN_dropN; reflexivity|]. split; [constructor; auto; rewrite lenN_takeN; lia|auto].
Qed.
Lemma full_app : forall bs a b, full bs (a ++ b) <-> full bs a /\ full bs b.
Proof. intros. apply Forall_app. Qed.

Lemma copy_in_ok : forall i src buf, i + lenN src <= lenN buf -> copy_in i src buf = Ret (takeN i buf ++ src ++ dropN (i + lenN src) buf).
Proof. intros. unfold copy_in. destruct (N.leb_spec (i + lenN src) (lenN buf)); [reflexivity|lia]. Qed.
Lemma copy_in_len : forall i (src buf : bytes), i + lenN src <= lenN buf -> lenN (takeN i buf ++ src ++ dropN (i + lenN src) buf) = lenN buf.
Proof. intros. rewrite !lenN_app, lenN_takeN, lenN_dropN. lia. Qed.

Section Engine.
  Context {St : Type}.
  Variable bs : N.
  Variable comp : St -> bytes -> St.
  Hypothesis BS : bs <> 0.
  Lemma process_full : forall h ls, full bs ls -> ls <> [] -> process_blocks bs comp h (concat ls) = Ret (fold_left comp ls h).
  Proof.
    intros h ls F NE. unfold process_blocks. rewrite (full_len bs) by auto. rewrite N.mul_comm, N.mod_mul by auto.
    destruct ls as [|b ls]; [congruence|]. rewrite lenN_cons. destruct (N.eqb_spec ((1 + lenN ls) * bs) 0) as [X|_]; [nia|]. cbn [negb orb].
    rewrite N.eqb_refl. cbn [negb]. now rewrite chunks_full.
  Qed.
  Lemma process_one : forall h b, lenN b = bs -> process_blocks bs comp h b = Ret (comp h b).
  Proof.
    intros h b L. pose proof (process_full h [b] ltac:(constructor; auto; constructor) ltac:(discriminate)) as P. cbn [concat fold_left] in P. now rewrite app_nil_r in P.
  Qed.
  (** the engine has absorbed [m] after a state [h0] that stands for [n0] bytes *)
  Definition absorbed (h0 : St) (n0 : N) (m : bytes) (e : @engine St) : Prop :=
    exists ls r, m = concat ls ++ r /\ full bs ls /\ lenN r < bs /\ n0 mod bs = 0 /\
      e_h e = fold_left comp ls h0 /\ e_n e = n0 + lenN m /\ lenN (e_buf e) = bs /\ takeN (lenN r) (e_buf e) = r.
  Lemma mod_rest : forall n0 ls r, n0 mod bs = 0 -> full bs ls -> lenN r < bs -> (n0 + lenN (concat ls ++ r)) mod bs = lenN r.
  Proof.
    intros n0 ls r Z F R. rewrite lenN_app, (full_len bs) by auto. apply N.mod_divides in Z as [q ->]; auto.
    replace (bs * q + (bs * lenN ls + lenN r)) with (lenN r + (q + lenN ls) * bs) by ring. rewrite N.mod_add by auto. now apply N.mod_small.
  Qed.
  Lemma new_absorbed : forall iv, absorbed iv 0 [] (engine_new bs iv).
  Proof.
    intro iv. exists [], []. split; [reflexivity|]. split; [constructor|]. split; [rewrite lenN_nil; lia|]. split; [now apply N.mod_0_l|].
    split; [reflexivity|]. split; [reflexivity|]. split; [|reflexivity]. cbn [engine_new e_buf]. unfold lenN. rewrite repeat_length. lia.
  Qed.
  Lemma input_absorbed : forall h0 n0 m e x, absorbed h0 n0 m e -> n0 + lenN m + lenN x < 2 ^ 64 ->
    exists e', input bs comp e x = Ret e' /\ absorbed h0 n0 (m ++ x) e'.
  Proof.
    intros h0 n0 m e x (ls & r & ME & F & R & Z & H & EN & LB & TB) LT. unfold input, incomplete_block_len.
    rewrite EN, ME, mod_rest by auto. rewrite <- ME. unfold u64_ck. destruct (N.ltb_spec (n0 + lenN m + lenN x) (2 ^ 64)) as [_|]; [|lia]. cbn [rbind].
    destruct (N.ltb_spec (lenN r + lenN x) bs) as [S|S].
    - rewrite copy_in_ok by lia. cbn [rbind]. eexists. split; [reflexivity|]. exists ls, (r ++ x). cbn [e_h e_n e_buf].
      split; [now rewrite ME, app_assoc|]. split; [auto|]. split; [rewrite lenN_app; lia|]. split; [auto|]. split; [auto|]. split; [rewrite lenN_app; lia|].
      split; [rewrite copy_in_len; lia|]. rewrite TB, app_assoc. rewrite takeN_app_le by lia. now apply takeN_all.
    - assert (STEP : forall b h ls1 x1, lenN b = bs -> full bs ls1 -> m ++ x = concat ls1 ++ x1 -> h = fold_left comp ls1 h0 ->
        exists e', (let full_blocks := lenN x1 / bs * bs in
          rbind (if 0 <? full_blocks then process_blocks bs comp h (takeN full_blocks x1) else Ret h) (fun h =>
          rbind (copy_in 0 (dropN full_blocks x1) b) (fun b => Ret (mk_engine b h (n0 + lenN m + lenN x))))) = Ret e' /\ absorbed h0 n0 (m ++ x) e').
      { intros b h ls1 x1 LB1 F1 E1 H1. destruct (split_blocks bs x1 BS) as (ls2 & r2 & E2 & F2 & R2). cbv zeta.
        assert (FB : lenN x1 / bs * bs = lenN (concat ls2)).
        { rewrite E2, lenN_app, (full_len bs) by auto. rewrite (N.mul_comm bs), N.div_add_l by auto. rewrite (N.div_small (lenN r2)) by auto. lia. }
        rewrite FB, E2. rewrite takeN_app_le by lia. rewrite (takeN_all (lenN (concat ls2))) by lia. rewrite dropN_app_ge by lia. rewrite N.sub_diag, dropN_0.
        assert (PB : (if 0 <? lenN (concat ls2) then process_blocks bs comp h (concat ls2) else Ret h) = Ret (fold_left comp ls2 h)).
        { destruct (N.ltb_spec 0 (lenN (concat ls2))) as [P|P].
          - apply process_full; auto. intros ->. rewrite lenN_nil in P. lia.
          - destruct ls2 as [|b2 ls2]; [reflexivity|]. rewrite (full_len bs), lenN_cons in P by auto. nia. }
        rewrite PB. cbn [rbind]. rewrite copy_in_ok by lia. cbn [rbind]. eexists. split; [reflexivity|].
        exists (ls1 ++ ls2), r2. cbn [e_h e_n e_buf]. split; [rewrite E1, E2, concat_app, app_assoc; reflexivity|]. split; [now apply full_app|]. split; [auto|]. split; [auto|].
        split; [rewrite fold_left_app, H1; reflexivity|]. split; [rewrite lenN_app; lia|]. split; [rewrite copy_in_len; lia|]. rewrite takeN_0. cbn [app].
        rewrite takeN_app_le by lia. now apply takeN_all. }
      destruct (N.ltb_spec 0 (lenN r)) as [P|P].
      + cbv zeta. destruct (N.leb_spec (bs - lenN r) (lenN x)); [|lia]. assert (LT1 : lenN (takeN (bs - lenN r) x) = bs - lenN r) by (rewrite lenN_takeN; lia).
        rewrite copy_in_ok by lia. cbn [rbind]. rewrite LT1. replace (lenN r + (bs - lenN r)) with bs by lia. rewrite TB. rewrite (dropN_all bs) by lia. rewrite app_nil_r.
        assert (LB1 : lenN (r ++ takeN (bs - lenN r) x) = bs) by (rewrite lenN_app; lia). rewrite process_one by auto. cbn [rbind].
        apply (STEP _ _ (ls ++ [r ++ takeN (bs - lenN r) x])); auto.
        * apply full_app. split; auto. constructor; [auto|constructor].
        * rewrite ME, concat_app. cbn [concat]. rewrite app_nil_r, <- !app_assoc. now rewrite takeN_dropN.
        * rewrite fold_left_app, H. reflexivity.
      + cbn [rbind]. assert (r = []) by (destruct r; auto; rewrite lenN_cons in P; lia). subst r. apply (STEP _ _ ls); auto. rewrite ME, app_nil_r. reflexivity.
  Qed.
  Lemma input_all_absorbed : forall h0 n0 ps m e, absorbed h0 n0 m e -> n0 + lenN m + lenN (concat ps) < 2 ^ 64 ->
    exists e', input_all bs comp e ps = Ret e' /\ absorbed h0 n0 (m ++ concat ps) e'.
  Proof.
    intros h0 n0. induction ps as [|p ps IH]; intros m e A L; cbn [input_all concat] in *.
    - exists e. split; [reflexivity|]. now rewrite app_nil_r.
    - rewrite lenN_app in L. destruct (input_absorbed h0 n0 m e p A ltac:(lia)) as (e1 & E1 & A1). rewrite E1. cbn [rbind].
      destruct (IH (m ++ p) e1 A1 ltac:(rewrite lenN_app; lia)) as (e2 & E2 & A2). exists e2. split; [exact E2|]. now rewrite app_assoc.
  Qed.
  (** an engine that has absorbed [m] after a block-aligned [p] has absorbed [p ++ m] *)
  Lemma absorbed_prefix : forall iv p m e ls, p = concat ls -> full bs ls ->
    absorbed (fold_left comp ls iv) (lenN p) m e -> absorbed iv 0 (p ++ m) e.
  Proof.
    intros iv p m e ls -> FP (ls' & r & ME & F & R & Z & H & EN & LB & TB). exists (ls ++ ls'), r.
    split; [rewrite ME, concat_app, app_assoc; reflexivity|]. split; [now apply full_app|]. split; [auto|]. split; [now apply N.mod_0_l|].
    split; [now rewrite fold_left_app|]. split; [rewrite EN, lenN_app; lia|]. split; auto.
  Qed.

  Lemma repeat0_len : forall n, lenN (repeat 0 n) = N.of_nat n.
  Proof. intro n. unfold lenN. now rewrite repeat_length. Qed.
  Lemma fill_small : forall n, 0 < n <= bs -> fill bs n = bs - n.
  Proof.
    intros n H. unfold fill. destruct (N.eq_dec n bs) as [-> |NE]; [rewrite N.mod_same by auto; rewrite N.sub_0_r, N.mod_same by auto; lia|].
    rewrite (N.mod_small n) by lia. apply N.mod_small. lia.
  Qed.
  Lemma fill_big : forall n, bs < n <= 2 * bs -> fill bs n = 2 * bs - n.
  Proof.
    intros n H. unfold fill. destruct (N.eq_dec n (2 * bs)) as [-> |NE].
    - rewrite N.mod_mul by auto. rewrite N.sub_0_r, N.mod_same by auto. lia.
    - assert (n mod bs = n - bs) as ->.
      { replace n with ((n - bs) + 1 * bs) at 1 by lia. rewrite N.mod_add by auto. apply N.mod_small. lia. }
      rewrite N.mod_small by lia. lia.
  Qed.
  Lemma fill_add : forall q n, fill bs (bs * q + n) = fill bs n.
  Proof. intros q n. unfold fill. rewrite N.add_comm, N.mul_comm, N.mod_add by auto. reflexivity. Qed.
  (** finalisation *)
  Definition one (b : bytes) : bytes := b.
  Lemma finalize_md_spec : forall thr enc iv m e, 8 <= thr -> thr + 1 <= bs ->
    (forall v, lenN (enc v) = 8) -> absorbed iv 0 m e -> lenN m < 2 ^ 61 ->
    finalize_md bs comp thr enc e =
      Ret (iterate bs comp iv (m ++ 128 :: repeat 0 (N.to_nat (fill bs (lenN m + 1 + thr) + (thr - 8))) ++ enc (8 * lenN m))).
  Proof.
    intros thr enc iv m e T1 T2 EL (ls & r & ME & F & R & Z & H & EN & LB & TB) LM. unfold finalize_md, incomplete_block_len.
    rewrite EN, ME, mod_rest by auto. rewrite <- ME. change (lenN [128]) with 1 in *.
    assert (LO : lenN [128] = 1) by reflexivity.
    rewrite copy_in_ok by (rewrite LO; lia). cbn [rbind]. rewrite TB, LO. unfold fill_from. set (b1 := r ++ [128] ++ dropN (lenN r + 1) (e_buf e)).
    assert (LB1 : lenN b1 = bs) by (unfold b1; rewrite !lenN_app, LO, lenN_dropN; lia). rewrite LB1. destruct (N.leb_spec (lenN r + 1) bs) as [_|]; [|lia]. cbn [rbind].
    assert (TB1 : takeN (lenN r + 1) b1 = r ++ [128]).
    { unfold b1. rewrite app_assoc. rewrite takeN_app_le by (rewrite lenN_app, LO; lia). apply takeN_all. rewrite lenN_app, LO. lia. }
    rewrite TB1. set (z := N.to_nat (bs - (lenN r + 1))). set (b2 := (r ++ [128]) ++ repeat 0 z).
    assert (LB2 : lenN b2 = bs) by (unfold b2; rewrite !lenN_app, LO, repeat0_len; unfold z; lia).
    unfold u64_ck. destruct (N.ltb_spec (8 * (0 + lenN m)) (2 ^ 64)) as [_|X]; [|change (2 ^ 64) with (8 * 2 ^ 61) in X; lia].
    rewrite N.add_0_l. destruct (N.leb_spec (bs - thr) (lenN r)) as [S|S].
    - rewrite process_one by auto. cbn [rbind]. unfold fill_to. rewrite LB2. destruct (N.leb_spec (bs - 8) bs) as [_|]; [|lia]. cbn [rbind].
      set (b3 := repeat 0 (N.to_nat (bs - 8)) ++ dropN (bs - 8) b2). assert (LB3 : lenN b3 = bs) by (unfold b3; rewrite lenN_app, repeat0_len, lenN_dropN; lia).
      rewrite copy_in_ok by (rewrite EL; lia). cbn [rbind]. rewrite EL. replace (bs - 8 + 8) with bs by lia. rewrite (dropN_all bs b3) by lia. rewrite app_nil_r.
      assert (TB3 : takeN (bs - 8) b3 = repeat 0 (N.to_nat (bs - 8))).
      { unfold b3. rewrite takeN_app_le by (rewrite repeat0_len; lia). apply takeN_all. rewrite repeat0_len. lia. }
      rewrite TB3. rewrite process_one by (rewrite lenN_app, repeat0_len, EL; lia). f_equal. unfold iterate.
      assert (FL : fill bs (lenN m + 1 + thr) = 2 * bs - (lenN r + 1 + thr)).
      { rewrite ME, lenN_app, (full_len bs) by auto. rewrite <- !N.add_assoc, fill_add. rewrite fill_big by lia. lia. }
      rewrite FL. replace (m ++ 128 :: repeat 0 (N.to_nat (2 * bs - (lenN r + 1 + thr) + (thr - 8))) ++ enc (8 * lenN m))
        with (concat (ls ++ [b2; repeat 0 (N.to_nat (bs - 8)) ++ enc (8 * lenN m)])).
      + rewrite blocks_full; auto; [rewrite fold_left_app, H; reflexivity|]. apply full_app. split; auto.
        constructor; [auto|]. constructor; [rewrite lenN_app, repeat0_len, EL; lia|constructor].
      + rewrite concat_app. cbn [concat]. rewrite app_nil_r. rewrite ME. rewrite <- !app_assoc. f_equal. unfold b2. rewrite <- !app_assoc. f_equal. cbn [app]. f_equal.
        rewrite app_assoc. f_equal. rewrite <- repeat_app. f_equal. unfold z. lia.
    - cbn [rbind]. rewrite copy_in_ok by (rewrite EL; lia). cbn [rbind]. rewrite EL. replace (bs - 8 + 8) with bs by lia. rewrite (dropN_all bs b2) by lia. rewrite app_nil_r.
      assert (TB2 : takeN (bs - 8) b2 = (r ++ [128]) ++ repeat 0 (N.to_nat (bs - 8 - (lenN r + 1)))).
      { unfold b2. replace z with (N.to_nat (bs - 8 - (lenN r + 1)) + N.to_nat 8)%nat by (unfold z; lia). rewrite repeat_app, app_assoc.
        rewrite takeN_app_le by (rewrite !lenN_app, LO, repeat0_len; lia). apply takeN_all. rewrite !lenN_app, LO, repeat0_len. lia. }
      rewrite TB2. rewrite process_one by (rewrite !lenN_app, LO, repeat0_len, EL; lia). f_equal. unfold iterate.
      assert (FL : fill bs (lenN m + 1 + thr) = bs - (lenN r + 1 + thr)).
      { rewrite ME, lenN_app, (full_len bs) by auto. rewrite <- !N.add_assoc, fill_add. rewrite fill_small by lia. lia. }
      rewrite FL. replace (m ++ 128 :: repeat 0 (N.to_nat (bs - (lenN r + 1 + thr) + (thr - 8))) ++ enc (8 * lenN m))
        with (concat (ls ++ [((r ++ [128]) ++ repeat 0 (N.to_nat (bs - 8 - (lenN r + 1)))) ++ enc (8 * lenN m)])).
      + rewrite blocks_full; auto; [rewrite fold_left_app, H; reflexivity|]. apply full_app. split; auto.
        constructor; [|constructor]. rewrite !lenN_app, LO, repeat0_len, EL. lia.
      + rewrite concat_app. cbn [concat]. rewrite app_nil_r. rewrite ME. rewrite <- !app_assoc. f_equal. f_equal. cbn [app]. f_equal.
        f_equal. f_equal. lia.
  Qed.
  Lemma finalize_sha3_spec : forall iv m e, 2 <= bs -> absorbed iv 0 m e ->
    finalize_sha3 bs comp e = Ret (iterate bs comp iv (sha3_pad bs m)).
  Proof.
    intros iv m e B2 (ls & r & ME & F & R & Z & H & EN & LB & TB). unfold finalize_sha3, incomplete_block_len.
    rewrite EN, ME, mod_rest by auto. rewrite <- ME. unfold fill_from. rewrite LB. destruct (N.leb_spec (lenN r + 1) bs) as [_|]; [|lia]. cbn [rbind].
    assert (LO : forall x : N, lenN [x] = 1) by reflexivity. set (z := N.to_nat (bs - (lenN r + 1))).
    assert (LB1 : lenN (takeN (lenN r + 1) (e_buf e) ++ repeat 0 z) = bs) by (rewrite lenN_app, lenN_takeN, repeat0_len; unfold z; lia).
    rewrite copy_in_ok by (rewrite LO; lia). rewrite LO. cbn [rbind]. rewrite takeN_app_le by (rewrite lenN_takeN; lia).
    assert (takeN (lenN r) (takeN (lenN r + 1) (e_buf e)) = r) as ->.
    { unfold takeN in *. rewrite firstn_firstn. replace (Nat.min (N.to_nat (lenN r)) (N.to_nat (lenN r + 1))) with (N.to_nat (lenN r)) by lia. exact TB. }
    rewrite dropN_app_ge by (rewrite lenN_takeN; lia). assert (lenN r + 1 - lenN (takeN (lenN r + 1) (e_buf e)) = 0) as -> by (rewrite lenN_takeN; lia). rewrite dropN_0.
    set (b := r ++ [6] ++ repeat 0 z). assert (LBB : lenN b = bs) by (unfold b; rewrite !lenN_app, LO, repeat0_len; unfold z; lia).
    assert (FL : fill bs (lenN m + 1) = bs - (lenN r + 1)).
    { rewrite ME, lenN_app, (full_len bs) by auto. rewrite <- N.add_assoc, fill_add. apply fill_small. lia. }
    unfold sha3_pad. rewrite FL. destruct (N.eqb_spec (bs - (lenN r + 1)) 0) as [E0|E0].
    - assert (z = 0%nat) by (unfold z; lia). assert (b = r ++ [6]) as -> by (unfold b; rewrite H0; reflexivity).
      assert (RB : bs - 1 = lenN r) by lia. rewrite RB. assert (NE : nth_error (r ++ [6]) (N.to_nat (lenN r)) = Some 6).
      { unfold lenN. rewrite Nat2N.id, nth_error_app2 by lia. now rewrite Nat.sub_diag. }
      rewrite NE. change (N.lxor 6 128) with 134. rewrite copy_in_ok by (rewrite LO, lenN_app, LO; lia). cbn [rbind]. rewrite LO.
      rewrite takeN_app_le by lia. rewrite takeN_all by lia. rewrite dropN_all by (rewrite lenN_app, LO; lia). rewrite app_nil_r.
      rewrite process_one by (rewrite lenN_app, LO; lia). f_equal. unfold iterate.
      replace (m ++ [134]) with (concat (ls ++ [r ++ [134]])) by (rewrite ME, concat_app; cbn [concat]; now rewrite app_nil_r, app_assoc).
      rewrite blocks_full; auto; [rewrite fold_left_app, H; reflexivity|]. apply full_app. split; auto. constructor; [rewrite lenN_app, LO; lia|constructor].
    - set (z' := N.to_nat (bs - (lenN r + 1) - 1)). assert (ZE : z = S z') by (unfold z, z'; lia).
      assert (BE : b = (r ++ [6] ++ repeat 0 z') ++ [0]).
      { unfold b. rewrite ZE, <- !app_assoc. f_equal. f_equal. change [0] with (repeat 0 1). rewrite <- repeat_app. f_equal. lia. }
      set (b' := r ++ [6] ++ repeat 0 z') in *. assert (LB' : lenN b' = bs - 1) by (unfold b'; rewrite !lenN_app, LO, repeat0_len; unfold z'; lia).
      rewrite BE. assert (NE : nth_error (b' ++ [0]) (N.to_nat (bs - 1)) = Some 0).
      { rewrite <- LB'. unfold lenN. rewrite Nat2N.id, nth_error_app2 by lia. now rewrite Nat.sub_diag. }
      rewrite NE. change (N.lxor 0 128) with 128. rewrite copy_in_ok by (rewrite LO, lenN_app, LO; lia). cbn [rbind]. rewrite LO.
      rewrite takeN_app_le by lia. rewrite takeN_all by lia. rewrite dropN_all by (rewrite lenN_app, LO; lia). rewrite app_nil_r.
      rewrite process_one by (rewrite lenN_app, LO; lia). f_equal. unfold iterate.
      fold z'. replace (m ++ 6 :: repeat 0 z' ++ [128]) with (concat (ls ++ [b' ++ [128]])).
      + rewrite blocks_full; auto; [rewrite fold_left_app, H; reflexivity|]. apply full_app. split; auto. constructor; [rewrite lenN_app, LO; lia|constructor].
      + rewrite ME, concat_app. cbn [concat]. rewrite app_nil_r, <- app_assoc. f_equal. unfold b'. rewrite <- !app_assoc. reflexivity.
  Qed.
End Engine.
