(** Lemmas: the code's SHA-2 compression is the standard's. *)
From Verif Require Import Base MDec LDec LU256 MHash SHash LHash MSha2 SSha2.
Local Open Scope N_scope.

(** * Words *)
Lemma rotl_rotr : forall w n x, x < 2 ^ w -> n <= w -> rotl w (w - n) x = rotr w n x.
Proof.
  intros w n x X NW. unfold rotl, rotr. replace (w - (w - n)) with n by lia. rewrite N.shiftl_mul_pow2, N.shiftr_div_pow2.
  assert (P0 : 2 ^ n <> 0) by (apply N.pow_nonzero; lia). assert (Q0 : 2 ^ (w - n) <> 0) by (apply N.pow_nonzero; lia).
  replace (2 ^ w) with (2 ^ n * 2 ^ (w - n)) by (rewrite <- N.pow_add_r; f_equal; lia).
  rewrite N.mul_mod_distr_r by auto. rewrite N.lor_comm. rewrite lor_low; [reflexivity|].
  apply N.div_lt_upper_bound; auto. rewrite <- N.pow_add_r. replace (n + (w - n)) with w by lia. exact X.
Qed.
Lemma testbit_high : forall w x i, x < 2 ^ w -> w <= i -> N.testbit x i = false.
Proof.
  intros w x i X I. destruct (N.eq_dec x 0) as [-> |NZ]; [apply N.bits_0|]. apply N.bits_above_log2.
  apply N.log2_lt_pow2 in X; lia.
Qed.
Lemma ch_eq : forall w x y z, x < 2 ^ w -> y < 2 ^ w -> z < 2 ^ w -> Ch x y z = ch w x y z.
Proof.
  intros w x y z X Y Z. apply N.bits_inj. intro i. unfold Ch, ch. rewrite !N.lxor_spec, !N.land_spec, !N.lxor_spec.
  destruct (N.lt_ge_cases i w) as [L|G].
  - rewrite N.lnot_spec_low by auto. destruct (N.testbit x i), (N.testbit y i), (N.testbit z i); reflexivity.
  - rewrite (testbit_high w x), (testbit_high w y), (testbit_high w z) by auto. now rewrite !andb_false_r.
Qed.
Lemma maj_eq : forall x y z, Maj x y z = maj x y z.
Proof.
  intros x y z. apply N.bits_inj. intro i. unfold Maj, maj. rewrite !N.lxor_spec, !N.lor_spec, !N.land_spec, !N.lor_spec.
  destruct (N.testbit x i), (N.testbit y i), (N.testbit z i); reflexivity.
Qed.

(** * Registers and message words *)
Definition ord (t : nat) : list nat := map (fun j => (j + 8 - t mod 8) mod 8)%nat (seq 0 8).
Definition role (t : nat) (r : list N) : list N := map (fun i => nth i r 0) (ord t).
Definition win (t : nat) (w : list N) : list N := map (fun j => nth ((t + j) mod 16) w 0) (seq 0 16).
Definition word_std (t : nat) : word :=
  if (t <? 16)%nat then WRead t
  else WSet (t mod 16) [TW (t mod 16); TS1 ((t + 14) mod 16); TW ((t + 9) mod 16); TS0 ((t + 1) mod 16)].
Definition std_instr (K : list N) (t : nat) : instr := Ins (ord t) (nth t K 0) (word_std t).
Definition std_table (K : list N) : list instr := map (std_instr K) (seq 0 (length K)).

Lemma upd_length : forall i v l, length (upd i v l) = length l.
Proof. intros i v l. revert i. induction l as [|x l IH]; intros [|i]; cbn [upd length]; auto. Qed.
Lemma mod8_cases : forall t, (t mod 8 = 0 \/ t mod 8 = 1 \/ t mod 8 = 2 \/ t mod 8 = 3 \/ t mod 8 = 4 \/ t mod 8 = 5 \/ t mod 8 = 6 \/ t mod 8 = 7)%nat.
Proof. intro t. pose proof (Nat.mod_upper_bound t 8). lia. Qed.
Lemma len8 : forall (r : list N), length r = 8%nat -> exists a b c d e f g h, r = [a; b; c; d; e; f; g; h].
Proof. intros r L. do 8 (destruct r as [|? r]; [discriminate|]). destruct r; [|discriminate]. repeat eexists. Qed.
Lemma len16 : forall (r : list N), length r = 16%nat -> exists a b c d e f g h a' b' c' d' e' f' g' h',
  r = [a; b; c; d; e; f; g; h; a'; b'; c'; d'; e'; f'; g'; h'].
Proof. intros r L. do 16 (destruct r as [|? r]; [discriminate|]). destruct r; [|discriminate]. repeat eexists. Qed.

Lemma combine_app : forall (A B : Type) (a a' : list A) (b b' : list B), length a = length b -> combine a b ++ combine a' b' = combine (a ++ a') (b ++ b').
Proof.
  intros A B. induction a as [|x a IH]; intros a' [|y b] b' H; cbn [length] in H; try discriminate; [reflexivity|]. cbn [combine app].
  rewrite IH by congruence. reflexivity.
Qed.
Lemma map_nth_seq : forall l, map (fun i => nth i l 0) (seq 0 (length l)) = l.
Proof. induction l as [|x l IH]; [reflexivity|]. cbn [length seq map nth]. rewrite <- seq_shift, map_map. cbn [nth]. rewrite IH. reflexivity. Qed.

Section Ops.
  Variable o : sha2_ops.
  Variable f : fips.
  Let W := 2 ^ wd o.
  Definition small (l : list N) : Prop := Forall (fun x => x < W) l.
  Definition mstep (r : list N) (k w : N) : list N :=
    match r with
    | [a; b; c; d; e; x; g; h] =>
        let t1 := wadd (wd o) (wadd (wd o) (wadd (wd o) (wadd (wd o) h (S1 o e)) (Ch e x g)) k) w in
        let t2 := wadd (wd o) (S0 o a) (Maj a b c) in
        [wadd (wd o) t1 t2; a; b; c; wadd (wd o) d t1; e; x; g]
    | _ => r
    end.
  Lemma round_length : forall od k w r, length (round o od k w r) = length r.
  Proof. intros od k w r. unfold round. do 9 (destruct od as [|? od]; try reflexivity). now rewrite !upd_length. Qed.
  Lemma round_mstep : forall t k w r, length r = 8%nat -> role (S t) (round o (ord t) k w r) = mstep (role t r) k w.
  Proof.
    intros t k w r L. apply len8 in L as (a & b & c & d & e & x & g & h & ->). unfold role, ord.
    assert (E : (S t mod 8 = (t mod 8 + 1) mod 8)%nat) by (rewrite Nat.add_mod_idemp_l by lia; f_equal; lia). rewrite E. clear E.
    destruct (mod8_cases t) as [H|[H|[H|[H|[H|[H|[H|H]]]]]]]; rewrite H; reflexivity.
  Qed.
  Lemma role0 : forall t r, (t mod 8 = 0)%nat -> length r = 8%nat -> role t r = r.
  Proof. intros t r M L. apply len8 in L as (a & b & c & d & e & x & g & h & ->). unfold role, ord. rewrite M. reflexivity. Qed.
  Lemma role_length : forall t r, length (role t r) = 8%nat.
  Proof. reflexivity. Qed.
  Lemma win_length : forall t w, length (win t w) = 16%nat.
  Proof. reflexivity. Qed.
  Lemma win0 : forall t w, (t mod 16 = 0)%nat -> length w = 16%nat -> win t w = w.
  Proof.
    intros t w M L. apply len16 in L as (a & b & c & d & e & x & g & h & a' & b' & c' & d' & e' & f' & g' & h' & ->). unfold win.
    rewrite (map_ext (fun j => nth ((t + j) mod 16) _ 0) (fun j => nth ((t mod 16 + j) mod 16)
      [a; b; c; d; e; x; g; h; a'; b'; c'; d'; e'; f'; g'; h'] 0)) by (intro j; now rewrite Nat.add_mod_idemp_l by lia).
    rewrite M. reflexivity.
  Qed.
  (** the code's computation of one message word in the circular array *)
  Definition mnext (v : list N) : N :=
    wadd (wd o) (wadd (wd o) (wadd (wd o) (nth 0 v 0) (s1 o (nth 14 v 0))) (nth 9 v 0)) (s0 o (nth 1 v 0)).
  Lemma word_win : forall t w, length w = 16%nat ->
    let x := sum_val o w [TW (t mod 16); TS1 ((t + 14) mod 16); TW ((t + 9) mod 16); TS0 ((t + 1) mod 16)] in
    x = mnext (win t w) /\ win (S t) (upd (t mod 16) x w) = tl (win t w) ++ [x].
  Proof.
    intros t w L. apply len16 in L as (a & b & c & d & e & x0 & g & h & a' & b' & c' & d' & e' & f' & g' & h' & ->). cbv zeta. split.
    - unfold sum_val, fold_left, term_val, mnext, win. cbn [map seq nth]. rewrite Nat.add_0_r. reflexivity.
    - generalize (sum_val o [a; b; c; d; e; x0; g; h; a'; b'; c'; d'; e'; f'; g'; h'] [TW (t mod 16); TS1 ((t + 14) mod 16); TW ((t + 9) mod 16); TS0 ((t + 1) mod 16)]). intro v.
      unfold win. rewrite (map_ext (fun j => nth ((S t + j) mod 16) (upd (t mod 16) v _) 0) (fun j => nth ((t mod 16 + S j) mod 16)
        (upd (t mod 16) v [a; b; c; d; e; x0; g; h; a'; b'; c'; d'; e'; f'; g'; h']) 0)) by (intro j; rewrite Nat.add_mod_idemp_l by lia; f_equal; f_equal; lia).
      rewrite (map_ext (fun j => nth ((t + j) mod 16) _ 0) (fun j => nth ((t mod 16 + j) mod 16)
        [a; b; c; d; e; x0; g; h; a'; b'; c'; d'; e'; f'; g'; h'] 0)) by (intro j; now rewrite Nat.add_mod_idemp_l by lia).
      pose proof (Nat.mod_upper_bound t 16 ltac:(lia)) as B. generalize dependent (t mod 16)%nat. intros q B.
      do 16 (destruct q as [|q]; [reflexivity|]). lia.
  Qed.
  Fixpoint slide (n : nat) (v : list N) : list N :=
    match n with O => [] | S n' => mnext v :: slide n' (tl v ++ [mnext v]) end.
  Definition kst (K : list N) (t n : nat) : list N := map (fun i => nth i K 0) (seq t n).
  Definition msteps (r : list N) (kws : list (N * N)) : list N := fold_left (fun r kw => mstep r (fst kw) (snd kw)) kws r.

  Lemma run_app : forall a b st, run o (a ++ b) st = run o b (run o a st).
  Proof.
    induction a as [|[od k x] a IH]; intros b st; [reflexivity|]. cbn [app run]. destruct (word_step o (snd st) x) as [v w]. apply IH.
  Qed.
  Lemma run_first : forall K n t r w, (t + n <= 16)%nat -> length r = 8%nat -> length w = 16%nat ->
    exists r', run o (map (std_instr K) (seq t n)) (r, w) = (r', w) /\ length r' = 8%nat /\
      role (t + n) r' = msteps (role t r) (combine (kst K t n) (firstn n (skipn t w))).
  Proof.
    intro K. induction n as [|n IH]; intros t r w T LR LW; cbn [seq map run].
    - exists r. split; [reflexivity|]. split; [auto|]. rewrite Nat.add_0_r. reflexivity.
    - unfold std_instr at 1. unfold word_std. destruct (Nat.ltb_spec t 16) as [_|]; [|lia]. cbn [fst snd word_step].
      destruct (IH (S t) (round o (ord t) (nth t K 0) (nth t w 0) r) w ltac:(lia) ltac:(now rewrite round_length) LW) as (r' & E & LR' & RO).
      exists r'. split; [exact E|]. split; [exact LR'|]. replace (t + S n)%nat with (S t + n)%nat by lia. rewrite RO. rewrite round_mstep by auto.
      assert (SK : skipn t w = nth t w 0 :: skipn (S t) w).
      { clear -LW T. revert w LW. assert (H : forall l, (t < length l)%nat -> skipn t l = nth t l 0 :: skipn (S t) l); [|intros w LW; apply H; lia].
        clear. induction t as [|t IH]; intros [|x l] H; cbn [length] in H; try lia; [reflexivity|]. cbn [skipn nth]. rewrite IH by lia. reflexivity. }
      rewrite SK. unfold kst. cbn [seq map firstn combine msteps fold_left fst snd]. reflexivity.
  Qed.
  Lemma run_rest : forall K n t r w, (16 <= t)%nat -> length r = 8%nat -> length w = 16%nat ->
    exists r' w', run o (map (std_instr K) (seq t n)) (r, w) = (r', w') /\ length r' = 8%nat /\ length w' = 16%nat /\
      role (t + n) r' = msteps (role t r) (combine (kst K t n) (slide n (win t w))).
  Proof.
    intro K. induction n as [|n IH]; intros t r w T LR LW; cbn [seq map run].
    - exists r, w. split; [reflexivity|]. split; [auto|]. split; [auto|]. rewrite Nat.add_0_r. reflexivity.
    - unfold std_instr at 1. unfold word_std. destruct (Nat.ltb_spec t 16) as [|_]; [lia|]. cbn [fst snd word_step].
      destruct (word_win t w LW) as [E1 E2]. set (x := sum_val o w [TW (t mod 16); TS1 ((t + 14) mod 16); TW ((t + 9) mod 16); TS0 ((t + 1) mod 16)]) in *.
      destruct (IH (S t) (round o (ord t) (nth t K 0) x r) (upd (t mod 16) x w) ltac:(lia) ltac:(now rewrite round_length) ltac:(now rewrite upd_length)) as (r' & w' & E & LR' & LW' & RO).
      exists r', w'. split; [exact E|]. split; [exact LR'|]. split; [exact LW'|]. replace (t + S n)%nat with (S t + n)%nat by lia. rewrite RO. rewrite round_mstep by auto.
      rewrite E2. unfold kst. cbn [seq map slide combine msteps fold_left fst snd]. rewrite <- E1. reflexivity.
  Qed.
  Lemma run_std : forall K r w, (16 <= length K)%nat -> (length K mod 8 = 0)%nat -> length r = 8%nat -> length w = 16%nat ->
    exists w', run o (std_table K) (r, w) = (msteps r (combine K (w ++ slide (length K - 16) w)), w') /\ length w' = 16%nat.
  Proof.
    intros K r w LK MK LR LW. unfold std_table.
    destruct (run_first K 16 0 r w ltac:(lia) LR LW) as (r1 & E1 & L1 & R1).
    destruct (run_rest K (length K - 16) 16 r1 w ltac:(lia) L1 LW) as (r2 & w2 & E2 & L2 & LW2 & R2).
    exists w2. split; auto. assert (SQ : seq 0 (length K) = seq 0 16 ++ seq 16 (length K - 16)).
    { replace (length K) with (16 + (length K - 16))%nat at 1 by lia. apply seq_app. }
    rewrite SQ, map_app, run_app, E1, E2. f_equal.
    rewrite (role0 (16 + (length K - 16)) r2) in R2 by (auto; replace (16 + (length K - 16))%nat with (length K) by lia; auto).
    rewrite R2. change (0 + 16)%nat with 16%nat in R1. rewrite R1. rewrite (role0 0) by auto. rewrite (win0 16) by auto.
    unfold msteps. rewrite <- fold_left_app. f_equal. cbn [skipn].
    rewrite combine_app by (unfold kst; rewrite map_length, seq_length, firstn_length, LW; reflexivity).
    unfold kst. rewrite <- map_app, <- SQ. rewrite (firstn_all2 w) by lia. f_equal.
    apply map_nth_seq.
  Qed.

  (** * Agreement with the standard *)
  Record agree : Prop := {
    ag_w : wd o = fw f;
    ag_S0 : forall x, x < W -> S0 o x = fS0 f x;
    ag_S1 : forall x, x < W -> S1 o x = fS1 f x;
    ag_s0 : forall x, x < W -> s0 o x = fs0 f x;
    ag_s1 : forall x, x < W -> s1 o x = fs1 f x }.
  Hypothesis AG : agree.
  Lemma W0 : W <> 0.
  Proof. apply N.pow_nonzero. lia. Qed.
  Lemma wadd_small : forall a b, wadd (wd o) a b < W.
  Proof. intros. apply N.mod_lt. apply W0. Qed.
  Lemma wadd_wadd : forall a b c, wadd (wd o) (wadd (wd o) a b) c = wadd (wd o) a (b + c).
  Proof. intros. unfold wadd. rewrite N.add_mod_idemp_l by apply W0. now rewrite N.add_assoc. Qed.
  Lemma mstep_step : forall r k w, small r -> length r = 8%nat -> mstep r k w = step f r (k, w) /\ small (mstep r k w) /\ length (mstep r k w) = 8%nat.
  Proof.
    intros r k w SM L. apply len8 in L as (a & b & c & d & e & x & g & h & ->). unfold small in SM.
    do 8 (inversion_clear SM as [|? ? ?B SM0]; rename SM0 into SM). unfold mstep, step. cbn [fst snd]. split; [|split; [|reflexivity]].
    - rewrite <- (ag_S1 AG), <- (ag_S0 AG) by auto. rewrite <- (ag_w AG). rewrite <- ch_eq by auto. rewrite <- maj_eq.
      assert (T1 : wadd (wd o) (wadd (wd o) (wadd (wd o) (wadd (wd o) h (S1 o e)) (Ch e x g)) k) w = (h + S1 o e + Ch e x g + k + w) mod 2 ^ wd o).
      { rewrite !wadd_wadd. unfold wadd. f_equal. lia. }
      rewrite T1. reflexivity.
    - repeat (constructor; try apply wadd_small; auto).
  Qed.
  Lemma msteps_steps : forall kws r, small r -> length r = 8%nat ->
    msteps r kws = fold_left (step f) kws r /\ small (msteps r kws) /\ length (msteps r kws) = 8%nat.
  Proof.
    induction kws as [|[k w] kws IH]; intros r SM L; [auto|]. unfold msteps. cbn [fold_left fst snd].
    destruct (mstep_step r k w SM L) as (E & SM' & L'). rewrite <- E. apply IH; auto.
  Qed.
  Lemma mnext_next : forall pre v, small v -> length v = 16%nat -> mnext v = next_word f (pre ++ v).
  Proof.
    intros pre v SM L. unfold next_word. rewrite app_length, L.
    rewrite !app_nth2 by lia. replace (length pre + 16 - 2 - length pre)%nat with 14%nat by lia. replace (length pre + 16 - 7 - length pre)%nat with 9%nat by lia.
    replace (length pre + 16 - 15 - length pre)%nat with 1%nat by lia. replace (length pre + 16 - 16 - length pre)%nat with 0%nat by lia.
    assert (B : forall i, nth i v 0 < W).
    { intro i. destruct (Nat.lt_ge_cases i (length v)) as [H|H]; [eapply Forall_forall in SM; [exact SM|now apply nth_In]|]. rewrite nth_overflow by auto. pose proof W0. lia. }
    rewrite <- (ag_s0 AG), <- (ag_s1 AG) by auto. unfold mnext. rewrite <- (ag_w AG). rewrite !wadd_wadd. unfold wadd. f_equal. lia.
  Qed.
  Lemma schedule_slide : forall n pre v, small v -> length v = 16%nat -> schedule f n (pre ++ v) = pre ++ v ++ slide n v.
  Proof.
    induction n as [|n IH]; intros pre v SM L; cbn [schedule slide]; [now rewrite app_nil_r|].
    rewrite <- mnext_next by auto. assert (E : exists x t, v = x :: t) by (destruct v; [discriminate|eauto]). destruct E as (x & t & E).
    replace ((pre ++ v) ++ [mnext v]) with ((pre ++ [x]) ++ (tl v ++ [mnext v])) by (rewrite E; cbn [tl]; now rewrite <- !app_assoc).
    rewrite IH.
    - rewrite <- !app_assoc. f_equal. clear SM L IH. subst v. reflexivity.
    - apply Forall_app. split; [rewrite E in SM |- *; now inversion SM|]. constructor; [apply wadd_small|constructor].
    - rewrite app_length. rewrite E in L |- *. cbn [tl length] in *. lia.
  Qed.
  Lemma wadd2_words : forall a b, wadd2 o a b = add_words f b a.
  Proof.
    unfold add_words. rewrite <- (ag_w AG). induction a as [|x a IH]; intros [|y b]; try reflexivity. cbn [wadd2 combine map fst snd]. rewrite IH. f_equal. unfold wadd, add_mod. f_equal. lia.
  Qed.
  Lemma wadd2_small : forall a b, length a = 8%nat -> length b = 8%nat -> small (wadd2 o a b) /\ length (wadd2 o a b) = 8%nat.
  Proof.
    intros a b LA LB. apply len8 in LA as (a0 & a1 & a2 & a3 & a4 & a5 & a6 & a7 & ->). apply len8 in LB as (b0 & b1 & b2 & b3 & b4 & b5 & b6 & b7 & ->).
    split; [|reflexivity]. cbn [wadd2]. repeat (constructor; try apply wadd_small).
  Qed.
  Hypothesis W8 : exists nb, wd o = 8 * nb /\ nb <> 0.
  Lemma be_words_of : forall b, lenN b mod (wd o / 8) = 0 -> be_words (wd o / 8) b = words_of f b.
  Proof.
    intros b M. unfold be_words, words_of. rewrite <- (ag_w AG). f_equal. destruct W8 as (nb & E & NZ). rewrite E in *.
    rewrite (N.mul_comm 8), N.div_mul in * by lia. destruct (split_blocks nb b NZ) as (ls & r & -> & F & R).
    rewrite lenN_app, (full_len nb) in M by auto. rewrite N.add_comm, N.mul_comm, N.mod_add in M by auto. rewrite N.mod_small in M by auto.
    destruct r; [|rewrite lenN_cons in M; lia]. rewrite app_nil_r. now rewrite chunks_full, blocks_full.
  Qed.
  Lemma be_words_small : forall b, bytes_ok b -> lenN b = 2 * wd o -> small (be_words (wd o / 8) b) /\ length (be_words (wd o / 8) b) = 16%nat.
  Proof.
    intros b OK L. unfold be_words. destruct W8 as (nb & E & NZ). unfold small, W. rewrite E in *.
    rewrite (N.mul_comm 8), N.div_mul by lia. destruct (split_blocks nb b NZ) as (ls & r & -> & F & R).
    rewrite lenN_app, (full_len nb) in L by auto. assert (r = [] /\ lenN ls = 16) as [-> LL].
    { assert (A : forall n q z : N, n <> 0 -> n * q + z = 2 * (8 * n) -> z < n -> z = 0 /\ q = 16).
      { clear. intros n q z NZ E Z. assert (q = 16) by nia. subst q. split; [lia|reflexivity]. }
      destruct (A nb (lenN ls) (lenN r) NZ L R) as [Z Q]. split; auto. destruct r; auto. rewrite lenN_cons in Z. lia. }
    rewrite app_nil_r in *. rewrite chunks_full by auto. rewrite map_length. split; [|apply Nat2N.inj; exact LL].
    clear -F OK. induction F as [|x ls L F IH]; cbn [map]; [constructor|]. cbn [concat] in OK. apply bytes_ok_app in OK as [O1 O2]. constructor; [|auto].
    unfold be_val. assert (RO : bytes_ok (rev x)) by (now apply Forall_rev). pose proof (le_val_lt (rev x) RO) as B.
    assert (LR : lenN (rev x) = nb) by (unfold lenN in *; rewrite rev_length; auto). rewrite LR in B. rewrite (N.mul_comm nb 8), N.pow_mul_r. exact B.
  Qed.
  Hypothesis K16 : (16 <= length (fK f))%nat.
  Hypothesis K8 : (length (fK f) mod 8 = 0)%nat.
  Lemma block_words : forall st w, small st -> length st = 8%nat -> small w -> length w = 16%nat ->
    wadd2 o st (fst (run o (std_table (fK f)) (st, w))) = add_words f (fold_left (step f) (combine (fK f) (schedule f (length (fK f) - 16) w)) st) st.
  Proof.
    intros st w SM L SW LW. destruct (run_std (fK f) st w K16 K8 L LW) as (w' & E & _). rewrite E. cbn [fst]. rewrite wadd2_words.
    pose proof (schedule_slide (length (fK f) - 16) [] w SW LW) as SC. cbn [app] in SC. rewrite SC.
    destruct (msteps_steps (combine (fK f) (w ++ slide (length (fK f) - 16) w)) st SM L) as (-> & _). reflexivity.
  Qed.
  Lemma sha2_block_spec : forall table st b, table = std_table (fK f) -> small st -> length st = 8%nat -> bytes_ok b -> lenN b = 2 * wd o ->
    sha2_block o table st b = compress f st b /\ small (compress f st b) /\ length (compress f st b) = 8%nat.
  Proof.
    intros table st b -> SM L OK LB. destruct (be_words_small b OK LB) as [SW LW].
    assert (MB : lenN b mod (wd o / 8) = 0).
    { rewrite LB. destruct W8 as (nb & E & NZ). rewrite E. rewrite (N.mul_comm 8), N.div_mul by lia. replace (2 * (nb * 8)) with (16 * nb) by lia. now apply N.mod_mul. }
    assert (E : sha2_block o (std_table (fK f)) st b = compress f st b).
    { unfold sha2_block, compress. rewrite block_words by auto. rewrite be_words_of by auto. reflexivity. }
    split; auto. rewrite <- E. unfold sha2_block. apply wadd2_small; auto.
    destruct (run_std (fK f) st (be_words (wd o / 8) b) K16 K8 L LW) as (w' & R & _). rewrite R. cbn [fst].
    apply (msteps_steps _ st SM L).
  Qed.
End Ops.
