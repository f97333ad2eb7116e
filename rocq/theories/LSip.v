(** Lemmas on SipHash. *)
From Verif Require Import Base MDec LDec LU256 MHash SHash LHash MSha2 SHash2 LSha2 LHash2 MSip SSip.
Local Open Scope N_scope.

Definition q4 (s : sip_state) : quad := (s_v0 s, s_v1 s, s_v2 s, s_v3 s).
Definition ok4 (s : sip_state) : Prop := s_v0 s < 2 ^ 64 /\ s_v1 s < 2 ^ 64 /\ s_v2 s < 2 ^ 64 /\ s_v3 s < 2 ^ 64.
Lemma wadd64_lt : forall a b, wadd 64 a b < 2 ^ 64.
Proof. intros. unfold wadd. apply N.mod_lt. lia. Qed.
Lemma rotl64_lt : forall n x, x < 2 ^ 64 -> n <= 64 -> rotl 64 n x < 2 ^ 64.
Proof. intros. rewrite rotl_rol by auto. now apply rol_lt. Qed.
#[local] Hint Resolve wadd64_lt rotl64_lt lxor_lt : sip.
Lemma compress_spec : forall s, ok4 s -> q4 (sip_compress s) = SipRound (q4 s) /\ ok4 (sip_compress s).
Proof.
  intros [v0 v1 v2 v3] (A & B & C & D). cbn [s_v0 s_v1 s_v2 s_v3] in *. unfold sip_compress, SipRound, q4. cbn [s_v0 s_v1 s_v2 s_v3].
  change plus64 with (wadd 64).
  set (a := wadd 64 v0 v1). set (b := N.lxor (rotl 64 13 v1) a). set (c := wadd 64 v2 v3). set (d := N.lxor (rotl 64 16 v3) c).
  assert (a < 2 ^ 64) by apply wadd64_lt. assert (c < 2 ^ 64) by apply wadd64_lt.
  assert (b < 2 ^ 64) by (apply lxor_lt; auto; apply rotl64_lt; auto; lia).
  assert (d < 2 ^ 64) by (apply lxor_lt; auto; apply rotl64_lt; auto; lia).
  assert (Eb : N.lxor (rol 64 13 v1) a = b) by (unfold b; rewrite rotl_rol by (auto; lia); reflexivity).
  assert (Ed : N.lxor (rol 64 16 v3) c = d) by (unfold d; rewrite rotl_rol by (auto; lia); reflexivity).
  rewrite Eb, Ed. set (a2 := wadd 64 (rotl 64 32 a) d). set (c2 := wadd 64 c b).
  assert (a2 < 2 ^ 64) by apply wadd64_lt. assert (c2 < 2 ^ 64) by apply wadd64_lt.
  assert (wadd 64 (rol 64 32 a) d = a2) as -> by (unfold a2; rewrite rotl_rol by (auto; lia); reflexivity).
  split.
  - rewrite <- !rotl_rol by (auto; lia). reflexivity.
  - unfold ok4. cbn [s_v0 s_v1 s_v2 s_v3]. repeat split; auto; try (apply lxor_lt; auto); apply rotl64_lt; auto; lia.
Qed.
Lemma rounds_spec : forall s, ok4 s -> (q4 (c_rounds s) = Nat.iter 2 SipRound (q4 s) /\ ok4 (c_rounds s)) /\ (q4 (d_rounds s) = Nat.iter 4 SipRound (q4 s) /\ ok4 (d_rounds s)).
Proof.
  intros s O. unfold c_rounds, d_rounds. cbn [Nat.iter nat_rect Nat.add].
  destruct (compress_spec s O) as [E1 O1]. destruct (compress_spec _ O1) as [E2 O2]. destruct (compress_spec _ O2) as [E3 O3]. destruct (compress_spec _ O3) as [E4 O4].
  rewrite E4, E3, E2, E1. auto.
Qed.
Lemma absorb_spec : forall s m, ok4 s -> m < 2 ^ 64 -> q4 (sip_absorb s m) = sip_word 2 (q4 s) m /\ ok4 (sip_absorb s m).
Proof.
  intros [v0 v1 v2 v3] m (A & B & C & D) M. cbn [s_v0 s_v1 s_v2 s_v3] in *. unfold sip_absorb, sip_word, q4. cbn [s_v0 s_v1 s_v2 s_v3].
  assert (O : ok4 (mk_ss v0 v1 v2 (N.lxor v3 m))) by (repeat split; cbn [s_v0 s_v1 s_v2 s_v3]; auto; now apply lxor_lt).
  destruct (proj1 (rounds_spec _ O)) as [E O']. unfold q4 at 2 in E. cbn [s_v0 s_v1 s_v2 s_v3] in E. rewrite <- E. clear E.
  destruct (c_rounds _) as [w0 w1 w2 w3]. destruct O' as (P & Q & R & T). unfold q4. cbn [s_v0 s_v1 s_v2 s_v3] in *. split; [reflexivity|].
  repeat split; cbn [s_v0 s_v1 s_v2 s_v3]; auto; now apply lxor_lt.
Qed.
Definition absorb_block (s : sip_state) (b : bytes) : sip_state := sip_absorb s (le_val b).
Lemma word8_lt : forall b, bytes_ok b -> lenN b <= 8 -> le_val b < 2 ^ 64.
Proof. intros b O L. eapply N.lt_le_trans; [apply le_val_lt, O|]. change (2 ^ 64) with (256 ^ 8). apply N.pow_le_mono_r; lia. Qed.
Lemma fold_absorb : forall ls s, full 8 ls -> bytes_ok (concat ls) -> ok4 s ->
  q4 (fold_left absorb_block ls s) = fold_left (sip_word 2) (map le_val ls) (q4 s) /\ ok4 (fold_left absorb_block ls s).
Proof.
  intros ls s F. revert s. induction F as [|b ls L F IH]; intros s O K; cbn [fold_left map]; [auto|]. cbn [concat] in O. apply bytes_ok_app in O. destruct O as [O1 O2].
  assert (M : le_val b < 2 ^ 64) by (apply word8_lt; auto; lia). destruct (absorb_spec s _ K M) as [E K']. rewrite <- E. apply IH; auto.
Qed.

(** * Reading *)
Lemma load_mid : forall pre x post i w, i + w <= lenN x -> load_int_le (pre ++ x ++ post) (lenN pre + i) w = Ret (le_val (takeN w (dropN i x))).
Proof.
  intros. unfold load_int_le. rewrite !lenN_app. rewrite (proj2 (N.leb_le _ _)) by lia. f_equal. f_equal.
  rewrite dropN_app_ge by lia. replace (lenN pre + i - lenN pre) with i by lia. rewrite dropN_app_le by lia. rewrite takeN_app_le by (rewrite lenN_dropN; lia). reflexivity.
Qed.
Lemma lor_shift : forall a b k, a < 2 ^ k -> N.lor a (N.shiftl b k) = a + b * 2 ^ k.
Proof. intros. rewrite N.shiftl_mul_pow2. now apply lor_low. Qed.
Lemma u8to64_spec : forall pre x post, bytes_ok x -> lenN x < 8 -> u8to64_le (pre ++ x ++ post) (lenN pre) (lenN x) = Ret (le_val x).
Proof.
  intros pre x post O L. assert (LD := fun i w => load_mid pre x post i w).
  destruct x as [|x0 [|x1 [|x2 [|x3 [|x4 [|x5 [|x6 [|x7 x]]]]]]]]; [..|rewrite !lenN_cons in L; lia];
  repeat match goal with H : bytes_ok (_ :: _) |- _ => apply bytes_ok_cons in H; destruct H as [? H] end; unfold byte_ok in *;
  match goal with |- context [lenN ?l] => match l with pre => fail 1 | _ => let n := eval vm_compute in (lenN l) in change (lenN l) with n end end;
  unfold u8to64_le; rewrite (proj2 (N.ltb_lt _ 8)) by lia;
  repeat (match goal with |- context [?a <? ?b] => let r := eval vm_compute in (a <? b) in change (a <? b) with r end; cbv iota;
    first [rewrite LD by (vm_compute; discriminate)|idtac];
    match goal with |- context [takeN ?w (dropN ?i ?l)] => let r := eval cbv [takeN dropN N.to_nat Pos.to_nat Pos.iter_op firstn skipn Nat.add N.add Pos.add Pos.succ] in (takeN w (dropN i l)) in change (takeN w (dropN i l)) with r | _ => idtac end; cbn [rbind]);
  match goal with |- context [?a =? ?b] => let r := eval vm_compute in (a =? b) in change (a =? b) with r end; cbv iota; f_equal; cbn [le_val];
  rewrite ?lor_shift by (rewrite ?lor_shift by (change (2 ^ ((0 + 4) * 8)) with (2 ^ 32); lia);
   match goal with |- context [2 ^ ?e] => let v := eval vm_compute in (2 ^ e) in change (2 ^ e) with v end; lia); try lia.
Qed.
Lemma loop_spec : forall ls fuel pre r s lim, full 8 ls -> (length ls < fuel)%nat -> lenN pre + 8 * lenN ls < lim + 8 -> lim <= lenN pre + 8 * lenN ls ->
  sip_loop fuel (pre ++ concat ls ++ r) lim s (lenN pre) = Ret (fold_left absorb_block ls s, lenN pre + 8 * lenN ls).
Proof.
  induction ls as [|b ls IH]; intros [|fuel] pre r s lim F FU L1 L2; try (cbn [length] in FU; lia); cbn [sip_loop fold_left].
  - rewrite lenN_nil in *. rewrite (proj2 (N.ltb_ge _ _)) by lia. f_equal. f_equal. lia.
  - apply Forall_cons_iff in F. destruct F as [B F]. rewrite lenN_cons in *. rewrite (proj2 (N.ltb_lt _ _)) by lia. cbn [concat]. rewrite <- app_assoc.
    pose proof (load_mid pre b (concat ls ++ r) 0 8 ltac:(lia)) as E. rewrite N.add_0_r, dropN_0, takeN_all in E by lia. rewrite E. cbn [rbind].
    rewrite app_assoc. replace (lenN pre + 8) with (lenN (pre ++ b)) by (rewrite lenN_app; lia).
    rewrite IH; [|auto|cbn [length] in FU; lia|rewrite lenN_app; lia|rewrite lenN_app; lia]. f_equal. f_equal. rewrite lenN_app. lia.
Qed.
Lemma full_length : forall ls, full 8 ls -> (length ls <= length (concat ls))%nat.
Proof. intros ls F. pose proof (full_len 8 ls F) as E. unfold lenN in E. lia. Qed.
Lemma land7 : forall q r, r < 8 -> N.land (8 * q + r) 7 = r.
Proof. intros. change 7 with (N.ones 3). rewrite N.land_ones. change (2 ^ 3) with 8. rewrite N.add_comm, N.mul_comm, N.mod_add by lia. now apply N.mod_small. Qed.
Lemma rest_spec : forall k0 k1 n st pre ls r, full 8 ls -> lenN r < 8 -> bytes_ok r -> lenN pre < 8 ->
  sip_rest k0 k1 n st (pre ++ concat ls ++ r) (lenN pre) = Ret (mk_se k0 k1 n (fold_left absorb_block ls st) (le_val r) (lenN r)).
Proof.
  intros k0 k1 n st pre ls r F R O P. unfold sip_rest. rewrite (proj2 (N.leb_le _ _)) by (rewrite lenN_app; lia). cbv zeta.
  replace (lenN (pre ++ concat ls ++ r) - lenN pre) with (8 * lenN ls + lenN r) by (rewrite !lenN_app, (full_len 8) by auto; lia).
  rewrite land7 by auto. replace (8 * lenN ls + lenN r - lenN r) with (8 * lenN ls) by lia.
  rewrite loop_spec; [|auto|rewrite !app_length; pose proof (full_length ls F); lia|lia|lia]. cbn [rbind].
  pose proof (u8to64_spec (pre ++ concat ls) r [] O R) as E. rewrite app_nil_r, <- app_assoc, lenN_app, (full_len 8) in E by auto. rewrite E. reflexivity.
Qed.

(** * The engine after absorbing [m] *)
Definition sip_abs (k0 k1 : N) (m : bytes) (e : sip_engine) : Prop :=
  exists ls r, m = concat ls ++ r /\ full 8 ls /\ lenN r < 8 /\
    e = mk_se k0 k1 (lenN m) (fold_left absorb_block ls (se_st (with_keys k0 k1))) (le_val r) (lenN r).
Lemma sip_new_abs : forall k0 k1, sip_abs k0 k1 [] (with_keys k0 k1).
Proof. intros. exists [], []. split; [reflexivity|]. split; [constructor|]. split; [rewrite lenN_nil; lia|]. reflexivity. Qed.
Lemma sip_input_abs : forall k0 k1 m e x, sip_abs k0 k1 m e -> bytes_ok m -> bytes_ok x -> lenN m + lenN x < 2 ^ 64 ->
  exists e', sip_input e x = Ret e' /\ sip_abs k0 k1 (m ++ x) e'.
Proof.
  intros k0 k1 m e x (ls & r & Em & F & R & ->) Om Ox L. unfold sip_input. cbn [se_n se_k0 se_k1 se_st se_tail se_ntail].
  unfold u64_ck. rewrite (proj2 (N.ltb_lt _ _) L). cbn [rbind]. assert (Or : bytes_ok r) by (rewrite Em in Om; now apply bytes_ok_app in Om).
  destruct (N.eqb_spec (lenN r) 0) as [Z|NZ].
  - destruct r; [|rewrite lenN_cons in Z; lia]. rewrite app_nil_r in Em. destruct (split_blocks 8 x ltac:(lia)) as (xs & xr & Ex & Fx & Rx).
    pose proof (rest_spec k0 k1 (lenN m + lenN x) (fold_left absorb_block ls (se_st (with_keys k0 k1))) [] xs xr Fx Rx ltac:(rewrite Ex in Ox; now apply bytes_ok_app in Ox) ltac:(rewrite lenN_nil; lia)) as E.
    cbn [app] in E. rewrite <- Ex in E. change (lenN []) with 0 in E. eexists. split; [exact E|]. exists (ls ++ xs), xr.
    split; [rewrite Em, Ex, concat_app, app_assoc; reflexivity|]. split; [now apply full_app|]. split; [auto|]. rewrite lenN_app, fold_left_app. reflexivity.
  - rewrite (proj2 (N.ltb_ge _ _)) by lia. cbv zeta. set (k := 8 - lenN r). assert (K : 0 < k < 8) by (unfold k; lia).
    set (p := takeN k x). assert (LP : lenN p = N.min (lenN x) k) by (unfold p; rewrite lenN_takeN; lia).
    assert (Op : bytes_ok p) by (unfold p; rewrite <- (takeN_dropN k x) in Ox; now apply bytes_ok_app in Ox).
    pose proof (u8to64_spec [] p (dropN k x) Op ltac:(lia)) as E. cbn [app] in E. unfold p in E at 1. rewrite takeN_dropN, LP in E. change (lenN []) with 0 in E. rewrite E. cbn [rbind].
    assert (LV : le_val p < 256 ^ k) by (eapply N.lt_le_trans; [apply le_val_lt, Op|]; apply N.pow_le_mono_r; lia).
    assert (T : N.lor (le_val r) (N.shiftl (le_val p) (8 * lenN r) mod 2 ^ 64) = le_val (r ++ p)).
    { assert (P8 : 2 ^ (8 * lenN r) = 256 ^ lenN r) by (rewrite N.pow_mul_r; reflexivity).
      rewrite N.shiftl_mul_pow2, N.mod_small.
      - rewrite lor_low by (rewrite P8; apply le_val_lt, Or). rewrite le_val_app, P8. lia.
      - rewrite P8. replace (2 ^ 64) with (256 ^ k * 256 ^ lenN r) by (rewrite <- N.pow_add_r; replace (k + lenN r) with 8 by (unfold k; lia); reflexivity).
        apply N.mul_lt_mono_pos_r; auto. apply N.neq_0_lt_0, N.pow_nonzero. lia. }
    rewrite T. destruct (N.ltb_spec (lenN x) k) as [S1|S1].
    + assert (p = x) as Epx by (unfold p; apply takeN_all; lia). rewrite Epx. eexists. split; [reflexivity|]. exists ls, (r ++ x).
      split; [rewrite Em, app_assoc; reflexivity|]. split; [auto|]. split; [rewrite lenN_app; unfold k in S1; lia|]. rewrite !lenN_app. reflexivity.
    + destruct (split_blocks 8 (dropN k x) ltac:(lia)) as (xs & xr & Ex & Fx & Rx).
      assert (LPk : lenN p = k) by lia. assert (Od : bytes_ok (dropN k x)) by (rewrite <- (takeN_dropN k x) in Ox; now apply bytes_ok_app in Ox).
      pose proof (rest_spec k0 k1 (lenN m + lenN x) (sip_absorb (fold_left absorb_block ls (se_st (with_keys k0 k1))) (le_val (r ++ p))) p xs xr Fx Rx ltac:(rewrite Ex in Od; now apply bytes_ok_app in Od) ltac:(lia)) as E2.
      rewrite <- Ex in E2. unfold p in E2 at 2. rewrite takeN_dropN, LPk in E2. eexists. split; [exact E2|]. exists (ls ++ [r ++ p] ++ xs), xr.
      split; [rewrite Em, !concat_app; cbn [concat]; rewrite app_nil_r, <- !app_assoc, <- Ex; unfold p; rewrite takeN_dropN; reflexivity|].
      split; [apply full_app; split; [auto|]; apply full_app; split; [constructor; [rewrite lenN_app, LPk; unfold k; lia|constructor]|auto]|]. split; [auto|].
      rewrite lenN_app, !fold_left_app. cbn [fold_left]. reflexivity.
Qed.
Lemma sip_feed_abs : forall k0 k1 ps m e, sip_abs k0 k1 m e -> bytes_ok m -> bytes_ok (concat ps) -> lenN m + lenN (concat ps) < 2 ^ 64 ->
  exists e', sip_feed e ps = Ret e' /\ sip_abs k0 k1 (m ++ concat ps) e'.
Proof.
  intros k0 k1. induction ps as [|p ps IH]; intros m e A Om Op L; cbn [sip_feed concat] in *; [exists e; rewrite app_nil_r; auto|].
  apply bytes_ok_app in Op. destruct Op as [O1 O2]. rewrite lenN_app in L. destruct (sip_input_abs k0 k1 m e p A Om O1 ltac:(lia)) as (e1 & E & A1). rewrite E. cbn [rbind].
  destruct (IH (m ++ p) e1 A1) as (e2 & E2 & A2); [apply bytes_ok_app; auto|auto|rewrite lenN_app; lia|]. exists e2. rewrite app_assoc. auto.
Qed.
Lemma sip_init_ok : forall k0 k1, k0 < 2 ^ 64 -> k1 < 2 ^ 64 -> ok4 (se_st (with_keys k0 k1)) /\ q4 (se_st (with_keys k0 k1)) = sip_init k0 k1.
Proof. intros. split; [|reflexivity]. unfold with_keys, ok4. cbn [se_st s_v0 s_v1 s_v2 s_v3]. repeat split; apply lxor_lt; auto; reflexivity. Qed.
Lemma le_zero : forall n, le_val (repeat 0 n) = 0.
Proof. induction n as [|n IH]; cbn [repeat le_val]; [reflexivity|]. rewrite IH. reflexivity. Qed.
Lemma last_word : forall r n, bytes_ok r -> lenN r < 8 ->
  le_val (r ++ repeat 0 (N.to_nat (7 - lenN r)) ++ [n mod 256]) = N.lor (N.shiftl (N.land n 255) 56) (le_val r).
Proof.
  intros r n O R. rewrite N.lor_comm, lor_shift.
  - rewrite !le_val_app, le_zero. cbn [le_val]. change 255 with (N.ones 8). rewrite N.land_ones. change (2 ^ 8) with 256.
    replace (lenN (repeat 0 (N.to_nat (7 - lenN r)))) with (7 - lenN r) by (unfold lenN; rewrite repeat_length; lia).
    assert (E : 256 ^ lenN r * 256 ^ (7 - lenN r) = 2 ^ 56) by (rewrite <- N.pow_add_r; replace (lenN r + (7 - lenN r)) with 7 by lia; reflexivity).
    rewrite N.mul_add_distr_l, N.mul_0_r, N.mul_assoc, E. lia.
  - eapply N.lt_le_trans; [apply le_val_lt, O|]. change (2 ^ 56) with (256 ^ 7). apply N.pow_le_mono_r; lia.
Qed.
Lemma sip_final_spec : forall k0 k1 m e, k0 < 2 ^ 64 -> k1 < 2 ^ 64 -> bytes_ok m -> sip_abs k0 k1 m e -> sip_to_u64 e = SipHash 2 4 k0 k1 m /\ sip_to_u64 e < 2 ^ 64.
Proof.
  intros k0 k1 m e K0 K1 O (ls & r & Em & F & R & ->). unfold sip_to_u64, SipHash. cbn [se_n se_tail se_st].
  assert (Ob : bytes_ok (concat ls) /\ bytes_ok r) by (rewrite Em in O; now apply bytes_ok_app in O). destruct Ob as [Ol Or].
  destruct (sip_init_ok k0 k1 K0 K1) as [I0 I1].
  set (lb := r ++ repeat 0 (N.to_nat (7 - lenN r)) ++ [lenN m mod 256]).
  assert (Llb : lenN lb = 8) by (unfold lb; rewrite !lenN_app, lenN_cons, lenN_nil; replace (lenN (repeat 0 (N.to_nat (7 - lenN r)))) with (7 - lenN r) by (unfold lenN; rewrite repeat_length; lia); lia).
  assert (Olb : bytes_ok lb).
  { unfold lb. apply bytes_ok_app. split; auto. apply bytes_ok_app. split; [apply Forall_forall; intros y Y; apply repeat_spec in Y; subst; reflexivity|].
    constructor; [|constructor]. apply N.mod_lt. lia. }
  assert (EP : sip_pad m = concat (ls ++ [lb])).
  { unfold sip_pad. rewrite concat_app. cbn [concat]. rewrite app_nil_r. unfold lb.
    assert (lenN m mod 8 = lenN r) as -> by (rewrite Em, lenN_app, (full_len 8) by auto; rewrite N.add_comm, N.mul_comm, N.mod_add by lia; now apply N.mod_small).
    rewrite Em at 1. rewrite <- app_assoc. reflexivity. }
  destruct (fold_absorb ls _ F Ol I0) as [E1 O1]. rewrite <- last_word by auto. fold lb.
  assert (EB : fold_left (sip_word 2) (map le_val (blocks 8 (sip_pad m))) (sip_init k0 k1) = sip_word 2 (q4 (fold_left absorb_block ls (se_st (with_keys k0 k1)))) (le_val lb)).
  { rewrite EP, blocks_full by (try lia; apply full_app; split; auto; repeat constructor; auto).
    rewrite map_app, fold_left_app. cbn [map fold_left]. rewrite <- I1. exact (f_equal (fun v => sip_word 2 v (le_val lb)) (eq_sym E1)). }
  rewrite EB. clear EB.
  set (st := fold_left absorb_block ls (se_st (with_keys k0 k1))) in *. clearbody st. assert (M : le_val lb < 2 ^ 64) by (apply word8_lt; auto; lia).
  destruct (absorb_spec st (le_val lb) O1 M) as [E2 O2]. rewrite <- E2. set (s2 := sip_absorb st (le_val lb)) in *. clearbody s2.
  destruct s2 as [w0 w1 w2 w3]. unfold q4. cbn [s_v0 s_v1 s_v2 s_v3]. destruct O2 as (P & Q & RR & T). cbn [s_v0 s_v1 s_v2 s_v3] in *.
  assert (O3 : ok4 (mk_ss w0 w1 (N.lxor w2 255) w3)) by (repeat split; cbn [s_v0 s_v1 s_v2 s_v3]; auto; apply lxor_lt; auto; reflexivity).
  destruct (proj2 (rounds_spec _ O3)) as [E3 O4]. unfold q4 at 2 in E3. cbn [s_v0 s_v1 s_v2 s_v3] in E3. rewrite <- E3.
  destruct (d_rounds _) as [z0 z1 z2 z3]. unfold q4. cbn [s_v0 s_v1 s_v2 s_v3]. split; [reflexivity|].
  destruct O4 as (A1 & A2 & A3 & A4). cbn [s_v0 s_v1 s_v2 s_v3] in *. repeat apply lxor_lt; auto.
Qed.
