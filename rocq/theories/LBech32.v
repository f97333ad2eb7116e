(** Lemmas about the checksum and the bit groups of segwit address texts. *)
From Coq Require Import String Btauto.
From Verif Require Import Base MText SBip158 SBech32 MBech32 LBip158 LHash2.
Local Open Scope N_scope.

(** ** The checksum *)
Definition sel (b : bool) (g : N) : N := if b then g else 0.
Lemma sel_xor : forall a b g, sel (xorb a b) g = N.lxor (sel a g) (sel b g).
Proof. intros [] [] g; cbn [xorb sel]; rewrite ?N.lxor_nilpotent, ?N.lxor_0_l, ?N.lxor_0_r; reflexivity. Qed.
Definition red (t : N) : N :=
  N.lxor (sel (N.testbit t 0) 0x3b6a57b2) (N.lxor (sel (N.testbit t 1) 0x26508e6d) (N.lxor (sel (N.testbit t 2) 0x1ea119fa)
    (N.lxor (sel (N.testbit t 3) 0x3d4233dd) (sel (N.testbit t 4) 0x2a1462b3)))).
Lemma if_sel : forall (b : bool) c g, (if b then N.lxor c g else c) = N.lxor c (sel b g).
Proof. intros [] c g; cbn [sel]; rewrite ?N.lxor_0_r; reflexivity. Qed.
Lemma step_red : forall c v, polymod_step c v = N.lxor (N.lxor (N.shiftl (N.land c (N.ones 25)) 5) v) (red (N.shiftr c 25)).
Proof.
  intros c v. unfold polymod_step, generators. cbn [combine fold_left]. rewrite !if_sel. unfold red.
  generalize (N.lxor (N.shiftl (N.land c (N.ones 25)) 5) v). intro x. rewrite !N.lxor_assoc. reflexivity.
Qed.
Lemma red_xor : forall a b, red (N.lxor a b) = N.lxor (red a) (red b).
Proof.
  intros a b. unfold red. rewrite !N.lxor_spec, !sel_xor. apply N.bits_inj. intro i. rewrite !N.lxor_spec.
  repeat match goal with |- context [N.testbit ?x ?y] => let z := fresh in set (z := N.testbit x y); clearbody z end. btauto.
Qed.
Lemma step_xor : forall a b u v, polymod_step (N.lxor a b) (N.lxor u v) = N.lxor (polymod_step a u) (polymod_step b v).
Proof.
  intros a b u v. rewrite !step_red, N.shiftr_lxor, red_xor.
  replace (N.shiftl (N.land (N.lxor a b) (N.ones 25)) 5) with (N.lxor (N.shiftl (N.land a (N.ones 25)) 5) (N.shiftl (N.land b (N.ones 25)) 5)).
  - apply N.bits_inj. intro i. rewrite !N.lxor_spec.
    repeat match goal with |- context [N.testbit ?x ?y] => let z := fresh in set (z := N.testbit x y); clearbody z end. btauto.
  - rewrite <- N.shiftl_lxor. f_equal. apply N.bits_inj. intro i. rewrite N.lxor_spec, !N.land_spec, N.lxor_spec.
    repeat match goal with |- context [N.testbit ?x ?y] => let z := fresh in set (z := N.testbit x y); clearbody z end. btauto.
Qed.
Lemma lor_disj_add : forall n v, v < 32 -> N.lxor (N.shiftl n 5) v = n * 32 + v.
Proof.
  intros n v V. rewrite N.shiftl_mul_pow2. change (2 ^ 5) with 32. symmetry. apply N.add_nocarry_lxor.
  apply N.bits_inj. intro i. rewrite N.land_spec, N.bits_0. change 32 with (2 ^ 5). destruct (N.lt_ge_cases i 5) as [L|L].
  - rewrite N.mul_pow2_bits_low by exact L. reflexivity.
  - assert (E : N.testbit v i = false); [|rewrite E; apply andb_false_r].
    destruct (N.eq_dec v 0) as [->|Nz]; [apply N.bits_0|]. apply N.bits_above_log2. assert (v < 2 ^ 5) by exact V. apply N.log2_lt_pow2 in H; lia.
Qed.
Lemma step_small : forall d v, d < 2 ^ 25 -> v < 32 -> polymod_step d v = d * 32 + v.
Proof.
  intros d v D V. rewrite step_red. replace (N.shiftr d 25) with 0 by (rewrite N.shiftr_div_pow2; symmetry; apply N.div_small; exact D).
  change (red 0) with 0. rewrite N.lxor_0_r, N.land_ones, N.mod_small by exact D. apply lor_disj_add, V.
Qed.
Lemma red_lt : forall t, red t < 2 ^ 30.
Proof.
  intro t. unfold red. repeat apply lxor_lt; match goal with |- sel ?b _ < _ => destruct b; reflexivity end.
Qed.
Lemma shl_lt : forall c, N.shiftl (N.land c (N.ones 25)) 5 < 2 ^ 30.
Proof. intro c. rewrite N.land_ones, N.shiftl_mul_pow2. assert (c mod 2 ^ 25 < 2 ^ 25) by (apply N.mod_lt; discriminate). change (2 ^ 30) with (2 ^ 25 * 2 ^ 5). apply N.mul_lt_mono_pos_r; [reflexivity|exact H]. Qed.
Lemma step_lt : forall c v, v < 32 -> polymod_step c v < 2 ^ 30.
Proof.
  intros c v V. rewrite step_red. apply lxor_lt; [apply lxor_lt; [apply shl_lt|]|apply red_lt]. eapply N.lt_trans; [exact V|reflexivity].
Qed.
Lemma red_inj : forall t, t < 32 -> N.land (red t) 31 = 0 -> t = 0.
Proof.
  intros t T E. assert (X : forallb (fun t => (t =? 0) || negb (N.land (red t) 31 =? 0)) (map N.of_nat (seq 0 32)) = true) by (vm_compute; reflexivity).
  rewrite forallb_forall in X. specialize (X t). destruct (N.eqb_spec t 0) as [->|Ne]; [reflexivity|]. cbn [orb] in X.
  assert (I : In t (map N.of_nat (seq 0 32))) by (apply in_map_iff; exists (N.to_nat t); split; [apply N2Nat.id|apply in_seq; lia]).
  specialize (X I). rewrite E in X. discriminate.
Qed.
Lemma step_zero : forall d, d < 2 ^ 30 -> polymod_step d 0 = 0 -> d = 0.
Proof.
  intros d D E. assert (T : N.shiftr d 25 = 0).
  - apply red_inj; [rewrite N.shiftr_div_pow2; apply N.div_lt_upper_bound; [discriminate|exact D]|].
    rewrite step_red, N.lxor_0_r in E. apply N.lxor_eq in E. rewrite <- E. change 31 with (N.ones 5). rewrite N.land_ones, N.shiftl_mul_pow2. apply N.mod_mul. discriminate.
  - rewrite N.shiftr_div_pow2 in T. apply N.div_small_iff in T; [|discriminate]. rewrite step_small in E by (auto; reflexivity). lia.
Qed.
Lemma step_inj : forall a b v, a < 2 ^ 30 -> b < 2 ^ 30 -> polymod_step a v = polymod_step b v -> a = b.
Proof.
  intros a b v A B E. apply N.lxor_eq. apply step_zero; [apply lxor_lt; assumption|]. replace 0 with (N.lxor v v) at 1 by apply N.lxor_nilpotent.
  rewrite step_xor, E. apply N.lxor_nilpotent.
Qed.
Definition small (l : list N) : Prop := Forall (fun v => v < 32) l.
Lemma fold_lt : forall l a, small l -> a < 2 ^ 30 -> fold_left polymod_step l a < 2 ^ 30.
Proof. induction l as [|v l IH]; intros a F A; [exact A|]. inversion F; subst. apply IH; auto. apply step_lt; auto. Qed.
Lemma fold_inj : forall l a b, small l -> a < 2 ^ 30 -> b < 2 ^ 30 -> fold_left polymod_step l a = fold_left polymod_step l b -> a = b.
Proof.
  induction l as [|v l IH]; intros a b F A B E; [exact E|]. inversion F; subst. cbn [fold_left] in E. apply (step_inj a b v A B). apply IH; auto; apply step_lt; auto.
Qed.
(** a number in base 32, most significant first *)
Definition num32 (l : list N) : N := fold_left (fun n d => n * 32 + d) l 0.
Lemma num32_snoc : forall l v, num32 (l ++ [v]) = num32 l * 32 + v.
Proof. intros l v. unfold num32. rewrite fold_left_app. reflexivity. Qed.
Lemma num32_lt : forall l, small l -> num32 l < 2 ^ (5 * lenN l).
Proof.
  induction l as [|v l IH] using rev_ind; intro F; [reflexivity|]. apply Forall_app in F. destruct F as [F V]. inversion V; subst. specialize (IH F).
  rewrite num32_snoc. replace (5 * lenN (l ++ [v])) with (5 * lenN l + 5) by (unfold lenN; rewrite app_length; cbn [length]; lia). rewrite N.pow_add_r. change (2 ^ 5) with 32. lia.
Qed.
Lemma num32_inj : forall a b, small a -> small b -> length a = length b -> num32 a = num32 b -> a = b.
Proof.
  induction a as [|x a IH] using rev_ind; intros b A B L E.
  - destruct b; [reflexivity|discriminate].
  - destruct b as [|y b _] using rev_ind; [rewrite app_length in L; cbn in L; lia|]. rewrite !app_length in L. cbn [length] in L.
    apply Forall_app in A. apply Forall_app in B. destruct A as [A X], B as [B Y]. inversion X; inversion Y; subst. rewrite !num32_snoc in E.
    assert (x = y) as -> by lia. rewrite (IH b A B) by lia. reflexivity.
Qed.
Lemma fold_window : forall l a, small l -> (length l <= 6)%nat ->
  fold_left polymod_step l a = N.lxor (fold_left polymod_step (repeat 0 (length l)) a) (num32 l).
Proof.
  induction l as [|v l IH] using rev_ind; intros a F L; [symmetry; apply N.lxor_0_r|]. apply Forall_app in F. destruct F as [F V]. inversion V; subst. rewrite app_length in L. cbn [length] in L.
  rewrite num32_snoc, fold_left_app. cbn [fold_left]. rewrite IH by (auto; lia). rewrite app_length. cbn [length]. replace (length l + 1)%nat with (S (length l)) by lia.
  change (repeat 0 (S (length l))) with (0 :: repeat 0 (length l)). rewrite repeat_cons, fold_left_app. cbn [fold_left]. replace v with (N.lxor 0 v) at 1 by apply N.lxor_0_l. rewrite step_xor.
  rewrite (step_small (num32 l)); auto. eapply N.lt_le_trans; [apply num32_lt, F|]. apply N.pow_le_mono_r; [discriminate|]. unfold lenN. lia.
Qed.
Lemma window_inj : forall l m a, small l -> small m -> length l = length m -> (length l <= 6)%nat ->
  fold_left polymod_step l a = fold_left polymod_step m a -> l = m.
Proof.
  intros l m a L M E K H. rewrite (fold_window l a L K), (fold_window m a M) in H by (rewrite <- E; exact K). rewrite <- E in H.
  apply num32_inj; auto. set (z := fold_left polymod_step (repeat 0 (length l)) a) in *. clearbody z. apply N.lxor_eq. 
  apply (f_equal (N.lxor z)) in H. rewrite <- !N.lxor_assoc, N.lxor_nilpotent, !N.lxor_0_l in H. rewrite H. apply N.lxor_nilpotent.
Qed.
Lemma repeat_small : forall k, small (repeat 0 k).
Proof. intro k. apply Forall_forall. intros x X. apply repeat_spec in X. subst. reflexivity. Qed.
(** a changed stretch of at most six symbols changes the residue *)
Lemma polymod_detects : forall pre l m post, small pre -> small l -> small m -> small post -> length l = length m -> (length l <= 6)%nat ->
  polymod (pre ++ l ++ post) = polymod (pre ++ m ++ post) -> l = m.
Proof.
  intros pre l m post P L M Q E K H. unfold polymod in H. rewrite !fold_left_app in H.
  assert (A : fold_left polymod_step pre 1 < 2 ^ 30) by (apply fold_lt; auto; reflexivity).
  apply (window_inj l m (fold_left polymod_step pre 1)); auto. apply (fold_inj post); auto; apply fold_lt; auto.
Qed.
Lemma digits32 : forall p, p < 2 ^ 30 -> let d := map (fun i => N.land (N.shiftr p (5 * i)) 31) [5; 4; 3; 2; 1; 0] in small d /\ num32 d = p.
Proof.
  intros p P d. subst d. cbn [map]. change (5 * 5) with 25. change (5 * 4) with 20. change (5 * 3) with 15. change (5 * 2) with 10. change (5 * 1) with 5. change (5 * 0) with 0.
  change 31 with (N.ones 5). rewrite !N.land_ones, !N.shiftr_div_pow2. change (2 ^ 5) with 32. change (2 ^ 0) with 1. rewrite N.div_1_r. split.
  - repeat (constructor; [apply N.mod_lt; discriminate|]). constructor.
  - unfold num32. cbn [fold_left].
    assert (S : forall k, p / 2 ^ k = p / 2 ^ (k + 5) * 32 + (p / 2 ^ k) mod 32).
    + intro k. rewrite N.pow_add_r, <- N.div_div by (apply N.pow_nonzero; discriminate). change (2 ^ 5) with 32. rewrite (N.mul_comm _ 32). apply N.div_mod. discriminate.
    + pose proof (S 0) as S0. pose proof (S 5) as S5. pose proof (S 10) as S10. pose proof (S 15) as S15. pose proof (S 20) as S20. pose proof (S 25) as S25. clear S.
      change (0 + 5) with 5 in *. change (5 + 5) with 10 in *. change (10 + 5) with 15 in *. change (15 + 5) with 20 in *. change (20 + 5) with 25 in *. change (25 + 5) with 30 in *.
      rewrite (N.div_small p (2 ^ 30) P) in S25. change (2 ^ 0) with 1 in S0. rewrite N.div_1_r in S0. change 32 with (2 ^ 5) in S0 at 2. 
      change (2 ^ 5) with 32 in *. lia.
Qed.
Lemma checksum_spec : forall hrp v d, small (expand hrp ++ d) ->
  let c := checksum_of hrp v d in small c /\ length c = 6%nat /\ polymod (expand hrp ++ d ++ c) = residue v.
Proof.
  intros hrp v d F c. subst c. unfold checksum_of. set (p := N.lxor _ _).
  assert (A : fold_left polymod_step (expand hrp ++ d) 1 < 2 ^ 30) by (apply fold_lt; auto; reflexivity).
  assert (Q : polymod (expand hrp ++ d ++ repeat 0 6) = fold_left polymod_step (repeat 0 6) (fold_left polymod_step (expand hrp ++ d) 1)) by (unfold polymod; rewrite app_assoc, fold_left_app; reflexivity).
  assert (P : p < 2 ^ 30).
  { subst p. rewrite Q. apply lxor_lt; [apply fold_lt; auto; apply repeat_small|]. unfold residue. destruct (v =? 0); reflexivity. }
  destruct (digits32 p P) as [S E]. set (c := map _ _) in *. split; [exact S|]. split; [reflexivity|].
  unfold polymod at 1. rewrite app_assoc, fold_left_app. rewrite (fold_window c) by (auto; apply le_n). change (length c) with 6%nat. rewrite <- Q, E. subst p.
  rewrite <- N.lxor_assoc, N.lxor_nilpotent, N.lxor_0_l. reflexivity.
Qed.
Lemma checksum_unique : forall pre c c', small pre -> small c -> small c' -> length c = 6%nat -> length c' = 6%nat -> polymod (pre ++ c) = polymod (pre ++ c') -> c = c'.
Proof.
  intros pre c c' P C C' L L' E. apply (polymod_detects pre c c' []); auto; [constructor|congruence|lia|]. rewrite !app_nil_r. exact E.
Qed.

(** ** Bit groups *)
Lemma of_bits_snoc : forall l b, of_bits (l ++ [b]) = 2 * of_bits l + (if (b : bool) then 1 else 0).
Proof. intros l b. unfold of_bits. rewrite fold_left_app. reflexivity. Qed.
Lemma of_bits_lt : forall l, of_bits l < 2 ^ lenN l.
Proof.
  induction l as [|b l IH] using rev_ind; [reflexivity|]. rewrite of_bits_snoc. replace (lenN (l ++ [b])) with (lenN l + 1) by (unfold lenN; rewrite app_length; cbn [length]; lia).
  rewrite N.pow_add_r. change (2 ^ 1) with 2. destruct b; lia.
Qed.
Lemma bits_of_bits : forall l, bits_of (length l) (of_bits l) = l.
Proof.
  induction l as [|b l IH] using rev_ind; [reflexivity|]. rewrite app_length. cbn [length]. rewrite bits_split, of_bits_snoc. change (N.of_nat 1) with 1.
  rewrite N.shiftr_div_pow2. change (2 ^ 1) with 2. replace ((2 * of_bits l + (if b then 1 else 0)) / 2) with (of_bits l).
  - rewrite IH. f_equal. cbn [bits_of]. f_equal. change (N.of_nat 0) with 0. destruct b; [rewrite N.add_comm, N.mul_comm; apply N.bit0_odd || idtac|].
    + rewrite N.bit0_odd, N.odd_add, N.mul_comm, N.odd_mul. reflexivity.
    + rewrite N.add_0_r. apply N.testbit_even_0.
  - destruct b; [rewrite N.mul_comm; symmetry; rewrite N.div_add_l by discriminate; change (1 / 2) with 0; lia|]. rewrite N.add_0_r, N.mul_comm. symmetry. apply N.div_mul. discriminate.
Qed.
Lemma flat_bits_len : forall w l, length (flat_map (bits_of w) l) = (w * length l)%nat.
Proof. intros w l. induction l as [|x l IH]; cbn [flat_map length]; [lia|]. rewrite app_length, bits_len, IH. lia. Qed.
Lemma flat_bits_inj : forall w a b, Forall (fun v => v < 2 ^ N.of_nat w) a -> Forall (fun v => v < 2 ^ N.of_nat w) b -> (0 < w)%nat ->
  flat_map (bits_of w) a = flat_map (bits_of w) b -> a = b.
Proof.
  intros w a. induction a as [|x a IH]; intros b A B W E.
  - destruct b; [reflexivity|]. apply (f_equal (@length bool)) in E. rewrite !flat_bits_len in E. cbn [length] in E. lia.
  - destruct b as [|y b]; [apply (f_equal (@length bool)) in E; rewrite !flat_bits_len in E; cbn [length] in E; lia|]. inversion A; inversion B; subst. cbn [flat_map] in E.
    assert (bits_of w x = bits_of w y /\ flat_map (bits_of w) a = flat_map (bits_of w) b) as [E1 E2].
    { pose proof (f_equal (firstn w) E) as F. pose proof (f_equal (skipn w) E) as G. rewrite !firstn_app, !skipn_app, !bits_len, !Nat.sub_diag in *. cbn [firstn skipn] in *. rewrite !app_nil_r in F.
      rewrite !firstn_all2 in F by (rewrite bits_len; lia). rewrite !skipn_all2 in G by (rewrite bits_len; lia). split; assumption. }
    f_equal; [apply (bits_unique w); auto|apply IH; auto].
Qed.
Lemma chunks_map : forall w k fuel l, (0 < w)%nat -> length l = (w * k)%nat -> (length l <= fuel)%nat ->
  flat_map (bits_of w) (map of_bits (chunks w fuel l)) = l /\ length (chunks w fuel l) = k /\ Forall (fun v => v < 2 ^ N.of_nat w) (map of_bits (chunks w fuel l)).
Proof.
  intros w k. induction k as [|k IH]; intros fuel l W L F.
  - assert (l = []) as -> by (destruct l; [reflexivity|cbn in L; lia]). destruct fuel; repeat split; constructor.
  - destruct l as [|b l]; [cbn in L; lia|]. destruct fuel as [|fuel]; [cbn in F; lia|]. cbn [chunks]. set (m := b :: l) in *.
    assert (LF : length (firstn w m) = w) by (apply firstn_length_le; lia).
    destruct (IH fuel (skipn w m) W) as (A & B & C); [rewrite skipn_length; lia|rewrite skipn_length; cbn in F; subst m; cbn [length] in *; lia|].
    cbn [map flat_map length]. rewrite A, B. replace (bits_of w (of_bits (firstn w m))) with (firstn w m) by (rewrite <- LF at 2; symmetry; apply bits_of_bits).
    split; [apply firstn_skipn|]. split; [reflexivity|]. constructor; [|exact C]. pose proof (of_bits_lt (firstn w m)) as X. unfold lenN in X. rewrite LF in X. exact X.
Qed.
Lemma chunks_app : forall w k fuel l r, (0 < w)%nat -> length l = (w * k)%nat -> (length l + length r <= fuel)%nat -> (0 < length r <= w)%nat ->
  chunks w fuel (l ++ r) = chunks w fuel l ++ [r].
Proof.
  intros w k. induction k as [|k IH]; intros fuel l r W L F R.
  - assert (l = []) as -> by (destruct l; [reflexivity|cbn in L; lia]). destruct fuel as [|fuel]; [lia|]. cbn [app chunks]. destruct r as [|b r]; [cbn in R; lia|].
    rewrite firstn_all2, skipn_all2 by lia. destruct fuel; reflexivity.
  - destruct l as [|b l]; [cbn in L; lia|]. destruct fuel as [|fuel]; [cbn in F; lia|]. cbn [chunks app]. change (b :: l ++ r) with ((b :: l) ++ r). set (m := b :: l) in *.
    rewrite firstn_app, skipn_app. replace (w - length m)%nat with 0%nat by lia. cbn [firstn skipn]. rewrite app_nil_r. f_equal. apply IH; auto; rewrite ?skipn_length; subst m; cbn [length] in *; lia.
Qed.
Lemma chunks_short : forall w fuel l, Forall (fun c => (length c <= w)%nat) (chunks w fuel l).
Proof. intros w fuel. induction fuel; intro l; cbn [chunks]; [constructor|]. destruct l; [constructor|]. constructor; [rewrite firstn_length; lia|apply IHfuel]. Qed.
Lemma groups_to_fes : forall p, groups p (bytes_to_fes p).
Proof.
  intro p. unfold bytes_to_fes. set (b := flat_map (bits_of 8) p). set (k := (length b / 5)%nat). set (r := (length b mod 5)%nat). assert (EB : flat_map (bits_of 8) p = b) by reflexivity.
  assert (LB : length b = (5 * k + r)%nat) by (apply Nat.div_mod; discriminate). assert (R : (r < 5)%nat) by (apply Nat.mod_upper_bound; discriminate). clearbody k r b.
  assert (E : b = firstn (5 * k) b ++ skipn (5 * k) b) by (symmetry; apply firstn_skipn). assert (L1 : length (firstn (5 * k) b) = (5 * k)%nat) by (apply firstn_length_le; lia). assert (L2 : length (skipn (5 * k) b) = r) by (rewrite skipn_length; lia).
  set (x := firstn (5 * k) b) in *. set (y := skipn (5 * k) b) in *. clearbody x y.
  assert (M : forall c, length c = (5 * k)%nat -> forall fuel, (5 * k <= fuel)%nat -> map (fun c => of_bits (c ++ repeat false (5 - length c))) (chunks 5 fuel c) = map of_bits (chunks 5 fuel c)).
  { clear. induction k as [|k IH]; intros c C fuel F; [assert (c = []) as -> by (destruct c; [reflexivity|cbn in C; lia]); destruct fuel; reflexivity|].
    destruct fuel; [lia|]. destruct c as [|b c]; [cbn in C; lia|]. cbn [chunks map]. set (m := b :: c) in *. rewrite IH by (rewrite ?skipn_length; lia). f_equal. f_equal. rewrite firstn_length_le by lia. apply app_nil_r. }
  destruct r as [|r].
  - assert (y = []) as -> by (destruct y; [reflexivity|discriminate]). rewrite app_nil_r in E. rewrite E in *. rewrite M by lia. destruct (chunks_map 5 k (length x) x ltac:(lia) L1 ltac:(lia)) as (A & _ & C). split; [exact C|].
    exists 0%nat. split; [lia|]. rewrite A, EB. symmetry. apply app_nil_r.
  - destruct (chunks_map 5 k (length b) x ltac:(lia) L1 ltac:(lia)) as (A & _ & C).
    rewrite E at 2. rewrite (chunks_app 5 k (length b) x y) by lia. rewrite map_app, (M x L1) by lia. cbn [map]. rewrite L2.
    set (z := y ++ repeat false (5 - S r)). assert (LZ : length z = 5%nat) by (unfold z; rewrite app_length, repeat_length; lia). split.
    + apply Forall_app. split; [exact C|]. constructor; [|constructor]. pose proof (of_bits_lt z) as X. unfold lenN in X. rewrite LZ in X. exact X.
    + exists (5 - S r)%nat. split; [lia|]. rewrite EB, flat_map_app, A. cbn [flat_map]. rewrite app_nil_r. rewrite <- LZ at 1. rewrite bits_of_bits. unfold z. rewrite app_assoc, <- E. reflexivity.
Qed.
Lemma groups_unique : forall p g g', groups p g -> groups p g' -> g = g'.
Proof.
  intros p g g' [S (k & K & E)] [S' (k' & K' & E')]. apply (flat_bits_inj 5); auto; [lia|]. rewrite E, E'. f_equal. f_equal.
  pose proof (f_equal (@length bool) E) as L. pose proof (f_equal (@length bool) E') as L'. rewrite app_length, repeat_length, !flat_bits_len in *. lia.
Qed.
Lemma groups_inj : forall p q g, bytes_ok p -> bytes_ok q -> groups p g -> groups q g -> p = q.
Proof.
  intros p q g P Q [S (k & K & E)] [_ (k' & K' & E')]. apply (flat_bits_inj 8); auto; [lia|]. rewrite E in E'.
  pose proof (f_equal (@length bool) E') as L. rewrite !app_length, !repeat_length, !flat_bits_len in L. assert (length p = length q) as X by lia.
  apply (f_equal (firstn (8 * length p))) in E'. rewrite !firstn_app, !flat_bits_len, <- X, Nat.sub_diag in E'. cbn [firstn] in E'. rewrite !app_nil_r, !firstn_all2 in E' by (rewrite flat_bits_len; lia). exact E'.
Qed.
Lemma forallb_negb : forall l, forallb negb l = true <-> l = repeat false (length l).
Proof.
  induction l as [|[] l IH]; cbn [forallb negb andb length repeat]; [split; reflexivity|split; intro H; [discriminate|]|rewrite IH; split; intro H; [now rewrite <- H|now injection H]].
  discriminate.
Qed.
Lemma fes_to_bytes_spec : forall g p, small g -> (fes_to_bytes g = Some p <-> bytes_ok p /\ groups p g).
Proof.
  intros g p S. unfold fes_to_bytes. set (b := flat_map (bits_of 5) g). set (k := (length b / 8)%nat). 
  assert (LB : length b = (8 * k + length b mod 8)%nat) by (apply Nat.div_mod; discriminate). assert (R : (length b mod 8 < 8)%nat) by (apply Nat.mod_upper_bound; discriminate).
  assert (L1 : length (firstn (8 * k) b) = (8 * k)%nat) by (apply firstn_length_le; lia).
  destruct (chunks_map 8 k (length b) (firstn (8 * k) b) ltac:(lia) L1 ltac:(rewrite L1; lia)) as (A & _ & C). set (q := map of_bits _) in *. split.
  - destruct (_ && _)%bool eqn:X; [|discriminate]. apply andb_prop in X. destruct X as [X Y]. apply Nat.ltb_lt in X. apply forallb_negb in Y. intro H. injection H as <-. split; [exact C|]. split; [exact S|].
    exists (length (skipn (8 * k) b)). split; [exact X|]. rewrite A, <- Y. symmetry. apply firstn_skipn.
  - intros [P G]. destruct G as [_ (m & M & E)]. fold b in E. pose proof (f_equal (@length bool) E) as L. rewrite app_length, repeat_length, flat_bits_len in L.
    assert (KP : length p = k) by (unfold k; apply (Nat.div_unique (length b) 8 (length p) m); lia).
    assert (E1 : firstn (8 * k) b = flat_map (bits_of 8) p) by (rewrite E, firstn_app, flat_bits_len, KP, Nat.sub_diag; cbn [firstn]; rewrite app_nil_r; apply firstn_all2; rewrite flat_bits_len, KP; lia).
    assert (E2 : skipn (8 * k) b = repeat false m) by (rewrite E, skipn_app, flat_bits_len, KP, Nat.sub_diag; cbn [skipn]; rewrite skipn_all2 by (rewrite flat_bits_len, KP; lia); reflexivity).
    rewrite E2. replace (length (repeat false m) <? 5)%nat with true by (symmetry; rewrite repeat_length; apply Nat.ltb_lt; lia).
    replace (forallb negb (repeat false m)) with true by (symmetry; apply forallb_negb; rewrite repeat_length; reflexivity). cbn [andb]. f_equal.
    rewrite E1 in A. apply (flat_bits_inj 8); auto; lia.
Qed.
