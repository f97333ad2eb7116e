(** Lemmas: the code's SHA-1 and RIPEMD-160 are the standards'. *)
From Verif Require Import Base MDec LDec LU256 MHash SHash LHash MSha2 SSha2 LSha2 SHashApi LSha2b MHash2 SHash2.
Local Open Scope N_scope.

(** * Words *)
Lemma rotl_rol : forall w n x, x < 2 ^ w -> n <= w -> rotl w n x = rol w n x.
Proof.
  intros w n x X NW. unfold rotl, rol. rewrite N.shiftl_mul_pow2, N.shiftr_div_pow2.
  assert (P0 : 2 ^ n <> 0) by (apply N.pow_nonzero; lia). assert (Q0 : 2 ^ (w - n) <> 0) by (apply N.pow_nonzero; lia).
  assert (E : 2 ^ w = 2 ^ (w - n) * 2 ^ n) by (rewrite <- N.pow_add_r; f_equal; lia). rewrite E.
  rewrite N.mul_mod_distr_r by auto. rewrite N.lor_comm, lor_low; [lia|].
  apply N.div_lt_upper_bound; auto. rewrite <- E. exact X.
Qed.
Lemma rol_lt : forall w n x, x < 2 ^ w -> n <= w -> rol w n x < 2 ^ w.
Proof.
  intros w n x X NW. unfold rol. assert (P0 : 2 ^ n <> 0) by (apply N.pow_nonzero; lia). assert (Q0 : 2 ^ (w - n) <> 0) by (apply N.pow_nonzero; lia).
  assert (E : 2 ^ w = 2 ^ (w - n) * 2 ^ n) by (rewrite <- N.pow_add_r; f_equal; lia). rewrite E in *.
  rewrite N.mul_mod_distr_r by auto. pose proof (N.mod_lt x (2 ^ (w - n)) Q0) as M.
  assert (D : x / 2 ^ (w - n) < 2 ^ n) by (apply N.div_lt_upper_bound; auto).
  revert M D. generalize (x mod 2 ^ (w - n)) (x / 2 ^ (w - n)) (2 ^ (w - n)) (2 ^ n). clear. intros a b c d. nia.
Qed.
Lemma wnot_lnot : forall w x, x < 2 ^ w -> wnot w x = N.lnot x w.
Proof.
  intros w x X. unfold wnot. destruct (N.eq_dec x 0) as [-> |NZ].
  - rewrite N.sub_0_r. unfold N.lnot. rewrite N.lxor_0_l, N.ones_equiv. lia.
  - rewrite N.lnot_sub_low by (apply N.log2_lt_pow2; [lia|exact X]). rewrite N.ones_equiv. lia.
Qed.
Lemma lxor_lt : forall w x y, x < 2 ^ w -> y < 2 ^ w -> N.lxor x y < 2 ^ w.
Proof.
  intros w x y X Y. destruct (N.eq_dec (N.lxor x y) 0) as [-> |NZ]; [lia|]. apply N.log2_lt_pow2; [lia|].
  eapply N.le_lt_trans; [apply N.log2_lxor|]. assert (NZ' : x <> 0 \/ y <> 0) by (destruct (N.eq_dec x 0) as [-> |]; auto; right; intros ->; now rewrite N.lxor_0_l in NZ).
  assert (W : w <> 0) by (intros ->; cbn in X, Y; lia).
  apply N.max_lub_lt; [destruct (N.eq_dec x 0) as [-> |]|destruct (N.eq_dec y 0) as [-> |]]; try (cbn; lia); apply N.log2_lt_pow2; lia.
Qed.
Lemma land_lt : forall w x y, y < 2 ^ w -> N.land x y < 2 ^ w.
Proof.
  intros w x y Y. destruct (N.eq_dec (N.land x y) 0) as [-> |NZ]; [lia|]. apply N.log2_lt_pow2; [lia|].
  eapply N.le_lt_trans; [apply N.log2_land|]. eapply N.le_lt_trans; [apply N.le_min_r|]. assert (y <> 0) by (intros ->; now rewrite N.land_0_r in NZ). apply N.log2_lt_pow2; lia.
Qed.
Lemma lnot_lt : forall w x, x < 2 ^ w -> N.lnot x w < 2 ^ w.
Proof. intros. rewrite <- wnot_lnot by auto. unfold wnot. lia. Qed.
Lemma wadd_add : forall a b c, wadd 32 (wadd 32 a b) c = wadd 32 a (b + c).
Proof. intros. unfold wadd. rewrite N.add_mod_idemp_l by lia. now rewrite N.add_assoc. Qed.
Lemma wadd_lt : forall a b, wadd 32 a b < 2 ^ 32.
Proof. intros. unfold wadd. apply N.mod_lt. lia. Qed.
Lemma ch_or : forall w x y z, x < 2 ^ w -> N.lor (N.land x y) (N.land (N.lnot x w) z) = ch w x y z.
Proof.
  intros w x y z X. unfold ch. apply N.bits_inj. intro i. rewrite N.lor_spec, N.lxor_spec, !N.land_spec.
  destruct (N.lt_ge_cases i w) as [L|G]; [rewrite N.lnot_spec_low by auto|rewrite N.lnot_spec_high, (testbit_high w x) by auto]; destruct (N.testbit x i), (N.testbit y i), (N.testbit z i); reflexivity.
Qed.
Lemma maj_or : forall x y z, N.lor (N.lor (N.land x y) (N.land x z)) (N.land y z) = maj x y z.
Proof. intros. unfold maj. apply N.bits_inj. intro i. rewrite !N.lor_spec, !N.lxor_spec, !N.land_spec. destruct (N.testbit x i), (N.testbit y i), (N.testbit z i); reflexivity. Qed.

Definition words32 (n : nat) (st : list N) : Prop := Forall (fun x => x < 2 ^ 32) st /\ length st = n.
Lemma len5 : forall (r : list N), length r = 5%nat -> exists a b c d e, r = [a; b; c; d; e].
Proof. intros r L. do 5 (destruct r as [|? r]; [discriminate|]). destruct r; [|discriminate]. repeat eexists. Qed.
Lemma words5 : forall st, words32 5 st -> exists a b c d e, st = [a; b; c; d; e] /\ a < 2 ^ 32 /\ b < 2 ^ 32 /\ c < 2 ^ 32 /\ d < 2 ^ 32 /\ e < 2 ^ 32.
Proof.
  intros st [F L]. apply len5 in L as (a & b & c & d & e & ->). do 5 (apply Forall_cons_iff in F as [? F]). repeat eexists; eassumption.
Qed.
Lemma mk5 : forall a b c d e, a < 2 ^ 32 -> b < 2 ^ 32 -> c < 2 ^ 32 -> d < 2 ^ 32 -> e < 2 ^ 32 -> words32 5 [a; b; c; d; e].
Proof. intros. split; [repeat (constructor; [assumption|]); constructor|reflexivity]. Qed.
Lemma block_split : forall bs k b, bs <> 0 -> bytes_ok b -> lenN b = bs * k -> exists ls, b = concat ls /\ full bs ls /\ lenN ls = k /\ Forall bytes_ok ls.
Proof.
  intros bs k b B OK L. destruct (split_blocks bs b B) as (ls & r & -> & F & R). rewrite lenN_app, (full_len bs) in L by auto.
  assert (r = []) as ->.
  { destruct r; auto. exfalso. rewrite lenN_cons in *. apply (f_equal (fun v => v mod bs)) in L. rewrite (N.mul_comm bs k), N.mod_mul in L by auto.
    rename L into A. rewrite N.add_comm, N.mul_comm, N.mod_add in A by auto. rewrite N.mod_small in A by auto. lia. }
  rewrite app_nil_r in *. exists ls. split; [reflexivity|]. split; [auto|]. rewrite lenN_nil in L. split; [|now apply Forall_concat]. rewrite N.add_0_r in L. exact (proj1 (N.mul_cancel_l _ _ bs B) L).
Qed.

(** * SHA-1 *)
Lemma upd_app : forall w v x z, upd (length w) v (w ++ x :: z) = w ++ v :: z.
Proof. induction w as [|y w IH]; intros; [reflexivity|]. cbn [length app upd]. now rewrite IH. Qed.
Lemma nth_lt : forall i w, Forall (fun x => x < 2 ^ 32) w -> nth i w 0 < 2 ^ 32.
Proof. intros i w F. destruct (nth_in_or_default i w 0) as [I| ->]; [|lia]. rewrite Forall_forall in F. now apply F. Qed.
Lemma expand_schedule : forall n w, (16 <= length w)%nat -> Forall (fun x => x < 2 ^ 32) w ->
  sha1_expand n (length w) (w ++ repeat 0 n) = sha1_schedule n w /\ length (sha1_schedule n w) = (length w + n)%nat.
Proof.
  induction n as [|n IH]; intros w L F; cbn [sha1_expand sha1_schedule repeat]; [rewrite app_nil_r; split; [reflexivity|lia]|].
  unfold at_. rewrite upd_app. rewrite !app_nth1 by lia. rewrite rotl_rol by (repeat apply lxor_lt; try apply nth_lt; auto; lia).
  set (v := rol _ _ _). assert (V : v < 2 ^ 32) by (apply rol_lt; [repeat apply lxor_lt; apply nth_lt; auto|lia]). clearbody v.
  specialize (IH (w ++ [v])). rewrite app_length in IH. cbn [length] in IH. rewrite Nat.add_1_r in IH. rewrite <- app_assoc in IH. cbn [app] in IH.
  destruct IH as [E E']; [lia|apply Forall_app; auto|]. split; [exact E|lia].
Qed.
Lemma sha1_consts : forall i b c d, (i < 80)%nat -> b < 2 ^ 32 -> c < 2 ^ 32 -> d < 2 ^ 32 -> sha1_fk i b c d = (sha1_f i b c d, sha1_K i).
Proof.
  intros i b c d I B C D. unfold sha1_fk, sha1_f, sha1_K.
  destruct (Nat.ltb_spec i 20); [assert ((i / 20)%nat = 0%nat) as -> by (apply Nat.div_small; lia)|
  destruct (Nat.ltb_spec i 40); [assert ((i / 20)%nat = 1%nat) as -> by (symmetry; apply (Nat.div_unique i 20 1 (i - 20)); lia)|
  destruct (Nat.ltb_spec i 60); [assert ((i / 20)%nat = 2%nat) as -> by (symmetry; apply (Nat.div_unique i 20 2 (i - 40)); lia)|
    assert ((i / 20)%nat = 3%nat) as -> by (symmetry; apply (Nat.div_unique i 20 3 (i - 60)); lia)]]]; cbn [nth];
  (apply f_equal2; [|vm_compute; reflexivity]).
  - rewrite wnot_lnot by auto. apply ch_or; auto.
  - reflexivity.
  - apply maj_or.
  - reflexivity.
Qed.
Lemma sha1_loop_steps : forall w i a b c d e, (i + length w <= 80)%nat -> words32 5 [a; b; c; d; e] ->
  exists a' b' c' d' e', sha1_loop i w (a, b, c, d, e) = (a', b', c', d', e') /\
  fold_left sha1_step (combine (seq i (length w)) w) [a; b; c; d; e] = [a'; b'; c'; d'; e'] /\ words32 5 [a'; b'; c'; d'; e'].
Proof.
  induction w as [|x w IH]; intros i a b c d e L G; cbn [sha1_loop length seq combine fold_left]; [now exists a, b, c, d, e|].
  cbn [length] in L. pose proof G as G0. apply words5 in G0 as (? & ? & ? & ? & ? & [= <- <- <- <- <-] & A & B & C & D & E).
  rewrite sha1_consts by (auto; lia). cbn [sha1_step fst snd]. rewrite !rotl_rol by (auto; lia). rewrite !wadd_add. unfold wadd.
  match goal with |- context [sha1_loop (S i) w (?m, _, _, _, _)] => set (n1 := m) end.
  match goal with |- context [fold_left sha1_step _ [?m; _; _; _; _]] => set (n2 := m) end.
  assert (n1 = n2) as -> by (unfold n1, n2; f_equal; lia). apply IH; [lia|]. apply mk5; auto; [|apply rol_lt; auto; lia]. unfold n2. apply N.mod_lt. lia.
Qed.
Lemma be_words_ok : forall ls, full 4 ls -> Forall bytes_ok ls -> Forall (fun x => x < 2 ^ 32) (map be_val ls) /\ Forall (fun x => x < 2 ^ 32) (map le_val ls).
Proof.
  intros ls F O. induction F as [|b ls L F IH]; [split; constructor|]. apply Forall_cons_iff in O as [OB O]. destruct (IH O) as [I1 I2]. split; cbn [map]; constructor; auto.
  - unfold be_val. change (2 ^ 32) with (256 ^ 4). rewrite <- L. replace (lenN b) with (lenN (rev b)) by (unfold lenN; now rewrite rev_length). apply le_val_lt. now apply Forall_rev.
  - change (2 ^ 32) with (256 ^ 4). rewrite <- L. apply le_val_lt; auto.
Qed.
Lemma sha1_comp_spec : forall st b, words32 5 st -> bytes_ok b -> lenN b = 64 -> sha1_comp st b = sha1_compress st b /\ words32 5 (sha1_compress st b).
Proof.
  intros st b G OK L. destruct (block_split 4 16 b ltac:(lia) OK L) as (ls & -> & F & LL & FO). unfold sha1_comp, sha1_compress, be_words.
  rewrite chunks_full, blocks_full by (auto; lia). set (w := map be_val ls). assert (LW : length w = 16%nat) by (unfold w; rewrite map_length; apply Nat2N.inj; exact LL).
  pose proof (proj1 (be_words_ok ls F FO)) as FW. fold w in FW.
  destruct (expand_schedule 64 w ltac:(lia) FW) as [EX EL]. rewrite LW in EX, EL. rewrite EX. change (16 + 64)%nat with 80%nat in EL.
  pose proof G as G0. apply words5 in G0 as (a & b & c & d & e & -> & _).
  destruct (sha1_loop_steps (sha1_schedule 64 w) 0 a b c d e ltac:(rewrite EL; lia) G) as (a' & b' & c' & d' & e' & -> & FE & G'). rewrite EL in FE. rewrite FE.
  unfold add32. cbn [combine map fst snd]. unfold wadd. split; [rewrite (N.add_comm a a'), (N.add_comm b b'), (N.add_comm c c'), (N.add_comm d d'), (N.add_comm e e'); reflexivity|]. apply mk5; apply N.mod_lt; lia.
Qed.
Lemma md4_ok : sha1_iv = md4_iv /\ rmd_iv = md4_iv /\ words32 5 md4_iv.
Proof. split; [|split; [|apply mk5]]; vm_compute; reflexivity. Qed.

(** * RIPEMD-160 *)
Definition rord (t : nat) : list nat := map (fun j => (j + 5 - t mod 5) mod 5)%nat (seq 0 5).
Definition rrole (t : nat) (h : list N) : list N := map (fun i => nth i h 0) (rord t).
Definition f_agree (f g : N -> N -> N -> N) : Prop := forall x y z, x < 2 ^ 32 -> y < 2 ^ 32 -> z < 2 ^ 32 -> f x y z = g x y z.
Lemma rord_mod : forall t, rord t = rord (t mod 5).
Proof. intro t. unfold rord. now rewrite Nat.mod_mod by lia. Qed.
Lemma rord_S : forall t, rord (S t) = rord (S (t mod 5)).
Proof. intro t. rewrite rord_mod, (rord_mod (S (t mod 5))). f_equal. rewrite <- (Nat.add_1_r t), <- (Nat.add_1_r (t mod 5)), Nat.add_mod_idemp_l by lia. reflexivity. Qed.
Lemma rmd_round_step : forall f g add data h t idx bits, f_agree f g -> bits <= 32 -> words32 5 h ->
  rrole (S t) (rmd_round f add data h (RRow (rord t) idx bits)) = rmd_step g add (nth idx data 0) bits (rrole t h) /\
  words32 5 (rmd_round f add data h (RRow (rord t) idx bits)).
Proof.
  intros f g add data h t idx bits FG BT G. unfold rrole. rewrite rord_S, (rord_mod t). apply words5 in G as (a & b & c & d & e & -> & A & B & C & D & E).
  pose proof (Nat.mod_upper_bound t 5 ltac:(lia)) as M.
  assert (T : (t mod 5 = 0 \/ t mod 5 = 1 \/ t mod 5 = 2 \/ t mod 5 = 3 \/ t mod 5 = 4)%nat) by lia.
  destruct T as [-> |[-> |[-> |[-> | ->]]]]; cbn -[wadd rotl rol N.add N.modulo N.pow];
  (rewrite FG by auto; rewrite !rotl_rol by (auto using wadd_lt; lia); rewrite !wadd_add;
   split; [unfold wadd; rewrite ?N.add_assoc; reflexivity | apply mk5; auto using wadd_lt; apply rol_lt; auto; lia]).
Qed.
Fixpoint rows_from (t : nat) (rs : list (nat * N)) : list rmd_row :=
  match rs with [] => [] | (i, s) :: rs => RRow (rord t) i s :: rows_from (S t) rs end.
Lemma rmd_rounds_steps : forall f g add data rs t h, f_agree f g -> Forall (fun p => snd p <= 32) rs -> words32 5 h ->
  rrole (t + length rs) (fold_left (rmd_round f add data) (rows_from t rs) h) =
    fold_left (fun r p => rmd_step g add (nth (fst p) data 0) (snd p) r) rs (rrole t h) /\
  words32 5 (fold_left (rmd_round f add data) (rows_from t rs) h).
Proof.
  intros f g add data. induction rs as [|[i s] rs IH]; intros t h FG B G; cbn [length rows_from fold_left fst snd]; [rewrite Nat.add_0_r; auto|].
  apply Forall_cons_iff in B as [BS B]. destruct (rmd_round_step f g add data h t i s FG BS G) as [E G']. rewrite <- E.
  replace (t + S (length rs))%nat with (S t + length rs)%nat by lia. now apply IH.
Qed.
Definition left_rows (j : nat) : list (nat * N) := map (fun i => (rmd_r j i, rmd_s j (rmd_r j i))) (seq 0 16).
Definition right_rows (j : nat) : list (nat * N) := map (fun i => (rmd_r' j i, rmd_s j (rmd_r' j i))) (seq 0 16).
Lemma left_tables : rmd_round1 = rows_from 0 (left_rows 0) /\ rmd_round2 = rows_from 16 (left_rows 1) /\ rmd_round3 = rows_from 32 (left_rows 2) /\
  rmd_round4 = rows_from 48 (left_rows 3) /\ rmd_round5 = rows_from 64 (left_rows 4).
Proof. split; [|split; [|split; [|split]]]; vm_compute; reflexivity. Qed.
Lemma right_tables : rmd_par_round1 = rows_from 0 (right_rows 0) /\ rmd_par_round2 = rows_from 16 (right_rows 1) /\ rmd_par_round3 = rows_from 32 (right_rows 2) /\
  rmd_par_round4 = rows_from 48 (right_rows 3) /\ rmd_par_round5 = rows_from 64 (right_rows 4).
Proof. split; [|split; [|split; [|split]]]; vm_compute; reflexivity. Qed.
Definition low (rs : list (nat * N)) : bool := forallb (fun p => snd p <=? 32) rs.
Lemma low_ok : forall rs, low rs = true -> Forall (fun p => snd p <= 32) rs.
Proof. intros rs H. unfold low in H. rewrite forallb_forall in H. apply Forall_forall. intros p I. apply N.leb_le. now apply H. Qed.
Lemma f_agrees : f_agree rmd_f1 (rmd_f 0) /\ f_agree rmd_f2 (rmd_f 1) /\ f_agree rmd_f3 (rmd_f 2) /\ f_agree rmd_f4 (rmd_f 3) /\ f_agree rmd_f5 (rmd_f 4).
Proof.
  unfold f_agree, rmd_f1, rmd_f2, rmd_f3, rmd_f4, rmd_f5, rmd_f. repeat split; intros; rewrite ?wnot_lnot by auto; reflexivity.
Qed.
Definition line (g : N -> N -> N -> N) (add : N) (data : list N) (rs : list (nat * N)) (r : list N) : list N :=
  fold_left (fun r p => rmd_step g add (nth (fst p) data 0) (snd p) r) rs r.
Lemma fold_map : forall (A B C : Type) (f : A -> C -> A) (g : B -> C) l a, fold_left f (map g l) a = fold_left (fun a x => f a (g x)) l a.
Proof. intros A B C f g. induction l as [|x l IH]; intro a; cbn [map fold_left]; auto. Qed.
Lemma steps_split : rmd_steps = map (pair 0%nat) (seq 0 16) ++ map (pair 1%nat) (seq 0 16) ++ map (pair 2%nat) (seq 0 16) ++ map (pair 3%nat) (seq 0 16) ++ map (pair 4%nat) (seq 0 16).
Proof. vm_compute. reflexivity. Qed.
Lemma left_lines : forall X h, rmd_left X h =
  line (rmd_f 4) (rmd_K 4) X (left_rows 4) (line (rmd_f 3) (rmd_K 3) X (left_rows 3) (line (rmd_f 2) (rmd_K 2) X (left_rows 2)
    (line (rmd_f 1) (rmd_K 1) X (left_rows 1) (line (rmd_f 0) (rmd_K 0) X (left_rows 0) h)))).
Proof. intros X h. unfold rmd_left. rewrite steps_split, !fold_left_app, !fold_map. unfold line, left_rows. rewrite !fold_map. reflexivity. Qed.
Lemma right_lines : forall X h, rmd_right X h =
  line (rmd_f 0) (rmd_K' 4) X (right_rows 4) (line (rmd_f 1) (rmd_K' 3) X (right_rows 3) (line (rmd_f 2) (rmd_K' 2) X (right_rows 2)
    (line (rmd_f 3) (rmd_K' 1) X (right_rows 1) (line (rmd_f 4) (rmd_K' 0) X (right_rows 0) h)))).
Proof. intros X h. unfold rmd_right. rewrite steps_split, !fold_left_app, !fold_map. unfold line, right_rows. rewrite !fold_map. reflexivity. Qed.
Lemma rmd_consts : rmd_K 0 = 0 /\ rmd_K 1 = 0x5a827999 /\ rmd_K 2 = 0x6ed9eba1 /\ rmd_K 3 = 0x8f1bbcdc /\ rmd_K 4 = 0xa953fd4e /\
  rmd_K' 0 = 0x50a28be6 /\ rmd_K' 1 = 0x5c4dd124 /\ rmd_K' 2 = 0x6d703ef3 /\ rmd_K' 3 = 0x7a6d76e9 /\ rmd_K' 4 = 0.
Proof. repeat (split; [vm_compute; reflexivity|]). vm_compute; reflexivity. Qed.
Lemma role0 : forall h, length h = 5%nat -> rrole 0 h = h /\ rrole 80 h = h.
Proof. intros h L. apply len5 in L as (a & b & c & d & e & ->). split; reflexivity. Qed.
Lemma left_len : forall j, length (left_rows j) = 16%nat /\ length (right_rows j) = 16%nat.
Proof. intro j. unfold left_rows, right_rows. now rewrite !map_length, seq_length. Qed.
Lemma line_round : forall f g add data rs t t' h r, f_agree f g -> low rs = true -> (t + length rs = t')%nat -> words32 5 h -> rrole t h = r ->
  rrole t' (fold_left (rmd_round f add data) (rows_from t rs) h) = line g add data rs r /\ words32 5 (fold_left (rmd_round f add data) (rows_from t rs) h).
Proof. intros f g add data rs t t' h r FG LW <- G <-. apply rmd_rounds_steps; auto. now apply low_ok. Qed.
Lemma left_spec : forall data st, words32 5 st ->
  let go f add rows h := fold_left (rmd_round f add data) rows h in
  let r := go rmd_f5 0xa953fd4e rmd_round5 (go rmd_f4 0x8f1bbcdc rmd_round4 (go rmd_f3 0x6ed9eba1 rmd_round3
             (go rmd_f2 0x5a827999 rmd_round2 (go rmd_f1 0 rmd_round1 st)))) in
  r = rmd_left data st /\ words32 5 r.
Proof.
  intros data st G. cbv zeta. rewrite left_lines. destruct left_tables as (-> & -> & -> & -> & ->). destruct rmd_consts as (-> & -> & -> & -> & -> & _).
  destruct f_agrees as (A1 & A2 & A3 & A4 & A5). pose proof (fun j => proj1 (left_len j)) as LL.
  destruct (line_round _ _ 0 data (left_rows 0) 0 16 st st A1 ltac:(vm_compute; reflexivity) ltac:(now rewrite LL) G ltac:(apply role0; apply G)) as [E1 G1].
  destruct (line_round _ _ 0x5a827999 data (left_rows 1) 16 32 _ _ A2 ltac:(vm_compute; reflexivity) ltac:(now rewrite LL) G1 E1) as [E2 G2].
  destruct (line_round _ _ 0x6ed9eba1 data (left_rows 2) 32 48 _ _ A3 ltac:(vm_compute; reflexivity) ltac:(now rewrite LL) G2 E2) as [E3 G3].
  destruct (line_round _ _ 0x8f1bbcdc data (left_rows 3) 48 64 _ _ A4 ltac:(vm_compute; reflexivity) ltac:(now rewrite LL) G3 E3) as [E4 G4].
  destruct (line_round _ _ 0xa953fd4e data (left_rows 4) 64 80 _ _ A5 ltac:(vm_compute; reflexivity) ltac:(now rewrite LL) G4 E4) as [E5 G5].
  split; [|exact G5]. rewrite <- E5. symmetry. apply role0. apply G5.
Qed.
Lemma right_spec : forall data st, words32 5 st ->
  let go f add rows h := fold_left (rmd_round f add data) rows h in
  let r := go rmd_f1 0 rmd_par_round5 (go rmd_f2 0x7a6d76e9 rmd_par_round4 (go rmd_f3 0x6d703ef3 rmd_par_round3
              (go rmd_f4 0x5c4dd124 rmd_par_round2 (go rmd_f5 0x50a28be6 rmd_par_round1 st)))) in
  r = rmd_right data st /\ words32 5 r.
Proof.
  intros data st G. cbv zeta. rewrite right_lines. destruct right_tables as (-> & -> & -> & -> & ->). destruct rmd_consts as (_ & _ & _ & _ & _ & -> & -> & -> & -> & ->).
  destruct f_agrees as (A1 & A2 & A3 & A4 & A5). pose proof (fun j => proj2 (left_len j)) as LL.
  destruct (line_round _ _ 0x50a28be6 data (right_rows 0) 0 16 st st A5 ltac:(vm_compute; reflexivity) ltac:(now rewrite LL) G ltac:(apply role0; apply G)) as [E1 G1].
  destruct (line_round _ _ 0x5c4dd124 data (right_rows 1) 16 32 _ _ A4 ltac:(vm_compute; reflexivity) ltac:(now rewrite LL) G1 E1) as [E2 G2].
  destruct (line_round _ _ 0x6d703ef3 data (right_rows 2) 32 48 _ _ A3 ltac:(vm_compute; reflexivity) ltac:(now rewrite LL) G2 E2) as [E3 G3].
  destruct (line_round _ _ 0x7a6d76e9 data (right_rows 3) 48 64 _ _ A2 ltac:(vm_compute; reflexivity) ltac:(now rewrite LL) G3 E3) as [E4 G4].
  destruct (line_round _ _ 0 data (right_rows 4) 64 80 _ _ A1 ltac:(vm_compute; reflexivity) ltac:(now rewrite LL) G4 E4) as [E5 G5].
  split; [|exact G5]. rewrite <- E5. symmetry. apply role0. apply G5.
Qed.
Lemma rmd_comp_spec : forall st b, words32 5 st -> bytes_ok b -> lenN b = 64 -> rmd_comp st b = rmd_compress st b /\ words32 5 (rmd_compress st b).
Proof.
  intros st b G OK L. destruct (block_split 4 16 b ltac:(lia) OK L) as (ls & -> & F & LL & FO). unfold rmd_comp, rmd_compress.
  rewrite chunks_full, blocks_full by (auto; lia). set (data := map le_val ls). cbv zeta.
  pose proof G as G0. apply words5 in G0 as (a & b & c & d & e & -> & _).
  destruct (left_spec data _ G) as [EL GL]. destruct (right_spec data _ G) as [ER GR]. cbv zeta in EL, ER. rewrite EL, ER. rewrite EL in GL. rewrite ER in GR. clear EL ER.
  revert GL GR. generalize (rmd_left data [a; b; c; d; e]) (rmd_right data [a; b; c; d; e]). intros l r GL GR.
  apply words5 in GL as (A & B & C & D & E & -> & _). apply words5 in GR as (A' & B' & C' & D' & E' & -> & _).
  cbn [upd at_ nth]. rewrite !wadd_add. unfold wadd, add3. split; [rewrite (N.add_comm D' (b + C)), ?N.add_assoc; reflexivity|]. apply mk5; apply N.mod_lt; lia.
Qed.

(** * The engines *)
Lemma finalize_with : forall comp1 comp2 enc iv m e, (forall v, lenN (enc v) = 8) -> (forall v, bytes_ok (enc v)) -> words32 5 iv ->
  (forall st b, words32 5 st -> bytes_ok b -> lenN b = 64 -> comp1 st b = comp2 st b /\ words32 5 (comp2 st b)) ->
  absorbed 64 comp1 iv 0 m e -> bytes_ok m -> lenN m < 2 ^ 61 -> finalize_md 64 comp1 8 enc e = Ret (iterate 64 comp2 iv (md_pad 64 8 enc m)).
Proof.
  intros c1 c2 enc iv m e EL EO G CE A OK L. rewrite (finalize_md_spec 64 c1 ltac:(lia) 8 enc iv m e ltac:(lia) ltac:(lia) EL A L).
  rewrite N.sub_diag, N.add_0_r. fold (md_pad 64 8 enc m). f_equal.
  apply (iterate_ext _ (words32 5) 64 c1 c2 iv (md_pad 64 8 enc m)); auto; [lia|apply md_pad_mod; [lia|auto]|apply md_pad_ok; auto].
Qed.
Lemma sha1_finalize_spec : forall m e, absorbed 64 sha1_comp sha1_iv 0 m e -> bytes_ok m -> lenN m < 2 ^ 61 -> sha1_finalize e = Ret (SHA1 m).
Proof.
  intros m e A OK L. unfold sha1_finalize. destruct md4_ok as (I1 & I2 & G). rewrite I1 in A.
  rewrite (finalize_with sha1_comp sha1_compress (be_bytes 8) md4_iv m e (be_bytes_len 8) (be_bytes_ok 8) G sha1_comp_spec A OK L). reflexivity.
Qed.
Lemma le_bytes_len : forall n v, lenN (le_bytes n v) = N.of_nat n.
Proof. intros. unfold lenN. now rewrite le_bytes_length. Qed.
Lemma rmd_finalize_spec : forall m e, absorbed 64 rmd_comp rmd_iv 0 m e -> bytes_ok m -> lenN m < 2 ^ 61 -> rmd_finalize e = Ret (RIPEMD160 m).
Proof.
  intros m e A OK L. unfold rmd_finalize. destruct md4_ok as (I1 & I2 & G). rewrite I2 in A.
  rewrite (finalize_with rmd_comp rmd_compress (le_bytes 8) md4_iv m e (le_bytes_len 8) (le_bytes_ok 8) G rmd_comp_spec A OK L). reflexivity.
Qed.
Lemma rmd_hash_spec : forall m, bytes_ok m -> lenN m < 2 ^ 61 -> rmd_hash m = Ret (RIPEMD160 m).
Proof.
  intros m OK L. unfold rmd_hash, rmd_input.
  destruct (input_absorbed 64 rmd_comp ltac:(lia) rmd_iv 0 [] (engine_new 64 rmd_iv) m (new_absorbed 64 rmd_comp ltac:(lia) rmd_iv) ltac:(rewrite lenN_nil; change (2 ^ 64) with (8 * 2 ^ 61); lia)) as (e & E & A).
  rewrite E. cbn [rbind]. now apply rmd_finalize_spec.
Qed.
