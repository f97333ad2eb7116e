(** Lemmas: the code's SHA3-256 is the standard's. *)
From Verif Require Import Base MDec LDec LU256 MHash SHash LHash MSha2 SSha2 LSha2 SHashApi LSha2b MHash2 SHash2 LHash2.
Local Open Scope N_scope.

Definition ok25 (A : list N) : Prop := length A = 25%nat /\ forall i, nth i A 0 < 2 ^ 64.
Lemma len25 : forall (A : list N), length A = 25%nat -> exists a0 a1 a2 a3 a4 a5 a6 a7 a8 a9 a10 a11 a12 a13 a14 a15 a16 a17 a18 a19 a20 a21 a22 a23 a24,
  A = [a0; a1; a2; a3; a4; a5; a6; a7; a8; a9; a10; a11; a12; a13; a14; a15; a16; a17; a18; a19; a20; a21; a22; a23; a24].
Proof. intros r L. do 25 (destruct r as [|? r]; [discriminate|]). destruct r; [|discriminate]. repeat eexists. Qed.
Lemma lane_ok : forall A x y, ok25 A -> lane_of A x y < 2 ^ 64.
Proof. intros A x y [_ H]. apply H. Qed.
Lemma tab_ok : forall f, (forall x y, f x y < 2 ^ 64) -> ok25 (tabulate f).
Proof.
  intros f H. split; [unfold tabulate; now rewrite map_length, seq_length|]. intro i. unfold tabulate.
  destruct (nth_in_or_default i (map (fun i => f (i mod 5)%nat (i / 5)%nat) (seq 0 25)) 0) as [I| ->]; [|reflexivity].
  apply in_map_iff in I as (j & <- & _). apply H.
Qed.
(** [theta] with the rotation and the complement of the code *)
Lemma theta_shape : forall A, length A = 25%nat ->
  keccak_theta A = tabulate (fun x y => N.lxor (lane_of A x y) (N.lxor (column_xor A ((x + 4) mod 5)) (rotl 64 1 (column_xor A ((x + 1) mod 5))))).
Proof.
  intros A L. apply len25 in L as (a0 & a1 & a2 & a3 & a4 & a5 & a6 & a7 & a8 & a9 & a10 & a11 & a12 & a13 & a14 & a15 & a16 & a17 & a18 & a19 & a20 & a21 & a22 & a23 & a24 & ->).
  cbv -[rotl N.lxor]. reflexivity.
Qed.
Lemma column : forall A x, column_xor A (x mod 5) = N.lxor (N.lxor (N.lxor (N.lxor (lane_of A x 0) (lane_of A x 1)) (lane_of A x 2)) (lane_of A x 3)) (lane_of A x 4).
Proof. intros. reflexivity. Qed.
Lemma theta_spec : forall A, ok25 A -> keccak_theta A = theta A /\ ok25 (theta A).
Proof.
  intros A G. assert (E : keccak_theta A = theta A).
  { rewrite theta_shape by apply G. unfold theta. unfold tabulate. apply map_ext. intro i. rewrite !column. rewrite rotl_rol; [reflexivity| |lia].
    repeat apply lxor_lt; now apply lane_ok. }
  split; [exact E|]. unfold theta. apply tab_ok. intros x y.
  repeat (apply lxor_lt || apply rol_lt); try (now apply lane_ok). lia.
Qed.
Lemma rho_pi_shape : forall A, length A = 25%nat ->
  keccak_rho_pi A = pi3 (tabulate (fun x y => rotl 64 (offset x y) (lane_of A x y))).
Proof.
  intros A L. apply len25 in L as (a0 & a1 & a2 & a3 & a4 & a5 & a6 & a7 & a8 & a9 & a10 & a11 & a12 & a13 & a14 & a15 & a16 & a17 & a18 & a19 & a20 & a21 & a22 & a23 & a24 & ->).
  cbv -[rotl]. reflexivity.
Qed.
Lemma offset_le : forall x y, offset x y <= 64.
Proof.
  intros x y. unfold offset. assert (H : forall l acc, acc <= 64 -> fold_left (fun acc '(t, (x', y')) => if Nat.eqb x x' && Nat.eqb y y' then ((N.of_nat t + 1) * (N.of_nat t + 2) / 2) mod 64 else acc) l acc <= 64).
  { induction l as [|[t [x' y']] l IH]; intros acc H; cbn [fold_left]; auto. apply IH. destruct (_ && _); auto. apply N.lt_le_incl. apply N.mod_lt. lia. }
  apply H. lia.
Qed.
Lemma rho_ok : forall A, ok25 A -> ok25 (rho3 A).
Proof. intros A G. apply tab_ok. intros. apply rol_lt; [now apply lane_ok|apply offset_le]. Qed.
Lemma pi_ok : forall A, ok25 A -> ok25 (pi3 A).
Proof. intros A G. apply tab_ok. intros. now apply lane_ok. Qed.
Lemma rho_pi_spec : forall A, ok25 A -> keccak_rho_pi A = pi3 (rho3 A) /\ ok25 (pi3 (rho3 A)).
Proof.
  intros A G. split; [|apply pi_ok, rho_ok, G]. rewrite rho_pi_shape by apply G. f_equal. unfold rho3, tabulate. apply map_ext. intro i.
  apply rotl_rol; [now apply lane_ok|apply offset_le].
Qed.
Lemma chi_shape : forall B A, length B = 25%nat -> length A = 25%nat ->
  keccak_chi B A = tabulate (fun x y => N.lxor (lane_of B x y) (N.land (wnot 64 (lane_of B (x + 1) y)) (lane_of B (x + 2) y))).
Proof.
  intros B A LB LA. apply len25 in LA as (a0 & a1 & a2 & a3 & a4 & a5 & a6 & a7 & a8 & a9 & a10 & a11 & a12 & a13 & a14 & a15 & a16 & a17 & a18 & a19 & a20 & a21 & a22 & a23 & a24 & ->).
  apply len25 in LB as (b0 & b1 & b2 & b3 & b4 & b5 & b6 & b7 & b8 & b9 & b10 & b11 & b12 & b13 & b14 & b15 & b16 & b17 & b18 & b19 & b20 & b21 & b22 & b23 & b24 & ->).
  cbv -[wnot N.lxor N.land]. reflexivity.
Qed.
Lemma chi_spec : forall B A, ok25 B -> length A = 25%nat -> keccak_chi B A = chi3 B /\ ok25 (chi3 B).
Proof.
  intros B A G L. split.
  - rewrite chi_shape by (auto; apply G). unfold chi3, tabulate. apply map_ext. intro i. rewrite wnot_lnot; [reflexivity|now apply lane_ok].
  - apply tab_ok. intros. apply lxor_lt; [now apply lane_ok|]. apply land_lt. now apply lane_ok.
Qed.
Lemma iota_spec : forall A ir, ok25 A -> RC ir < 2 ^ 64 -> upd (ind 0 0) (N.lxor (lane A 0 0) (RC ir)) A = iota3 ir A /\ ok25 (iota3 ir A).
Proof.
  intros A ir G R. split.
  - destruct G as [L _]. apply len25 in L as (a0 & a1 & a2 & a3 & a4 & a5 & a6 & a7 & a8 & a9 & a10 & a11 & a12 & a13 & a14 & a15 & a16 & a17 & a18 & a19 & a20 & a21 & a22 & a23 & a24 & ->).
    unfold iota3. generalize (RC ir). intro r. cbv -[N.lxor]. reflexivity.
  - apply tab_ok. intros x y. destruct (_ && _); [apply lxor_lt; auto|]; now apply lane_ok.
Qed.
Lemma round_spec : forall A ir, ok25 A -> RC ir < 2 ^ 64 ->
  keccak_round A (RC ir) = iota3 ir (chi3 (pi3 (rho3 (theta A)))) /\ ok25 (iota3 ir (chi3 (pi3 (rho3 (theta A))))).
Proof.
  intros A ir G R. unfold keccak_round. destruct (theta_spec A G) as [-> G1]. destruct (rho_pi_spec _ G1) as [-> G2].
  destruct (chi_spec _ (theta A) G2 (proj1 G1)) as [-> G3]. apply iota_spec; auto.
Qed.
Lemma rcs : ROUND_CONSTANTS = map RC (seq 0 24).
Proof. vm_compute. reflexivity. Qed.
Lemma rc_lt : forall ir, In ir (seq 0 24) -> RC ir < 2 ^ 64.
Proof.
  intros ir I. assert (H : forallb (fun v => v <? 2 ^ 64) ROUND_CONSTANTS = true) by (vm_compute; reflexivity).
  rewrite rcs, forallb_forall in H. apply N.ltb_lt. apply H. now apply in_map.
Qed.
Lemma fold_agree : forall (A B : Type) (P : A -> Prop) (f g : A -> B -> A) l a, P a ->
  (forall a x, In x l -> P a -> f a x = g a x /\ P (g a x)) -> fold_left f l a = fold_left g l a /\ P (fold_left g l a).
Proof.
  intros A B P f g. induction l as [|x l IH]; intros a PA H; cbn [fold_left]; [auto|].
  destruct (H a x (or_introl eq_refl) PA) as [-> PG]. apply IH; auto. intros; apply H; auto. now right.
Qed.
#[global] Opaque keccak_round RC iota3 chi3 pi3 rho3 theta.
Lemma keccak_spec : forall A, ok25 A -> keccakf1600 A = keccak_f A /\ ok25 (keccak_f A).
Proof.
  intros A G. unfold keccakf1600. rewrite rcs, fold_map.
  exact (fold_agree _ _ ok25 (fun A ir => keccak_round A (RC ir)) (fun A ir => iota3 ir (chi3 (pi3 (rho3 (theta A))))) (seq 0 24) A G (fun a x I PA => round_spec a x PA (rc_lt x I))).
Qed.
#[global] Opaque keccakf1600 keccak_f.
Lemma take_block : forall ls i, full 8 ls -> (i < length ls)%nat -> takeN 8 (dropN (8 * N.of_nat i) (concat ls)) = nth i ls [].
Proof.
  intros ls i F. revert i. induction F as [|b ls L F IH]; intros i I; cbn [length] in I; [lia|]. cbn [concat nth]. destruct i as [|i].
  - rewrite N.mul_0_r, dropN_0, takeN_app_le by lia. rewrite takeN_all by lia. reflexivity.
  - rewrite dropN_app_ge by lia. replace (8 * N.of_nat (S i) - lenN b) with (8 * N.of_nat i) by lia. apply IH. lia.
Qed.
Lemma len17 : forall (A : list N), length A = 17%nat -> exists a0 a1 a2 a3 a4 a5 a6 a7 a8 a9 a10 a11 a12 a13 a14 a15 a16,
  A = [a0; a1; a2; a3; a4; a5; a6; a7; a8; a9; a10; a11; a12; a13; a14; a15; a16].
Proof. intros r L. do 17 (destruct r as [|? r]; [discriminate|]). destruct r; [|discriminate]. repeat eexists. Qed.
Lemma absorb_shape : forall A P, length A = 25%nat -> length P = 17%nat ->
  fold_left (fun s i => let '(x, y) := (i mod 5, i / 5)%nat in upd (ind x y) (N.lxor (lane s x y) (nth i P 0)) s) (seq 0 17) A =
  tabulate (fun x y => N.lxor (lane_of A x y) (nth (x + 5 * y) P 0)).
Proof.
  intros A P LA LP. apply len25 in LA as (a0 & a1 & a2 & a3 & a4 & a5 & a6 & a7 & a8 & a9 & a10 & a11 & a12 & a13 & a14 & a15 & a16 & a17 & a18 & a19 & a20 & a21 & a22 & a23 & a24 & ->).
  apply len17 in LP as (p0 & p1 & p2 & p3 & p4 & p5 & p6 & p7 & p8 & p9 & p10 & p11 & p12 & p13 & p14 & p15 & p16 & ->).
  cbv -[N.lxor]. rewrite !N.lxor_0_r. reflexivity.
Qed.
Lemma fold_ext_in : forall (A B : Type) (f g : A -> B -> A) l a, (forall a x, In x l -> f a x = g a x) -> fold_left f l a = fold_left g l a.
Proof.
  intros A B f g. induction l as [|x l IH]; intros a H; cbn [fold_left]; auto. rewrite H by now left. apply IH. intros; apply H; now right.
Qed.
Lemma word_lt : forall (ls : list bytes) i, full 8 ls -> Forall bytes_ok ls -> le_val (nth i ls []) < 2 ^ 64.
Proof.
  intros ls i F FO. destruct (nth_in_or_default i ls []) as [I| ->]; [|vm_compute; reflexivity].
  change (2 ^ 64) with (256 ^ 8). unfold full in F. rewrite Forall_forall in F, FO. rewrite <- (F _ I). apply le_val_lt. now apply FO.
Qed.
Lemma sha3_comp_spec : forall A b, ok25 A -> bytes_ok b -> lenN b = 136 -> sha3_comp A b = sha3_compress A b /\ ok25 (sha3_compress A b).
Proof.
  intros A b G OK L. destruct (block_split 8 17 b ltac:(lia) OK L) as (ls & -> & F & LL & FO). unfold sha3_comp, sha3_compress.
  rewrite blocks_full by (auto; lia). assert (LS : length ls = 17%nat) by (apply Nat2N.inj; exact LL). set (P := map le_val ls).
  assert (E : keccak_absorb A (concat ls) = tabulate (fun x y => N.lxor (lane_of A x y) (nth (x + 5 * y) P 0))).
  { rewrite <- absorb_shape by (first [exact (proj1 G) | unfold P; now rewrite map_length]). unfold keccak_absorb. apply fold_ext_in. intros a i I. apply in_seq in I.
    rewrite take_block; [|exact F|exact (eq_ind_r (fun k => (i < k)%nat) (proj2 I) LS)]. unfold P. pose proof (map_nth le_val ls [] i) as MN. change (le_val []) with 0 in MN. rewrite MN. reflexivity. }
  rewrite E. apply keccak_spec. apply tab_ok. intros x y. apply lxor_lt; [now apply lane_ok|].
  unfold P. pose proof (map_nth le_val ls [] (x + 5 * y)) as MN. change (le_val []) with 0 in MN. rewrite MN. now apply word_lt.
Qed.
Lemma sha3_pad_mod : forall m, lenN (sha3_pad 136 m) mod 136 = 0.
Proof.
  intro m. unfold sha3_pad. pose proof (fill_mod 136 (lenN m + 1) ltac:(lia)) as M. destruct (N.eqb_spec (fill 136 (lenN m + 1)) 0) as [Z|Z].
  - rewrite Z, N.add_0_r in M. rewrite lenN_app. exact M.
  - rewrite lenN_app, lenN_cons, lenN_app, repeat0_len, N2Nat.id. change (lenN [128]) with 1.
    replace (lenN m + (1 + (fill 136 (lenN m + 1) - 1 + 1))) with (lenN m + 1 + fill 136 (lenN m + 1)) by lia. exact M.
Qed.
Lemma sha3_pad_ok : forall m, bytes_ok m -> bytes_ok (sha3_pad 136 m).
Proof.
  intros m OK. unfold sha3_pad. destruct (_ =? 0); apply bytes_ok_app; split; auto; apply bytes_ok_cons; (split; [unfold byte_ok; lia|]); [constructor|].
  apply bytes_ok_app. split; [apply repeat0_ok|]. apply bytes_ok_cons. split; [unfold byte_ok; lia|constructor].
Qed.
Lemma zero_ok : ok25 (repeat 0 25).
Proof. split; [reflexivity|]. intro i. destruct (nth_in_or_default i (repeat 0 25) 0) as [I| ->]; [|reflexivity]. apply repeat_spec in I as ->. reflexivity. Qed.
Lemma out4 : forall A, length A = 25%nat -> concat (map (fun x => le_bytes 8 (lane A x 0)) (seq 0 4)) = takeN 32 (concat (map (le_bytes 8) A)).
Proof.
  intros A L. apply len25 in L as (a0 & a1 & a2 & a3 & a4 & a5 & a6 & a7 & a8 & a9 & a10 & a11 & a12 & a13 & a14 & a15 & a16 & a17 & a18 & a19 & a20 & a21 & a22 & a23 & a24 & ->).
  cbn [seq map lane ind nth Nat.add Nat.mul concat]. rewrite app_nil_r.
  assert (T : forall a b c d r : bytes, lenN a = 8 -> lenN b = 8 -> lenN c = 8 -> lenN d = 8 -> a ++ b ++ c ++ d = takeN 32 (a ++ b ++ c ++ d ++ r)).
  { clear. intros a b c d r A B C D. replace (a ++ b ++ c ++ d ++ r) with ((a ++ b ++ c ++ d) ++ r) by (now rewrite <- !app_assoc).
    rewrite takeN_app_le by (rewrite !lenN_app; lia). rewrite takeN_all by (rewrite !lenN_app; lia). reflexivity. }
  apply T; apply le_bytes_len.
Qed.
Lemma sha3_finalize_spec : forall m e, absorbed 136 sha3_comp (repeat 0 25) 0 m e -> bytes_ok m -> sha3_finalize e = Ret (SHA3_256 m).
Proof.
  intros m e A OK. unfold sha3_finalize. rewrite (finalize_sha3_spec 136 sha3_comp ltac:(lia) (repeat 0 25) m e ltac:(lia) A).
  destruct (iterate_ext _ ok25 136 sha3_comp sha3_compress (repeat 0 25) (sha3_pad 136 m) ltac:(lia) (sha3_pad_mod m) (sha3_pad_ok m OK) zero_ok sha3_comp_spec) as [E G].
  rewrite E. cbn [rbind]. rewrite out4 by apply G. reflexivity.
Qed.
