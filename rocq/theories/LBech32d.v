(** Four wrong symbols of a segwit address text, and texts of different versions. *)
From Coq Require Import Lia.
From Verif Require Import Base SBech32 MBech32 LHash2 LBech32 LBech32b LBech32c.
Local Open Scope N_scope.

(** ** No four symbols cancel *)
Fixpoint rowlist (n : nat) (l : list N) : list (list N) := match n with O => [] | S n' => let l' := map shift1 l in l' :: rowlist n' l' end.
Definition absent (t : trie) (x : N) : bool := match x with N0 => false | Npos p => negb (mem p t) end.
Fixpoint pairs_ok (t : trie) (rs : list (list N)) : bool :=
  match rs with
  | [] => true
  | r :: rest => forallb (fun a => let a1 := N.lxor a 1 in forallb (forallb (fun b => absent t (N.lxor a1 b))) rest) r && pairs_ok t rest
  end.
Definition HALF : nat := 37.
Definition SPAN4 : nat := 74.
Definition low4 : list (list N) := rowlist HALF symbols.
Definition high4 : list (list N) := rowlist HALF (map (zs HALF) symbols).
Definition all4 : list N := rows SPAN4 symbols.
(** of three positions two lie in the same half *)
Lemma pairs_check : (let t := collect all4 in pairs_ok t low4 && pairs_ok t high4) = true.
Proof. vm_compute. reflexivity. Qed.
Lemma absent_ok : forall l x, absent (collect l) x = true -> x <> 0 /\ ~ In x l.
Proof.
  intros l [|p] H; [discriminate|]. split; [discriminate|]. intro I. cbn [absent] in H. rewrite (collect_in p l I) in H. discriminate.
Qed.
Lemma pairs_spec : forall t rs i j r s a b, pairs_ok t rs = true -> nth_error rs i = Some r -> nth_error rs j = Some s -> (i < j)%nat -> In a r -> In b s ->
  absent t (N.lxor (N.lxor a 1) b) = true.
Proof.
  intros t rs. induction rs as [|x rs IH]; intros i j r s a b H I J L A B; [destruct i; discriminate|]. cbn [pairs_ok] in H. apply andb_true_iff in H. destruct H as [H H'].
  destruct j as [|j]; [lia|]. cbn [nth_error] in J. destruct i as [|i].
  - injection I as ->. rewrite forallb_forall in H. specialize (H a A). cbv zeta in H. rewrite forallb_forall in H. specialize (H s (nth_error_In _ _ J)). rewrite forallb_forall in H. apply H, B.
  - apply (IH i j r s a b H' I J); auto. lia.
Qed.
Lemma rowlist_nth : forall n l i, (i < n)%nat -> nth_error (rowlist n l) i = Some (map (zs (S i)) l).
Proof.
  induction n as [|n IH]; intros l i L; [lia|]. cbn [rowlist]. cbv zeta. destruct i as [|i]; [reflexivity|]. cbn [nth_error]. rewrite IH by lia. rewrite map_map. f_equal. apply map_ext. intro a. rewrite (zs_S' (S i)). reflexivity.
Qed.
Lemma in_symbols : forall e, e < 32 -> e <> 0 -> In e symbols.
Proof. intros e E NZ. apply in_map_iff. exists (N.to_nat e). split; [lia|]. apply in_seq. lia. Qed.
Lemma all4_in : forall e j, e < 32 -> e <> 0 -> (1 <= j <= SPAN4)%nat -> In (zs j e) all4.
Proof. intros e j E NZ J. apply rows_in; [|exact J]. apply in_symbols; auto. Qed.
(** two symbols in the same half, a third anywhere *)
Lemma same_half : forall e f g i j k, e < 32 -> f < 32 -> g < 32 -> e <> 0 -> f <> 0 -> g <> 0 -> (1 <= i)%nat -> (i < j <= SPAN4)%nat -> (j <= HALF \/ HALF < i)%nat -> (1 <= k <= SPAN4)%nat ->
  N.lxor (N.lxor (zs i e) (zs j f)) (zs k g) <> 1.
Proof.
  intros e f g i j k E F G NE NF NG I J HH K X. pose proof pairs_check as C. cbv zeta in C. apply andb_true_iff in C. destruct C as [C1 C2].
  assert (Y : absent (collect all4) (N.lxor (N.lxor (zs i e) 1) (zs j f)) = true).
  { destruct HH as [HH|HH].
    - apply (pairs_spec _ low4 (i - 1) (j - 1) (map (zs (S (i - 1))) symbols) (map (zs (S (j - 1))) symbols)); [exact C1|apply rowlist_nth; unfold HALF in *; lia|apply rowlist_nth; unfold HALF in *; lia|lia| |].
      + replace (S (i - 1)) with i by lia. apply in_map, in_symbols; auto.
      + replace (S (j - 1)) with j by lia. apply in_map, in_symbols; auto.
    - assert (R : forall i', (HALF < i' <= SPAN4)%nat -> nth_error high4 (i' - HALF - 1) = Some (map (zs i') symbols)).
      { intros i' L. unfold high4. rewrite rowlist_nth by (unfold HALF, SPAN4 in *; lia). rewrite map_map. f_equal. apply map_ext. intro a. rewrite <- zs_add. f_equal. unfold HALF in *. lia. }
      apply (pairs_spec _ high4 (i - HALF - 1) (j - HALF - 1) (map (zs i) symbols) (map (zs j) symbols)); [exact C2|apply R; lia|apply R; lia|lia|apply in_map, in_symbols; auto|apply in_map, in_symbols; auto]. }
  apply absent_ok in Y. destruct Y as [_ Y]. apply Y. assert (N.lxor (N.lxor (zs i e) 1) (zs j f) = zs k g) as ->; [|apply all4_in; auto].
  rewrite <- X, <- (N.lxor_assoc (zs i e)). rewrite <- (N.lxor_assoc (zs i e)), N.lxor_nilpotent, N.lxor_0_l. rewrite (N.lxor_comm (zs j f)), N.lxor_assoc, N.lxor_nilpotent, N.lxor_0_r. reflexivity.
Qed.
Lemma four_one : forall e f g i j k, e < 32 -> f < 32 -> g < 32 -> e <> 0 -> f <> 0 -> g <> 0 -> (1 <= k)%nat -> (k < j)%nat -> (j < i <= SPAN4)%nat ->
  N.lxor (N.lxor (zs i e) (zs j f)) (zs k g) <> 1.
Proof.
  intros e f g i j k E F G NE NF NG K J I X. destruct (Nat.le_gt_cases j HALF) as [L|L].
  - apply (same_half g f e k j i); auto; try lia. rewrite <- X. rewrite (N.lxor_comm (zs k g)), (N.lxor_comm _ (zs i e)), <- N.lxor_assoc. reflexivity.
  - apply (same_half f e g j i k); auto; try lia. rewrite <- X. f_equal. apply N.lxor_comm.
Qed.
Lemma four_errors : forall e f g h i j k, e < 32 -> f < 32 -> g < 32 -> h < 32 -> e <> 0 -> f <> 0 -> g <> 0 -> h <> 0 -> (1 <= k)%nat -> (k < j)%nat -> (j < i <= SPAN4)%nat ->
  N.lxor (N.lxor (zs i e) (zs j f)) (zs k g) <> h.
Proof.
  intros e f g h i j k E F G H NE NF NG NH K J I X. destruct (to_one h H NH) as [m M]. destruct (mulk_small m e E) as [A B], (mulk_small m f F) as [A' B'], (mulk_small m g G) as [A'' B''].
  apply (four_one (mulk m e) (mulk m f) (mulk m g) i j k); auto. rewrite <- !mulk_zs, <- !mulk_xor, X by assumption. exact M.
Qed.
(** one step: the first symbol that is not zero *)
Lemma four_detects : forall d, small d -> (length d <= S SPAN4)%nat -> (nonzero d <= 4)%nat -> val d = 0 -> Forall (fun e => e = 0) d.
Proof.
  intros d F L K V. destruct (Nat.le_gt_cases (nonzero d) 3) as [K3|K3]; [apply val_detects; auto; unfold SPAN, SPAN4 in *; lia|].
  destruct (strip d) as [Z|(z1 & e & d1 & -> & NE)]; [exact Z|exfalso].
  rewrite val_zeros in V. rewrite nonzero_strip in K, K3 by exact NE. apply small_app in F. destruct F as [_ F]. inversion F as [|? ? E F1]; subst. rewrite app_length in L. cbn [length] in L. clear F. cbn [val] in V.
  assert (NZ : forall d, Forall (fun e => e = 0) d -> nonzero d = 0%nat) by (clear; intros d Z; induction Z as [|e d E Z IH]; [reflexivity|]; unfold nonzero in *; cbn [filter]; rewrite E; exact IH).
  destruct (strip d1) as [Z|(z2 & f & d2 & -> & NF)]; [rewrite (NZ d1 Z) in K3; lia|].
  rewrite val_zeros in V. rewrite nonzero_strip in K, K3 by exact NF. apply small_app in F1. destruct F1 as [_ F1]. inversion F1 as [|? ? G F2]; subst. rewrite app_length in *. cbn [length] in *. rewrite ?repeat_length in *. cbn [val] in V.
  destruct (strip d2) as [Z|(z3 & g & d3 & -> & NG)]; [rewrite (NZ d2 Z) in K3; lia|].
  rewrite val_zeros in V. rewrite nonzero_strip in K, K3 by exact NG. apply small_app in F2. destruct F2 as [_ F2]. inversion F2 as [|? ? H F3]; subst. rewrite app_length in *. cbn [length] in *. rewrite ?repeat_length in *. cbn [val] in V.
  destruct (strip d3) as [Z|(z4 & h & d4 & -> & NH)]; [rewrite (NZ d3 Z) in K3; lia|].
  rewrite val_zeros in V. rewrite nonzero_strip in K, K3 by exact NH. apply small_app in F3. destruct F3 as [_ F3]. inversion F3 as [|? ? HH F4]; subst. rewrite app_length in *. cbn [length] in *. rewrite ?repeat_length in *. cbn [val] in V.
  destruct (strip d4) as [Z|(z5 & x & d5 & -> & NX)]; [|rewrite nonzero_strip in K by exact NX; lia].
  rewrite (val_all_zero d4 Z), N.lxor_0_r in V. rewrite <- !N.lxor_assoc in V. apply N.lxor_eq in V.
  replace (z2 + S (z3 + S (z4 + S (length d4))))%nat with (length d4 + (z2 + S (S (z3 + S z4))))%nat in V by lia.
  replace (z3 + S (z4 + S (length d4)))%nat with (length d4 + (z3 + S (S z4)))%nat in V by lia.
  replace (z4 + S (length d4))%nat with (length d4 + S z4)%nat in V by lia. rewrite !(zs_add (length d4)), <- !zs_xor in V.
  apply zs_inj in V; [|apply lxor_lt; [apply lxor_lt|]; apply zs_lt, lt30; assumption|apply lt30, HH]. revert V. apply four_errors; auto; lia.
Qed.
(** at most four changed symbols change the residue *)
Lemma polymod_four : forall pre l m, small pre -> small l -> small m -> length l = length m -> (length l <= S SPAN4)%nat -> (nonzero (xors l m) <= 4)%nat ->
  polymod (pre ++ l) = polymod (pre ++ m) -> l = m.
Proof.
  intros pre l m P L M E K NZ H. unfold polymod in H. rewrite !fold_left_app in H. set (a := fold_left polymod_step pre 1) in *. rewrite !fold_val, E in H by assumption.
  apply xors_zero; [exact E|]. apply four_detects; [apply xors_small; assumption|rewrite xors_len by exact E; exact K|exact NZ|]. rewrite val_xors by exact E.
  set (z := zs (length m) a) in *. clearbody z. apply (f_equal (N.lxor z)) in H. rewrite <- !N.lxor_assoc, N.lxor_nilpotent, !N.lxor_0_l in H. rewrite H. apply N.lxor_nilpotent.
Qed.

(** ** Different residues: the first symbol and at most two others *)
Definition shifted (n : nat) : list N := symbols ++ rows (n - 1) symbols.
Lemma shifted_in : forall n j e, (j < n)%nat -> e < 32 -> e <> 0 -> In (zs j e) (shifted n).
Proof.
  intros n j e L E NZ. apply in_or_app. destruct j as [|j]; [left; apply in_symbols; auto|right]. apply rows_in; [apply in_symbols; auto|lia].
Qed.
(** the difference of the two residues *)
Definition GAP : N := N.lxor 1 0x2bc830a3.
Definition gap_ok (n : nat) : bool :=
  let l := shifted n in let t := collect l in
  forallb (fun x => let y := N.lxor GAP (zs n x) in absent t y && forallb (fun a => absent t (N.lxor y a)) l) symbols.
Lemma gap_check : gap_ok 38 = true /\ gap_ok 58 = true.
Proof. split; vm_compute; reflexivity. Qed.
Lemma val_cases : forall d, small d -> (nonzero d <= 2)%nat ->
  val d = 0 \/ (exists j e, (j < length d)%nat /\ e < 32 /\ e <> 0 /\ val d = zs j e) \/
  (nonzero d = 2%nat /\ exists i j e f, (j < i < length d)%nat /\ e < 32 /\ f < 32 /\ e <> 0 /\ f <> 0 /\ val d = N.lxor (zs i e) (zs j f)).
Proof.
  intros d F K. destruct (strip d) as [Z|(z1 & e & d1 & -> & NE)]; [left; apply val_all_zero, Z|right].
  rewrite val_zeros. rewrite nonzero_strip in * by exact NE. apply small_app in F. destruct F as [_ F]. inversion F as [|? ? E F1]; subst. rewrite app_length. cbn [length val].
  destruct (strip d1) as [Z|(z2 & f & d2 & -> & NF)]; [left; exists (length d1), e; rewrite (val_all_zero d1 Z), N.lxor_0_r; repeat split; auto; lia|right].
  rewrite val_zeros. rewrite nonzero_strip in * by exact NF. apply small_app in F1. destruct F1 as [_ F1]. inversion F1 as [|? ? G F2]; subst. cbn [val].
  destruct (strip d2) as [Z|(z3 & g & d3 & -> & NG)]; [|rewrite nonzero_strip in K by exact NG; lia].
  rewrite (val_all_zero d2 Z), N.lxor_0_r. split; [lia|]. exists (length (repeat 0 z2 ++ f :: d2)), (length d2), e, f. rewrite !app_length. cbn [length]. rewrite !repeat_length. repeat split; auto; lia.
Qed.
Lemma gap_detects : forall x d, x < 32 -> x <> 0 -> small d -> (length d = 38 \/ length d = 58)%nat -> (nonzero d <= 2)%nat -> val (x :: d) <> GAP.
Proof.
  intros x d X NX F L K V. cbn [val] in V. assert (C : gap_ok (length d) = true) by (destruct gap_check as [A B]; destruct L as [-> | ->]; assumption).
  set (n := length d) in *. unfold gap_ok in C. cbv zeta in C. rewrite forallb_forall in C. specialize (C x (in_symbols x X NX)). apply andb_true_iff in C. destruct C as [C1 C2]. apply absent_ok in C1. destruct C1 as [C0 C1].
  assert (E : N.lxor GAP (zs n x) = val d) by (rewrite <- V, N.lxor_comm, <- N.lxor_assoc, N.lxor_nilpotent, N.lxor_0_l; reflexivity). rewrite E in *.
  destruct (val_cases d F K) as [Z|[(j & e & J & E1 & E2 & Z)|(_ & i & j & e & f & J & E1 & F1 & E2 & F2 & Z)]]; [congruence|rewrite Z in C1; apply C1, shifted_in; auto|].
  rewrite forallb_forall in C2. specialize (C2 (zs i e) (shifted_in n i e ltac:(lia) E1 E2)). apply absent_ok in C2. destruct C2 as [_ C2]. apply C2. rewrite Z, N.lxor_comm, <- N.lxor_assoc, N.lxor_nilpotent, N.lxor_0_l. apply shifted_in; auto. lia.
Qed.

(** ** Texts whose prefixes have different lengths: "bcrt1..." and "bc1t..." or "tb1t..." *)
(** the difference of the checksums after "bcrt" and after a shorter prefix with the two symbols w and y *)
Definition skew (hrp : list N) (w y : N) : N := N.lxor (polymod (expand [98; 99; 114; 116])) (polymod (expand hrp ++ [w; y])).
Fixpoint orbit (n : nat) (x : N) : list N := match n with O => [] | S n' => let x' := shift1 x in x' :: orbit n' x' end.
Lemma orbit_in : forall n x j, (1 <= j <= n)%nat -> In (zs j x) (orbit n x).
Proof.
  induction n as [|n IH]; intros x j J; [lia|]. cbn [orbit]. cbv zeta. destruct j as [|[|j]]; [lia|left; reflexivity|right]. rewrite zs_S'. apply IH. lia.
Qed.
Definition below (n : nat) : list N := map N.of_nat (seq 0 n).
Lemma below_in : forall n x, x < N.of_nat n -> In x (below n).
Proof. intros n x L. apply in_map_iff. exists (N.to_nat x). split; [lia|]. apply in_seq. lia. Qed.
Lemma orbit_all : forall (P : N -> bool) n x, forallb P (orbit n x) = true -> forall j, (1 <= j <= n)%nat -> P (zs j x) = true.
Proof. intros P n x H j J. rewrite forallb_forall in H. apply H, orbit_in, J. Qed.
Lemma below_all : forall (P : N -> bool) n, forallb P (below n) = true -> forall x, x < N.of_nat n -> P x = true.
Proof. intros P n H x X. rewrite forallb_forall in H. apply H, below_in, X. Qed.
(** no shift of the difference is a symbol, nor the difference of the residues *)
Definition not_gap (z : N) : bool := (32 <=? z) && negb (z =? GAP).
Definition skew_one (hrp : list N) : bool := forallb (fun w => forallb (fun y => forallb not_gap (orbit SPAN4 (skew hrp w y))) (below 32)) (below 17).
Definition all_short : list N := rows 20 symbols.
Lemma short_in : forall e j, e < 32 -> e <> 0 -> (1 <= j <= 20)%nat -> In (zs j e) all_short.
Proof. intros e j E NZ J. apply rows_in; [|exact J]. apply in_symbols; auto. Qed.
(** with the character t in its place: nor is it two symbols, nor a symbol away from the difference of the residues *)
Definition not_two (t : trie) (z : N) : bool := forallb (fun f => absent t (N.lxor z f)) symbols.
Definition not_near (t : trie) (z : N) : bool := absent t (N.lxor z GAP) && (32 <=? N.lxor z GAP).
Definition skew_two (t u : trie) : bool := forallb (fun y => forallb (not_two u) (orbit 20 (skew [98; 99] 11 y)) && forallb (not_two t) (orbit 54 (zs 20 (skew [98; 99] 11 y)))) (below 32).
Definition skew_near (t : trie) : bool := forallb (fun y => forallb (not_near t) (orbit SPAN4 (skew [98; 99] 11 y))) (below 32).
Lemma skew_check : skew_one [98; 99] = true /\ skew_one [116; 98] = true /\ skew_two (collect all4) (collect all_short) = true /\ skew_near (collect all4) = true.
Proof. split; [|split; [|split]]; vm_compute; reflexivity. Qed.
Lemma not_two_ok : forall l z e f, not_two (collect l) z = true -> f < 32 -> f <> 0 -> In e l -> N.lxor z f <> e.
Proof. intros l z e f H F NF I X. unfold not_two in H. rewrite forallb_forall in H. specialize (H f (in_symbols f F NF)). apply absent_ok in H. apply H. rewrite X. exact I. Qed.
Lemma skew_lt : forall hrp w y, hrp = [98; 99] \/ hrp = [116; 98] -> w < 32 -> y < 32 -> skew hrp w y < 2 ^ 30.
Proof.
  intros hrp w y Q W Y. unfold skew, polymod. apply lxor_lt; apply fold_lt; try reflexivity; [repeat constructor|]. apply Forall_app. split; [destruct Q as [-> | ->]; repeat constructor|repeat constructor; assumption].
Qed.
Opaque skew all4 all_short.
Lemma skew_no_one : forall hrp w y n, hrp = [98; 99] \/ hrp = [116; 98] -> w <= 16 -> y < 32 -> (1 <= n <= SPAN4)%nat -> 32 <= zs n (skew hrp w y) /\ zs n (skew hrp w y) <> GAP.
Proof.
  intros hrp w y n Q W Y L. assert (C : skew_one hrp = true) by (destruct skew_check as (A & B & _); destruct Q as [-> | ->]; assumption). unfold skew_one in C.
  apply (below_all _ 17) with (x := w) in C; [|lia]. apply (below_all _ 32) with (x := y) in C; [|lia]. apply (orbit_all not_gap) with (j := n) in C; [|exact L].
  unfold not_gap in C. apply andb_true_iff in C. destruct C as [C D]. split; [apply N.leb_le, C|]. apply negb_true_iff, N.eqb_neq in D. exact D.
Qed.
Lemma skew_no_two : forall y n e f i, y < 32 -> (1 <= n <= SPAN4)%nat -> e < 32 -> e <> 0 -> f < 32 -> f <> 0 -> (1 <= i < n)%nat -> N.lxor (zs n (skew [98; 99] 11 y)) f <> zs i e.
Proof.
  intros y n e f i Y L E NE F NF I. destruct skew_check as (_ & _ & C & _). unfold skew_two in C. apply (below_all _ 32) with (x := y) in C; [|lia]. apply andb_true_iff in C. destruct C as [C1 C2].
  set (x := skew [98; 99] 11 y) in *. clearbody x. unfold SPAN4 in *. destruct (Nat.le_gt_cases n 20) as [S20|S20].
  - apply (orbit_all (not_two (collect all_short))) with (j := n) in C1; [|lia]. apply (not_two_ok all_short); auto. apply short_in; auto. lia.
  - apply (orbit_all (not_two (collect all4))) with (j := (n - 20)%nat) in C2; [|lia]. rewrite <- zs_add in C2. replace (n - 20 + 20)%nat with n in C2 by lia. apply (not_two_ok all4); auto. apply all4_in; auto. unfold SPAN4. lia.
Qed.
Lemma skew_not_near : forall y n e j, y < 32 -> (1 <= n <= SPAN4)%nat -> e < 32 -> e <> 0 -> (j < n)%nat -> N.lxor (zs n (skew [98; 99] 11 y)) GAP <> zs j e.
Proof.
  intros y n e j Y L E NE J X. destruct skew_check as (_ & _ & _ & C). unfold skew_near in C. apply (below_all _ 32) with (x := y) in C; [|lia]. apply (orbit_all (not_near (collect all4))) with (j := n) in C; [|exact L].
  unfold not_near in C. apply andb_true_iff in C. destruct C as [C D]. rewrite X in C, D. apply N.leb_le in D. destruct j as [|j]; [change (zs 0 e) with e in D; lia|]. apply absent_ok in C. apply C, all4_in; auto. lia.
Qed.
Transparent skew.
Lemma polymod_app : forall pre l, small l -> polymod (pre ++ l) = N.lxor (zs (length l) (polymod pre)) (val l).
Proof. intros pre l L. unfold polymod. rewrite fold_left_app. apply fold_val, L. Qed.
(** two texts with prefixes of different lengths *)
Lemma skew_detects : forall hrp w y l m r, hrp = [98; 99] \/ hrp = [116; 98] -> w <= 16 -> y < 32 -> small l -> small m -> length l = length m -> (1 <= length l <= SPAN4)%nat ->
  N.lxor (polymod (expand [98; 99; 114; 116] ++ l)) (polymod (expand hrp ++ w :: y :: m)) = r ->
  (r = 0 /\ (nonzero (xors l m) = 0%nat \/ (nonzero (xors l m) <= 1)%nat \/ w = 11 /\ hrp = [98; 99] /\ (nonzero (xors l m) <= 2)%nat)) \/
  (r = GAP /\ (nonzero (xors l m) = 0%nat \/ w = 11 /\ hrp = [98; 99] /\ (nonzero (xors l m) <= 1)%nat)) -> False.
Proof.
  intros hrp w y l m r Q W Y SL SM LL LB X Z.
  assert (E : N.lxor (zs (length l) (skew hrp w y)) (val (xors l m)) = r).
  { rewrite <- X. replace (expand hrp ++ w :: y :: m) with ((expand hrp ++ [w; y]) ++ m) by (rewrite <- app_assoc; reflexivity). rewrite !polymod_app, val_xors, <- LL by assumption. unfold skew. rewrite zs_xor.
    set (a := zs _ _). set (b := zs _ _). clearbody a b. rewrite !N.lxor_assoc. f_equal. rewrite <- !N.lxor_assoc. f_equal. apply N.lxor_comm. }
  set (n := length l) in *. set (x := skew hrp w y) in *. assert (XL : x < 2 ^ 30) by (apply skew_lt; auto; lia).
  assert (SD : small (xors l m)) by (apply xors_small; assumption). assert (LD : length (xors l m) = n) by (apply xors_len, LL). set (d := xors l m) in *. clearbody d.
  assert (K2 : (nonzero d <= 2)%nat) by intuition lia. destruct (skew_no_one hrp w y n Q W Y LB) as [NB NG]. fold x in NB, NG.
  destruct (val_cases d SD K2) as [V|[(j & e & J & E1 & E2 & V)|(K & i & j & e & f & J & E1 & F1 & E2 & F2 & V)]]; rewrite V in E.
  - rewrite N.lxor_0_r in E. destruct Z as [[R _]|[R _]]; [rewrite <- E in R; rewrite R in NB; lia|congruence].
  - rewrite LD in J. destruct Z as [[R _]|[R Z]].
    + rewrite R in E. apply N.lxor_eq in E. replace n with (j + (n - j))%nat in E by lia. rewrite zs_add in E. apply zs_inj in E; [|apply zs_lt, XL|apply lt30, E1].
      destruct (skew_no_one hrp w y (n - j) Q W Y ltac:(lia)) as [NB' _]. fold x in NB'. lia.
    + destruct Z as [Z|(-> & -> & Z)]; [exfalso; assert (VZ : val d = 0)|].
      * apply val_all_zero. clear - Z. induction d as [|a d IH]; constructor; unfold nonzero in Z; cbn [filter] in Z; destruct (N.eqb_spec a 0); cbn [negb length] in Z; [assumption|lia|apply IH; exact Z|lia].
      * rewrite V in VZ. apply zs_inj0 in VZ; [contradiction|apply lt30, E1].
      * apply (skew_not_near y n e j Y LB E1 E2 J). fold x. rewrite <- R, <- E, <- N.lxor_assoc, N.lxor_nilpotent, N.lxor_0_l. reflexivity.
  - rewrite LD in J. destruct Z as [[R Z]|[R Z]]; [|exfalso; intuition lia]. destruct Z as [Z|[Z|(-> & -> & _)]]; [lia|lia|].
    rewrite R in E. apply N.lxor_eq in E. replace n with (j + (n - j))%nat in E by lia. replace i with (j + (i - j))%nat in E by lia. rewrite !zs_add, <- zs_xor in E. apply zs_inj in E; [|apply zs_lt, XL|apply lxor_lt; [apply zs_lt|]; apply lt30; assumption].
    apply (skew_no_two y (n - j) e f (i - j)%nat); auto; [lia|lia|]. fold x. rewrite E, N.lxor_assoc, N.lxor_nilpotent, N.lxor_0_r. reflexivity.
Qed.
(** the prefix "bc" read as "tb", and another version *)
Definition hrp_gap (n : nat) : bool := forallb (fun x => negb (N.lxor (zs (n + 2) 22) (N.lxor (zs (n + 1) 1) (zs n x)) =? GAP)) symbols.
Lemma hrp_gap_check : hrp_gap 38 = true /\ hrp_gap 58 = true.
Proof. split; vm_compute; reflexivity. Qed.
Lemma hrp_gap_detects : forall x d, x < 32 -> x <> 0 -> (length d = 38 \/ length d = 58)%nat -> Forall (fun e => e = 0) d -> val (22 :: 1 :: x :: d) <> GAP.
Proof.
  intros x d X NX L Z V. cbn [val length] in V. rewrite (val_all_zero d Z), N.lxor_0_r in V. assert (C : hrp_gap (length d) = true) by (destruct hrp_gap_check as [A B]; destruct L as [-> | ->]; assumption).
  unfold hrp_gap in C. rewrite forallb_forall in C. specialize (C x (in_symbols x X NX)). apply negb_true_iff, N.eqb_neq in C. apply C. rewrite <- V. replace (length d + 2)%nat with (S (S (length d))) by lia. replace (length d + 1)%nat with (S (length d)) by lia. reflexivity.
Qed.
