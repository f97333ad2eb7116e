(** The checksum detects up to three wrong symbols.  Multiplying every symbol of the remainder by an element of GF(32) commutes with
    the checksum step, so that one of the errors may be taken to be 1; what is left is a finite check. *)
From Coq Require Import String Btauto.
From Verif Require Import Base LDec MText SBip158 SBech32 MBech32 LBip158 LHash2 LBech32.
Local Open Scope N_scope.

Definition shift1 (x : N) : N := polymod_step x 0.
Definition zs (k : nat) (x : N) : N := Nat.iter k shift1 x.
Lemma shift1_xor : forall a b, shift1 (N.lxor a b) = N.lxor (shift1 a) (shift1 b).
Proof. intros a b. unfold shift1. rewrite <- step_xor. reflexivity. Qed.
Lemma shift1_lt : forall a, shift1 a < 2 ^ 30.
Proof. intro a. unfold shift1. exact (step_lt a 0 eq_refl). Qed.
Lemma zs_xor : forall k a b, zs k (N.lxor a b) = N.lxor (zs k a) (zs k b).
Proof. induction k as [|k IH]; intros a b; [reflexivity|]. cbn [zs Nat.iter nat_rect]. unfold zs, Nat.iter in IH. rewrite IH. apply shift1_xor. Qed.
Lemma zs_S : forall k a, zs (S k) a = shift1 (zs k a). Proof. reflexivity. Qed.
Lemma zs_S' : forall k a, zs (S k) a = zs k (shift1 a).
Proof. induction k as [|k IH]; intro a; [reflexivity|]. rewrite zs_S, IH. reflexivity. Qed.
Lemma zs_add : forall j k a, zs (j + k) a = zs j (zs k a).
Proof. induction j as [|j IH]; intros k a; [reflexivity|]. cbn [Nat.add]. rewrite !zs_S, IH. reflexivity. Qed.
Lemma zs_lt : forall k a, a < 2 ^ 30 -> zs k a < 2 ^ 30.
Proof. intros [|k] a A; [exact A|]. rewrite zs_S. apply shift1_lt. Qed.
Lemma zs_zero : forall k, zs k 0 = 0.
Proof. intro k. pose proof (zs_xor k 0 0) as E. change (N.lxor 0 0) with 0 in E. rewrite E. apply N.lxor_nilpotent. Qed.
Lemma zs_inj0 : forall k a, a < 2 ^ 30 -> zs k a = 0 -> a = 0.
Proof. induction k as [|k IH]; intros a A E; [exact E|]. rewrite zs_S in E. apply IH; [exact A|]. apply step_zero; [apply zs_lt, A|exact E]. Qed.
Lemma zs_inj : forall k a b, a < 2 ^ 30 -> b < 2 ^ 30 -> zs k a = zs k b -> a = b.
Proof. intros k a b A B E. apply N.lxor_eq. apply (zs_inj0 k); [apply lxor_lt; assumption|]. rewrite zs_xor, E. apply N.lxor_nilpotent. Qed.

(** the contribution of a list of symbols *)
Fixpoint val (d : list N) : N := match d with [] => 0 | e :: d' => N.lxor (zs (length d') e) (val d') end.
Lemma fold_val : forall d a, small d -> fold_left polymod_step d a = N.lxor (zs (length d) a) (val d).
Proof.
  induction d as [|e d IH]; intros a F; [symmetry; apply N.lxor_0_r|]. inversion F as [|? ? E F']; subst. cbn [fold_left length val]. rewrite IH by exact F'.
  assert (S1 : polymod_step a e = N.lxor (shift1 a) e).
  { pose proof (step_xor a 0 0 e) as X. rewrite N.lxor_0_r, N.lxor_0_l in X. rewrite X. unfold shift1. f_equal. }
  rewrite S1, zs_xor, <- zs_S'. apply N.lxor_assoc.
Qed.
Fixpoint xors (l m : list N) : list N := match l, m with a :: l', b :: m' => N.lxor a b :: xors l' m' | _, _ => [] end.
Lemma xors_len : forall l m, length l = length m -> length (xors l m) = length l.
Proof. induction l as [|a l IH]; intros [|b m] E; try discriminate; [reflexivity|]. cbn [xors length] in *. now rewrite IH by lia. Qed.
Lemma xor32 : forall a b, a < 32 -> b < 32 -> N.lxor a b < 32.
Proof. intros a b A B. change 32 with (2 ^ 5) in *. apply lxor_lt; assumption. Qed.
Lemma xors_small : forall l m, small l -> small m -> small (xors l m).
Proof. induction l as [|a l IH]; intros [|b m] L M; try constructor; inversion L; inversion M; subst; [apply xor32; assumption|apply IH; assumption]. Qed.
Lemma val_xors : forall l m, length l = length m -> val (xors l m) = N.lxor (val l) (val m).
Proof.
  induction l as [|a l IH]; intros [|b m] E; try discriminate; [reflexivity|]. cbn [xors val length] in *. rewrite IH by lia. rewrite xors_len by lia. replace (length m) with (length l) by lia. rewrite zs_xor.
  apply N.bits_inj. intro i. rewrite !N.lxor_spec. repeat match goal with |- context [N.testbit ?x ?y] => let z := fresh in set (z := N.testbit x y); clearbody z end. btauto.
Qed.
Lemma xors_zero : forall l m, length l = length m -> Forall (fun e => e = 0) (xors l m) -> l = m.
Proof. induction l as [|a l IH]; intros [|b m] E F; try discriminate; [reflexivity|]. cbn [xors length] in *. inversion F as [|? ? X F']; subst. apply N.lxor_eq in X. subst. f_equal. apply IH; [lia|exact F']. Qed.

(** ** Multiplication of every symbol by a generator of GF(32) = GF(2)[a]/(a^5 + a^3 + 1) *)
Definition mulA (x : N) : N :=
  let h := N.shiftr (N.land x 0x21084210) 4 in N.lxor (N.shiftl (N.land x 0x1ef7bdef) 1) (N.lxor h (N.shiftl h 3)).
Lemma land_xor : forall a b m, N.land (N.lxor a b) m = N.lxor (N.land a m) (N.land b m).
Proof. intros a b m. apply N.bits_inj. intro i. rewrite N.lxor_spec, !N.land_spec, N.lxor_spec. repeat match goal with |- context [N.testbit ?x ?y] => let z := fresh in set (z := N.testbit x y); clearbody z end. btauto. Qed.
Lemma mulA_xor : forall a b, mulA (N.lxor a b) = N.lxor (mulA a) (mulA b).
Proof.
  intros a b. unfold mulA. cbv zeta. rewrite !land_xor, N.shiftr_lxor, !N.shiftl_lxor.
  apply N.bits_inj. intro i. rewrite !N.lxor_spec. repeat match goal with |- context [N.testbit ?x ?y] => let z := fresh in set (z := N.testbit x y); clearbody z end. btauto.
Qed.
Lemma lin_ext : forall f g, (forall a b, f (N.lxor a b) = N.lxor (f a) (f b)) -> (forall a b, g (N.lxor a b) = N.lxor (g a) (g b)) ->
  forall n, (forall i, (i < n)%nat -> f (2 ^ N.of_nat i) = g (2 ^ N.of_nat i)) -> forall x, x < 2 ^ N.of_nat n -> f x = g x.
Proof.
  intros f g LF LG. assert (F0 : f 0 = 0) by (pose proof (LF 0 0) as E; change (N.lxor 0 0) with 0 in E; rewrite N.lxor_nilpotent in E; exact E). assert (G0 : g 0 = 0) by (pose proof (LG 0 0) as E; change (N.lxor 0 0) with 0 in E; rewrite N.lxor_nilpotent in E; exact E).
  induction n as [|n IH]; intros H x X.
  - change (2 ^ N.of_nat 0) with 1 in X. assert (x = 0) as -> by lia. congruence.
  - assert (IH' : forall x, x < 2 ^ N.of_nat n -> f x = g x) by (apply IH; intros i I; apply H; lia). replace (N.of_nat (S n)) with (N.of_nat n + 1) in X by lia. rewrite N.pow_add_r, N.pow_1_r in X.
    destruct (N.lt_ge_cases x (2 ^ N.of_nat n)) as [L|L]; [apply IH', L|]. set (r := x - 2 ^ N.of_nat n). assert (R : r < 2 ^ N.of_nat n) by lia.
    assert (E : x = N.lxor (2 ^ N.of_nat n) r).
    { rewrite <- N.add_nocarry_lxor; [lia|]. apply N.bits_inj. intro i. rewrite N.land_spec, N.bits_0. rewrite N.pow2_bits_eqb. destruct (N.eqb_spec (N.of_nat n) i) as [<-|]; [|reflexivity].
      destruct (N.eq_dec r 0) as [->|Nz]; [apply N.bits_0|]. apply N.bits_above_log2. apply N.log2_lt_pow2; lia. }
    rewrite E, LF, LG, (H n) by lia. f_equal. apply IH', R.
Qed.
Lemma mulA_shift : forall x, x < 2 ^ 30 -> mulA (shift1 x) = shift1 (mulA x).
Proof.
  apply (lin_ext (fun x => mulA (shift1 x)) (fun x => shift1 (mulA x))) with (n := 30%nat).
  - intros a b. rewrite shift1_xor. apply mulA_xor.
  - intros a b. rewrite mulA_xor. apply shift1_xor.
  - intros i I. assert (C : forallb (fun i => mulA (shift1 (2 ^ N.of_nat i)) =? shift1 (mulA (2 ^ N.of_nat i))) (seq 0 30) = true) by (vm_compute; reflexivity).
    rewrite forallb_forall in C. apply N.eqb_eq, C. apply in_seq. lia.
Qed.
Lemma mulA_zs : forall k x, x < 2 ^ 30 -> mulA (zs k x) = zs k (mulA x).
Proof. induction k as [|k IH]; intros x X; [reflexivity|]. rewrite !zs_S, mulA_shift by (apply zs_lt, X). f_equal. apply IH, X. Qed.
Lemma in32 : forall e, e < 32 -> In e (map N.of_nat (seq 0 32)).
Proof. intros e E. apply in_map_iff. exists (N.to_nat e). split; [lia|]. apply in_seq. lia. Qed.
Lemma mulA_small : forall e, e < 32 -> mulA e < 32 /\ (mulA e = 0 -> e = 0).
Proof.
  intros e E. assert (C : forallb (fun e => (mulA e <? 32) && ((e =? 0) || negb (mulA e =? 0))) (map N.of_nat (seq 0 32)) = true) by (vm_compute; reflexivity).
  rewrite forallb_forall in C. specialize (C e (in32 e E)). split; [lia|]. intro Z. rewrite Z in C. lia.
Qed.
Definition mulk (k : nat) (x : N) : N := Nat.iter k mulA x.
Lemma mulk_xor : forall k a b, mulk k (N.lxor a b) = N.lxor (mulk k a) (mulk k b).
Proof. induction k as [|k IH]; intros a b; [reflexivity|]. change (mulk (S k) ?x) with (mulA (mulk k x)). rewrite IH. apply mulA_xor. Qed.
Lemma mulk_small : forall k e, e < 32 -> mulk k e < 32 /\ (mulk k e = 0 -> e = 0).
Proof. induction k as [|k IH]; intros e E; [auto|]. destruct (IH e E) as [A B]. change (mulk (S k) e) with (mulA (mulk k e)). destruct (mulA_small _ A) as [C D]. split; [exact C|]. intro Z. apply B, D, Z. Qed.
Lemma lt30 : forall e, e < 32 -> e < 2 ^ 30. Proof. intros e E. eapply N.lt_trans; [exact E|reflexivity]. Qed.
Lemma mulk_zs : forall k j e, e < 32 -> mulk k (zs j e) = zs j (mulk k e).
Proof. induction k as [|k IH]; intros j e E; [reflexivity|]. change (mulk (S k) ?x) with (mulA (mulk k x)). rewrite IH by exact E. rewrite mulA_zs by (apply lt30, mulk_small, E). reflexivity. Qed.
Lemma to_one : forall e, e < 32 -> e <> 0 -> exists k, mulk k e = 1.
Proof.
  intros e E NZ. assert (C : forallb (fun e => (e =? 0) || existsb (fun k => mulk k e =? 1) (seq 0 31)) (map N.of_nat (seq 0 32)) = true) by (vm_compute; reflexivity).
  rewrite forallb_forall in C. specialize (C e (in32 e E)). apply orb_true_iff in C. destruct C as [C|C]; [apply N.eqb_eq in C; contradiction|]. apply existsb_exists in C. destruct C as (k & _ & C). exists k. now apply N.eqb_eq.
Qed.

(** ** The finite check *)
Inductive trie := Lf | Nd (b : bool) (l r : trie).
Fixpoint add (p : positive) (t : trie) : trie :=
  match p, t with
  | xH, Lf => Nd true Lf Lf
  | xH, Nd _ l r => Nd true l r
  | xO p', Lf => Nd false (add p' Lf) Lf
  | xO p', Nd b l r => Nd b (add p' l) r
  | xI p', Lf => Nd false Lf (add p' Lf)
  | xI p', Nd b l r => Nd b l (add p' r)
  end.
Fixpoint mem (p : positive) (t : trie) : bool :=
  match t with
  | Lf => false
  | Nd b l r => match p with xH => b | xO p' => mem p' l | xI p' => mem p' r end
  end.
Lemma mem_add : forall p t, mem p (add p t) = true.
Proof. induction p as [p IH|p IH|]; intros [|b l r]; cbn [add mem]; try apply IH; reflexivity. Qed.
Lemma mem_add_other : forall q p t, mem q t = true -> mem q (add p t) = true.
Proof.
  intros q p. revert q. induction p as [p IH|p IH|]; intros q [|b l r] M; [destruct q; discriminate M|destruct q; cbn [mem] in M|destruct q; discriminate M|destruct q; cbn [mem] in M|destruct q; discriminate M|destruct q; cbn [mem] in M]; cbn [add mem]; try exact M; try (apply IH; exact M); reflexivity.
Qed.
Definition addN (a : N) (t : trie) : trie := match a with N0 => t | Npos p => add p t end.
Definition collect (l : list N) : trie := fold_right addN Lf l.
Lemma collect_in : forall p l, In (Npos p) l -> mem p (collect l) = true.
Proof.
  induction l as [|a l IH]; intro I; [destruct I|]. cbn [collect fold_right]. destruct I as [->|I]; [apply mem_add|]. specialize (IH I). destruct a as [|q]; [exact IH|]. apply mem_add_other, IH.
Qed.
Fixpoint rows (n : nat) (l : list N) : list N := match n with O => [] | S n' => let l' := map shift1 l in l' ++ rows n' l' end.
Definition symbols : list N := map N.of_nat (seq 1 31).
Definition SPAN : nat := 80.
Definition table : list N := rows SPAN symbols.
Lemma rows_in : forall n l e j, In e l -> (1 <= j <= n)%nat -> In (zs j e) (rows n l).
Proof.
  induction n as [|n IH]; intros l e j I J; [lia|]. cbn [rows]. cbv zeta. apply in_or_app. destruct j as [|[|j]]; [lia|left; apply in_map; exact I|right]. rewrite zs_S'. apply IH; [apply in_map; exact I|lia].
Qed.
Lemma table_in : forall e j, e < 32 -> e <> 0 -> (1 <= j <= SPAN)%nat -> In (zs j e) table.
Proof. intros e j E NZ J. apply rows_in; [|exact J]. apply in_map_iff. exists (N.to_nat e). split; [lia|]. apply in_seq. lia. Qed.
Lemma table_check : (let t := collect table in forallb (fun a => match N.lxor a 1 with N0 => false | Npos p => negb (mem p t) end) table) = true.
Proof. vm_compute. reflexivity. Qed.
Lemma table_one : forall a, In a table -> a <> 1 /\ ~ In (N.lxor a 1) table.
Proof.
  intros a I. pose proof table_check as C. cbv zeta in C. rewrite forallb_forall in C. specialize (C a I). split; [intros ->; discriminate|]. intro J. destruct (N.lxor a 1) as [|p]; [discriminate|]. rewrite (collect_in p table J) in C. discriminate.
Qed.
(** two or three errors never cancel *)
Lemma two_errors : forall e f j, e < 32 -> f < 32 -> e <> 0 -> f <> 0 -> (1 <= j <= SPAN)%nat -> zs j e <> f.
Proof.
  intros e f j E F NE NF J H. destruct (to_one f F NF) as [k K]. assert (X : zs j (mulk k e) = 1) by (rewrite <- mulk_zs, H by exact E; exact K).
  destruct (mulk_small k e E) as [A B]. destruct (table_one (zs j (mulk k e))) as [C _]; [apply table_in; auto|]. contradiction.
Qed.
Lemma three_errors : forall e f g i j, e < 32 -> f < 32 -> g < 32 -> e <> 0 -> f <> 0 -> g <> 0 -> (1 <= j)%nat -> (j < i <= SPAN)%nat -> N.lxor (zs i e) (zs j f) <> g.
Proof.
  intros e f g i j E F G NE NF NG J I H. destruct (to_one g G NG) as [k K].
  assert (X : N.lxor (zs i (mulk k e)) (zs j (mulk k f)) = 1) by (rewrite <- !mulk_zs, <- mulk_xor, H by assumption; exact K).
  destruct (mulk_small k e E) as [A B]. destruct (mulk_small k f F) as [A' B']. destruct (table_one (zs i (mulk k e))) as [_ C]; [apply table_in; auto; lia|]. apply C.
  assert (N.lxor (zs i (mulk k e)) 1 = zs j (mulk k f)) as ->; [|apply table_in; auto; lia]. rewrite <- X, <- N.lxor_assoc, N.lxor_nilpotent, N.lxor_0_l. reflexivity.
Qed.
Definition nonzero (d : list N) : nat := length (filter (fun e => negb (e =? 0)) d).
Lemma strip : forall d, Forall (fun e => e = 0) d \/ exists z e d', d = repeat 0 z ++ e :: d' /\ e <> 0.
Proof.
  induction d as [|e d IH]; [left; constructor|]. destruct (N.eq_dec e 0) as [->|NE].
  - destruct IH as [IH|(z & f & d' & -> & NF)]; [left; constructor; auto|right; exists (S z), f, d'; auto].
  - right. exists 0%nat, e, d. auto.
Qed.
Lemma val_zeros : forall z d, val (repeat 0 z ++ d) = val d.
Proof. induction z as [|z IH]; intro d; [reflexivity|]. cbn [repeat app val]. rewrite IH, zs_zero, N.lxor_0_l. reflexivity. Qed.
Lemma val_all_zero : forall d, Forall (fun e => e = 0) d -> val d = 0.
Proof. intros d F. induction F as [|e d E F IH]; [reflexivity|]. cbn [val]. rewrite E, zs_zero, IH. reflexivity. Qed.
Lemma nonzero_strip : forall z e d, e <> 0 -> nonzero (repeat 0 z ++ e :: d) = S (nonzero d).
Proof. intros z e d NE. induction z as [|z IH]; unfold nonzero in *; cbn [repeat app filter]; [|exact IH]. rewrite (proj2 (N.eqb_neq e 0) NE). reflexivity. Qed.
Lemma small_app : forall a b, small (a ++ b) -> small a /\ small b. Proof. intros a b H. apply Forall_app in H. exact H. Qed.
Lemma val_detects : forall d, small d -> (length d <= SPAN)%nat -> (nonzero d <= 3)%nat -> val d = 0 -> Forall (fun e => e = 0) d.
Proof.
  intros d F L K V. destruct (strip d) as [Z|(z1 & e & d1 & -> & NE)]; [exact Z|exfalso].
  rewrite val_zeros in V. rewrite nonzero_strip in K by exact NE. apply small_app in F. destruct F as [_ F]. inversion F as [|? ? E F1]; subst. rewrite app_length in L. cbn [length] in L. clear F. cbn [val] in V.
  destruct (strip d1) as [Z|(z2 & f & d2 & -> & NF)].
  - rewrite (val_all_zero d1 Z), N.lxor_0_r in V. apply zs_inj0 in V; [contradiction|apply lt30, E].
  - rewrite val_zeros in V. rewrite nonzero_strip in K by exact NF. apply small_app in F1. destruct F1 as [_ F1]. inversion F1 as [|? ? G F2]; subst. rewrite app_length in *. cbn [length] in *. rewrite ?repeat_length in *. cbn [val] in V.
    destruct (strip d2) as [Z|(z3 & g & d3 & -> & NG)].
    + rewrite (val_all_zero d2 Z), N.lxor_0_r in V. apply N.lxor_eq in V. replace (z2 + S (length d2))%nat with (length d2 + S z2)%nat in V by lia. rewrite zs_add in V. apply zs_inj in V; [|apply zs_lt, lt30, E|apply lt30, G].
      revert V. apply two_errors; auto. lia.
    + rewrite val_zeros in V. rewrite nonzero_strip in K by exact NG. apply small_app in F2. destruct F2 as [_ F2]. inversion F2 as [|? ? H F3]; subst. rewrite app_length in *. cbn [length] in *. rewrite ?repeat_length in *. cbn [val] in V.
      destruct (strip d3) as [Z|(z4 & x & d4 & -> & NX)]; [|rewrite nonzero_strip in K by exact NX; lia].
      rewrite (val_all_zero d3 Z), N.lxor_0_r in V. rewrite <- N.lxor_assoc in V. apply N.lxor_eq in V.
      replace (z2 + S (z3 + S (length d3)))%nat with (length d3 + (z2 + S (S z3)))%nat in V by lia. replace (z3 + S (length d3))%nat with (length d3 + S z3)%nat in V by lia. rewrite !zs_add, <- zs_xor in V.
      apply zs_inj in V; [|apply lxor_lt; apply zs_lt; try apply zs_lt; apply lt30; assumption|apply lt30, H]. rewrite <- zs_add in V. revert V. apply three_errors; auto; lia.
Qed.
(** at most three changed symbols, at most SPAN apart, change the residue *)
Lemma polymod_three : forall pre l m, small pre -> small l -> small m -> length l = length m -> (length l <= SPAN)%nat -> (nonzero (xors l m) <= 3)%nat ->
  polymod (pre ++ l) = polymod (pre ++ m) -> l = m.
Proof.
  intros pre l m P L M E K NZ H. unfold polymod in H. rewrite !fold_left_app in H. set (a := fold_left polymod_step pre 1) in *. rewrite !fold_val, E in H by assumption.
  apply xors_zero; [exact E|]. apply val_detects; [apply xors_small; assumption|rewrite xors_len by exact E; exact K|exact NZ|]. rewrite val_xors by exact E.
  set (z := zs (length m) a) in *. clearbody z. apply (f_equal (N.lxor z)) in H. rewrite <- !N.lxor_assoc, N.lxor_nilpotent, !N.lxor_0_l in H. rewrite H. apply N.lxor_nilpotent.
Qed.
