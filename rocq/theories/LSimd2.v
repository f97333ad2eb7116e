(** Lemmas: the symbolic executor and the symbolic standard. *)
From Coq Require Import String.
From Verif Require Import Base MDec LDec LU256 MHash SHash LHash MSha2 SSha2 LSha2 SHashApi LSha2b LSha2c LSha2d LHmac MSimd LSimd.
Local Open Scope N_scope.

(** * The executor on graph numbers *)
Definition s_v4 (f0 f1 f2 f3 : sm N) : sm (v4 N) := bind f0 (fun a => bind f1 (fun b => bind f2 (fun c => bind f3 (fun d => ret (V a b c d))))).
Definition s_rnd2 (a b c d e f g h kw : N) : sm (N * N) :=
  bind (mk (NRnd true a b c d e f g h kw)) (fun x => bind (mk (NRnd false a b c d e f g h kw)) (fun y => ret (x, y))).
Definition s_rnds2 (a b k : v4 N) : sm (v4 N) :=
  bind (s_rnd2 (l3 b) (l2 b) (l3 a) (l2 a) (l1 b) (l0 b) (l1 a) (l0 a) (l0 k)) (fun p =>
  bind (s_rnd2 (fst p) (l3 b) (l2 b) (l3 a) (snd p) (l1 b) (l0 b) (l1 a) (l1 k)) (fun q =>
  ret (V (snd p) (snd q) (fst p) (fst q)))).
Definition s_hash_step (xy : v4 N * v4 N) (kw : N) : sm (v4 N * v4 N) :=
  let '(X, Y) := xy in
  bind (s_rnd2 (l0 X) (l1 X) (l2 X) (l3 X) (l0 Y) (l1 Y) (l2 Y) (l3 Y) kw) (fun p => ret (V (fst p) (l0 X) (l1 X) (l2 X), V (snd p) (l0 Y) (l1 Y) (l2 Y))).
Definition s_hash (X Y w : v4 N) : sm (v4 N * v4 N) :=
  bind (s_hash_step (X, Y) (l0 w)) (fun p => bind (s_hash_step p (l1 w)) (fun p => bind (s_hash_step p (l2 w)) (fun p => s_hash_step p (l3 w)))).
Definition s_is (i c : N) : sm bool := bind (const_of i) (fun o => ret (match o with Some x => x =? c | None => false end)).
Definition s_vadd (a b : v4 N) : sm (v4 N) := s_v4 (s_add (l0 a) (l0 b)) (s_add (l1 a) (l1 b)) (s_add (l2 a) (l2 b)) (s_add (l3 a) (l3 b)).
Definition s_vswap (a : v4 N) : sm (v4 N) := s_v4 (s_swap (l0 a)) (s_swap (l1 a)) (s_swap (l2 a)) (s_swap (l3 a)).
Definition s_msg1 (a b : v4 N) : sm (v4 N) := s_v4 (s_m1 (l0 a) (l1 a)) (s_m1 (l1 a) (l2 a)) (s_m1 (l2 a) (l3 a)) (s_m1 (l3 a) (l0 b)).
Definition s_msg2 (a b : v4 N) : sm (v4 N) :=
  bind (s_m2 (l0 a) (l2 b)) (fun x => bind (s_m2 (l1 a) (l3 b)) (fun y => bind (s_m2 (l2 a) x) (fun z => bind (s_m2 (l3 a) y) (fun u => ret (V x y z u))))).
Definition s_su1 (x n m : v4 N) : sm (v4 N) :=
  bind (s_v4 (s_add (l0 x) (l1 n)) (s_add (l1 x) (l2 n)) (s_add (l2 x) (l3 n)) (s_add (l3 x) (l0 m))) (fun a => s_msg2 a m).
Definition s_ismask (m : v4 N) : sm bool :=
  bind (s_is (l0 m) (l0 mask)) (fun a => bind (s_is (l1 m) (l1 mask)) (fun b => bind (s_is (l2 m) (l2 mask)) (fun c => bind (s_is (l3 m) (l3 mask)) (fun d => ret (a && b && c && d))))).
Definition s_consts (a b c d : N) : sm (v4 N) := s_v4 (s_const a) (s_const b) (s_const c) (s_const d).
Definition s_vars (i : N) : sm (v4 N) := s_v4 (s_var i) (s_var (i + 1)) (s_var (i + 2)) (s_var (i + 3)).
Definition some {A} (m : sm A) : sm (option A) := bind m (fun a => ret (Some a)).
Definition none {A} : sm (option A) := ret None.
Definition small4 (a b c d : N) : bool := (a <? W32) && (b <? W32) && (c <? W32) && (d <? W32).
Section Sexec.
  Variable nmem : nat.
  Variable hasst : bool.
  Definition w1 (se : env N) (a : reg) (f : v4 N -> sm (option (v4 N))) : sm (option (v4 N)) := match get a se with Some x => f x | None => none end.
  Definition sval (i : ins) (se : env N) : sm (option (v4 N)) :=
    match i with
    | Mov _ a => w1 se a (fun x => ret (Some x))
    | LoadIn _ k off => if (k <? nmem)%nat && (off mod 4 =? 0) && (off + 16 <=? 64) then some (s_vars (16 * N.of_nat k + off / 4)) else none
    | LoadT _ t off => match skipn off t with a :: b :: c :: d :: _ => if small4 a b c d then some (s_consts a b c d) else none | _ => none end
    | LoadSt _ off => if hasst && (Nat.eqb off 0 || Nat.eqb off 4) then some (s_vars (32 + N.of_nat off)) else none
    | Set64 _ hi lo => let v := mm_set_epi64x hi lo in if small4 (l0 v) (l1 v) (l2 v) (l3 v) then some (s_consts (l0 v) (l1 v) (l2 v) (l3 v)) else none
    | Add _ a b => w1 se a (fun x => w1 se b (fun y => some (s_vadd x y)))
    | Shuf32 _ a imm => w1 se a (fun x => ret (Some (mm_shuffle_epi32 x imm)))
    | Shuf8 _ a m => w1 se a (fun x => w1 se m (fun y => bind (s_ismask y) (fun ok => if ok then some (s_vswap x) else none)))
    | Alignr _ a b imm => w1 se a (fun x => w1 se b (fun y =>
        if imm =? 4 then ret (Some (V (l1 y) (l2 y) (l3 y) (l0 x))) else if imm =? 8 then ret (Some (V (l2 y) (l3 y) (l0 x) (l1 x))) else none))
    | Blend16 _ a b imm => w1 se a (fun x => w1 se b (fun y => if imm =? 0xF0 then ret (Some (V (l0 x) (l1 x) (l2 y) (l3 y))) else none))
    | Rnds2 _ a b k => w1 se a (fun x => w1 se b (fun y => w1 se k (fun z => some (s_rnds2 x y z))))
    | Msg1 _ a b => w1 se a (fun x => w1 se b (fun y => some (s_msg1 x y)))
    | Msg2 _ a b => w1 se a (fun x => w1 se b (fun y => some (s_msg2 x y)))
    | Rev32 _ a => w1 se a (fun x => some (s_vswap x))
    | ShaH _ a b k => w1 se a (fun x => w1 se b (fun y => w1 se k (fun z => some (bind (s_hash x y z) (fun p => ret (fst p))))))
    | ShaH2 _ a b k => w1 se a (fun x => w1 se b (fun y => w1 se k (fun z => some (bind (s_hash y x z) (fun p => ret (snd p))))))
    | Su0 _ a b => w1 se a (fun x => w1 se b (fun y => some (s_msg1 x y)))
    | Su1 _ a b c => w1 se a (fun x => w1 se b (fun y => w1 se c (fun z => some (s_su1 x y z))))
    end.
  Definition dest (i : ins) : reg :=
    match i with Mov d _ | LoadIn d _ _ | LoadT d _ _ | LoadSt d _ | Set64 d _ _ | Add d _ _ | Shuf32 d _ _ | Shuf8 d _ _ | Alignr d _ _ _ | Blend16 d _ _ _ | Rnds2 d _ _ _
      | Msg1 d _ _ | Msg2 d _ _ | Rev32 d _ | ShaH d _ _ _ | ShaH2 d _ _ _ | Su0 d _ _ | Su1 d _ _ _ => d end.
  Fixpoint sexec_all (p : list ins) (se : env N) : sm (option (env N)) :=
    match p with
    | [] => ret (Some se)
    | i :: p' => bind (sval i se) (fun o => match o with Some v => sexec_all p' ((dest i, v) :: se) | None => none end)
    end.
End Sexec.

Section Sound.
  Variable rho : N -> N.
  Hypothesis rho_lt : forall i, rho i < W32.
  Notation ref := (ref rho).
  Notation ext := (ext rho).
  Notation triple := (triple rho).
  Definition rv (S : graph) (v w : v4 N) : Prop := ref S (l0 v) (l0 w) /\ ref S (l1 v) (l1 w) /\ ref S (l2 v) (l2 w) /\ ref S (l3 v) (l3 w).
  Lemma rv_ext : forall S T v w, ext S T -> rv S v w -> rv T v w.
  Proof. intros S T v w X (A & B & C & D). repeat split; try (eapply ref_ext; eauto); eapply ref_ext; eauto. Qed.
  Lemma rv_small : forall S v w, rv S v w -> small_vec w.
  Proof. intros S v w (A & B & C & D). split; [exact (ref_lt rho rho_lt _ _ _ A)|]. split; [exact (ref_lt rho rho_lt _ _ _ B)|]. split; [exact (ref_lt rho rho_lt _ _ _ C)|exact (ref_lt rho rho_lt _ _ _ D)]. Qed.
  Lemma t_v4 : forall S f0 f1 f2 f3 a b c d,
    (forall T, ext S T -> triple T f0 (fun S' i => ref S' i a)) -> (forall T, ext S T -> triple T f1 (fun S' i => ref S' i b)) ->
    (forall T, ext S T -> triple T f2 (fun S' i => ref S' i c)) -> (forall T, ext S T -> triple T f3 (fun S' i => ref S' i d)) ->
    triple S (s_v4 f0 f1 f2 f3) (fun S' v => rv S' v (V a b c d)).
  Proof.
    intros S f0 f1 f2 f3 a b c d A B C D. unfold s_v4. eapply t_bind; [exact (A S (ext_refl rho S))|]. cbv beta. intros i0 S0 W0 X0 R0.
    eapply t_bind; [exact (B _ X0)|]. cbv beta. intros i1 S1 W1 X1 R1. assert (X01 := ext_trans rho _ _ _ X0 X1).
    eapply t_bind; [exact (C _ X01)|]. cbv beta. intros i2 S2 W2 X2 R2. assert (X02 := ext_trans rho _ _ _ X01 X2).
    eapply t_bind; [exact (D _ X02)|]. cbv beta. intros i3 S3 W3 X3 R3. apply t_ret.
    assert (X23 := ext_trans rho _ _ _ X2 X3). assert (X13 := ext_trans rho _ _ _ X1 X23).
    split; [exact (ref_ext rho _ _ _ _ X13 R0)|]. split; [exact (ref_ext rho _ _ _ _ X23 R1)|]. split; [exact (ref_ext rho _ _ _ _ X3 R2)|exact R3].
  Qed.
  Ltac rx := match goal with R : ref ?S ?i ?x |- ref ?S ?i _ => exact R | R : ref ?S ?i ?x, X : ext ?S ?T |- ref ?T ?i _ => exact (ref_ext rho S T i x X R) end.
  Lemma t_vadd : forall S a b x y, rv S a x -> rv S b y -> triple S (s_vadd a b) (fun S' v => rv S' v (mm_add_epi32 x y)).
  Proof.
    intros S a b x y (A0 & A1 & A2 & A3) (B0 & B1 & B2 & B3). unfold s_vadd, mm_add_epi32. apply t_v4; intros T X; apply (t_add rho rho_lt); rx.
  Qed.
  Lemma t_vswap : forall S a x, rv S a x -> triple S (s_vswap a) (fun S' v => rv S' v (vrev32q_u8 x)).
  Proof. intros S a x (A0 & A1 & A2 & A3). unfold s_vswap, vrev32q_u8. apply t_v4; intros T X; apply (t_swap rho); rx. Qed.
  Lemma t_msg1 : forall S a b x y, rv S a x -> rv S b y -> triple S (s_msg1 a b) (fun S' v => rv S' v (mm_sha256msg1_epu32 x y)).
  Proof.
    intros S a b x y (A0 & A1 & A2 & A3) (B0 & B1 & B2 & B3). unfold s_msg1, mm_sha256msg1_epu32. rewrite !hw_s0_eq. apply t_v4; intros T X; apply (t_m1 rho rho_lt); rx.
  Qed.
  Lemma su0_msg1 : forall a b, vsha256su0q_u32 a b = mm_sha256msg1_epu32 a b.
  Proof. intros a b. unfold vsha256su0q_u32, mm_sha256msg1_epu32, add32. f_equal; f_equal; apply N.add_comm. Qed.
  Lemma t_msg2 : forall S a b x y, rv S a x -> rv S b y -> triple S (s_msg2 a b) (fun S' v => rv S' v (mm_sha256msg2_epu32 x y)).
  Proof.
    intros S a b x y (A0 & A1 & A2 & A3) (B0 & B1 & B2 & B3). unfold s_msg2, mm_sha256msg2_epu32. cbv zeta. rewrite !hw_s1_eq.
    eapply t_bind; [apply (t_m2 rho rho_lt); [exact A0|exact B2]|]. cbv beta. intros i0 S0 W0 X0 R0.
    eapply t_bind; [apply (t_m2 rho rho_lt); [exact (ref_ext rho _ _ _ _ X0 A1)|exact (ref_ext rho _ _ _ _ X0 B3)]|]. cbv beta. intros i1 S1 W1 X1 R1. assert (X01 := ext_trans rho _ _ _ X0 X1).
    eapply t_bind; [apply (t_m2 rho rho_lt); [exact (ref_ext rho _ _ _ _ X01 A2)|exact (ref_ext rho _ _ _ _ X1 R0)]|]. cbv beta. intros i2 S2 W2 X2 R2. assert (X02 := ext_trans rho _ _ _ X01 X2).
    eapply t_bind; [apply (t_m2 rho rho_lt); [exact (ref_ext rho _ _ _ _ X02 A3)|exact (ref_ext rho _ _ _ _ X2 R1)]|]. cbv beta. intros i3 S3 W3 X3 R3. apply t_ret.
    assert (X23 := ext_trans rho _ _ _ X2 X3). assert (X13 := ext_trans rho _ _ _ X1 X23).
    split; [exact (ref_ext rho _ _ _ _ X13 R0)|]. split; [exact (ref_ext rho _ _ _ _ X23 R1)|]. split; [exact (ref_ext rho _ _ _ _ X3 R2)|exact R3].
  Qed.
  Lemma su1_msg2 : forall x n m, vsha256su1q_u32 x n m = mm_sha256msg2_epu32 (V (add32 (l0 x) (l1 n)) (add32 (l1 x) (l2 n)) (add32 (l2 x) (l3 n)) (add32 (l3 x) (l0 m))) m.
  Proof.
    intros x n m. unfold vsha256su1q_u32, mm_sha256msg2_epu32. cbv zeta. cbn [l0 l1 l2 l3].
    assert (E : forall p q r, add32 (add32 p q) r = add32 (add32 q r) p) by (intros; unfold add32; mods).
    rewrite !(E (hw_s1 _)). reflexivity.
  Qed.
  Lemma t_su1 : forall S a b c x n m, rv S a x -> rv S b n -> rv S c m -> triple S (s_su1 a b c) (fun S' v => rv S' v (vsha256su1q_u32 x n m)).
  Proof.
    intros S a b c x n m A B C. rewrite su1_msg2. unfold s_su1. eapply t_bind.
    - destruct A as (A0 & A1 & A2 & A3), B as (B0 & B1 & B2 & B3), C as (C0 & C1 & C2 & C3). apply (t_v4 S _ _ _ _ (add32 (l0 x) (l1 n)) (add32 (l1 x) (l2 n)) (add32 (l2 x) (l3 n)) (add32 (l3 x) (l0 m))); intros T X; apply (t_add rho rho_lt); rx.
    - cbv beta. intros v S' W X R. apply t_msg2; [exact R|exact (rv_ext _ _ _ _ X C)].
  Qed.
  Lemma t_rnd2 : forall S a b c d e f g h kw a' b' c' d' e' f' g' h' kw',
    ref S a a' -> ref S b b' -> ref S c c' -> ref S d d' -> ref S e e' -> ref S f f' -> ref S g g' -> ref S h h' -> ref S kw kw' ->
    triple S (s_rnd2 a b c d e f g h kw) (fun S' p => ref S' (fst p) (rndA a' b' c' d' e' f' g' h' kw') /\ ref S' (snd p) (rndE a' b' c' d' e' f' g' h' kw')).
  Proof.
    intros S a b c d e f g h kw a' b' c' d' e' f' g' h' kw' A B C D E F G H K. unfold s_rnd2.
    eapply t_bind; [exact (t_rnd rho S true _ _ _ _ _ _ _ _ _ _ _ _ _ _ _ _ _ _ A B C D E F G H K)|]. cbv beta iota. intros i S1 W1 X1 R1.
    eapply t_bind; [apply (t_rnd rho S1 false) with (1 := ref_ext rho _ _ _ _ X1 A) (2 := ref_ext rho _ _ _ _ X1 B) (3 := ref_ext rho _ _ _ _ X1 C) (4 := ref_ext rho _ _ _ _ X1 D) (5 := ref_ext rho _ _ _ _ X1 E)
      (6 := ref_ext rho _ _ _ _ X1 F) (7 := ref_ext rho _ _ _ _ X1 G) (8 := ref_ext rho _ _ _ _ X1 H) (9 := ref_ext rho _ _ _ _ X1 K)|]. cbv beta iota. intros j S2 W2 X2 R2. apply t_ret. cbn [fst snd].
    split; [exact (ref_ext rho _ _ _ _ X2 R1)|exact R2].
  Qed.
  Lemma t_rnds2 : forall S a b k x y z, rv S a x -> rv S b y -> rv S k z -> triple S (s_rnds2 a b k) (fun S' v => rv S' v (mm_sha256rnds2_epu32 x y z)).
  Proof.
    intros S a b k x y z A B K. pose proof (rv_small _ _ _ A) as (x0 & x1 & x2 & x3). pose proof (rv_small _ _ _ B) as (y0 & y1 & y2 & y3).
    destruct A as (A0 & A1 & A2 & A3), B as (B0 & B1 & B2 & B3), K as (K0 & K1 & K2 & K3). unfold s_rnds2.
    eapply t_bind; [apply t_rnd2 with (1 := B3) (2 := B2) (3 := A3) (4 := A2) (5 := B1) (6 := B0) (7 := A1) (8 := A0) (9 := K0)|]. cbv beta. intros p S1 W1 X1 [P1 P2].
    eapply t_bind; [apply t_rnd2 with (1 := P1) (2 := ref_ext rho _ _ _ _ X1 B3) (3 := ref_ext rho _ _ _ _ X1 B2) (4 := ref_ext rho _ _ _ _ X1 A3) (5 := P2) (6 := ref_ext rho _ _ _ _ X1 B1)
      (7 := ref_ext rho _ _ _ _ X1 B0) (8 := ref_ext rho _ _ _ _ X1 A1) (9 := ref_ext rho _ _ _ _ X1 K1)|]. cbv beta. intros q S2 W2 X2 [Q1 Q2]. apply t_ret.
    unfold mm_sha256rnds2_epu32. cbv zeta. rewrite (hw_a_eq _ _ _ (l2 x)), (hw_e_eq (l3 y) (l2 y) (l3 x)) by auto.
    rewrite (hw_a_eq _ _ _ (l3 x)) by (auto; apply rndE_lt). rewrite (hw_e_eq (rndA (l3 y) (l2 y) (l3 x) (l2 x) (l1 y) (l0 y) (l1 x) (l0 x) (l0 z)) (l3 y) (l2 y)) by (auto; apply rndE_lt).
    split; [exact (ref_ext rho _ _ _ _ X2 P2)|]. split; [exact Q2|]. split; [exact (ref_ext rho _ _ _ _ X2 P1)|exact Q1].
  Qed.
  Definition rp (S : graph) (p q : v4 N * v4 N) : Prop := rv S (fst p) (fst q) /\ rv S (snd p) (snd q).
  Lemma t_hash_step : forall S p q k z, rp S p q -> ref S k z -> triple S (s_hash_step p k) (fun S' r => rp S' r (sha256hash_step q z)).
  Proof.
    intros S [X Y] [x y] k z [A B] K. cbn [fst snd] in A, B. pose proof (rv_small _ _ _ B) as (y0 & y1 & y2 & y3).
    destruct A as (A0 & A1 & A2 & A3), B as (B0 & B1 & B2 & B3). unfold s_hash_step.
    eapply t_bind; [apply t_rnd2 with (1 := A0) (2 := A1) (3 := A2) (4 := A3) (5 := B0) (6 := B1) (7 := B2) (8 := B3) (9 := K)|]. cbv beta. intros p S1 W1 X1 [P1 P2]. apply t_ret.
    destruct x as [xa xb xc xd], y as [ya yb yc yd]. cbn [l0 l1 l2 l3] in *. rewrite arm_step by auto.
    split; cbn [fst snd]; (split; [assumption|]; split; [|split]; cbn [l0 l1 l2 l3]; rx).
  Qed.
  Lemma t_hash : forall S a b k x y z, rv S a x -> rv S b y -> rv S k z -> triple S (s_hash a b k) (fun S' p => rp S' p (sha256hash x y z)).
  Proof.
    intros S a b k x y z A B (K0 & K1 & K2 & K3). unfold s_hash, sha256hash, lanes. cbn [fold_left].
    eapply t_bind; [apply (t_hash_step S (a, b) (x, y) (l0 k) (l0 z)); [split; auto|exact K0]|]. cbv beta. intros p S1 W1 X1 P1.
    eapply t_bind; [apply t_hash_step with (1 := P1); exact (ref_ext rho _ _ _ _ X1 K1)|]. cbv beta. intros p' S2 W2 X2 P2. assert (X12 := ext_trans rho _ _ _ X1 X2).
    eapply t_bind; [apply t_hash_step with (1 := P2); exact (ref_ext rho _ _ _ _ X12 K2)|]. cbv beta. intros p'' S3 W3 X3 P3. assert (X13 := ext_trans rho _ _ _ X12 X3).
    apply t_hash_step with (1 := P3). exact (ref_ext rho _ _ _ _ X13 K3).
  Qed.
  Lemma t_is : forall S i c x, ref S i x -> triple S (s_is i c) (fun S' b => S' = S /\ (b = true -> x = c)).
  Proof.
    intros S i c x R. unfold s_is. eapply t_bind; [apply t_const_of|]. cbv beta. intros o S' W X [-> H]. apply t_ret. split; [reflexivity|].
    destruct o as [v|]; [|discriminate]. intro E. apply N.eqb_eq in E. rewrite <- (proj2 R), (H v eq_refl). exact E.
  Qed.
  Lemma t_ismask : forall S m x, rv S m x -> triple S (s_ismask m) (fun S' b => S' = S /\ (b = true -> x = mask)).
  Proof.
    intros S m x (A & B & C & D). unfold s_ismask. eapply t_bind; [apply (t_is _ _ _ _ A)|]. cbv beta. intros a S' W X [-> H1].
    eapply t_bind; [apply (t_is _ _ _ _ B)|]. cbv beta. intros b S' W' X' [-> H2]. eapply t_bind; [apply (t_is _ _ _ _ C)|]. cbv beta. intros c S' W'' X'' [-> H3].
    eapply t_bind; [apply (t_is _ _ _ _ D)|]. cbv beta. intros d S' W''' X''' [-> H4]. apply t_ret. split; [reflexivity|]. intro E.
    apply andb_prop in E as [E E4]. apply andb_prop in E as [E E3]. apply andb_prop in E as [E1 E2]. destruct x as [x0 x1 x2 x3]. cbn [l0 l1 l2 l3] in *.
    rewrite (H1 E1), (H2 E2), (H3 E3), (H4 E4). reflexivity.
  Qed.
  Lemma t_consts : forall S a b c d, small4 a b c d = true -> triple S (s_consts a b c d) (fun S' v => rv S' v (V a b c d)).
  Proof.
    intros S a b c d H. unfold small4 in H. apply andb_prop in H as [H H4]. apply andb_prop in H as [H H3]. apply andb_prop in H as [H1 H2]. apply N.ltb_lt in H1, H2, H3, H4.
    assert (K : forall T x, x < W32 -> triple T (s_const x) (fun S' i => ref S' i x)).
    { intros T x X. eapply t_conseq; [apply t_const|]. cbv beta. intros S' i _ R. rewrite N.mod_small in R by exact X. exact R. }
    apply t_v4; intros T _; apply K; assumption.
  Qed.
  Lemma t_vars : forall S i, triple S (s_vars i) (fun S' v => rv S' v (V (rho i) (rho (i + 1)) (rho (i + 2)) (rho (i + 3)))).
  Proof. intros S i. apply t_v4; intros T _; apply t_var. Qed.
  (** the memory the variables stand for *)
  Variable nmem : nat.
  Variable hasst : bool.
  Variable mem : list bytes.
  Variable state : list N.
  Hypothesis mem_ok : forall k, (k < nmem)%nat -> exists b, nth_error mem k = Some b /\ 64 <= lenN b /\ forall j, j < 16 -> rho (16 * N.of_nat k + j) = le_val (takeN 4 (dropN (4 * j) b)).
  Hypothesis st_ok : hasst = true -> List.length state = 8%nat /\ forall j, (j < 8)%nat -> rho (32 + N.of_nat j) = nth j state 0.
  Definition renv (S : graph) (se e : env N) : Prop := forall r v, get r se = Some v -> exists w, get r e = Some w /\ rv S v w.
  Lemma renv_ext : forall S T se e, ext S T -> renv S se e -> renv T se e.
  Proof. intros S T se e X H r v G. destruct (H r v G) as (w & A & B). exists w. split; [exact A|exact (rv_ext _ _ _ _ X B)]. Qed.
  Definition yields (S : graph) (m : sm (option (v4 N))) (r : rust vec) : Prop := triple S m (fun S' o => forall v, o = Some v -> exists w, r = Ret w /\ rv S' v w).
  Lemma y_none : forall S r, yields S none r.
  Proof. intros S r. apply t_ret. discriminate. Qed.
  Lemma y_some : forall S (m : sm (v4 N)) w, triple S m (fun S' v => rv S' v w) -> yields S (some m) (Ret w).
  Proof. intros S m w H. eapply t_bind; [exact H|]. cbv beta. intros a S' W X R. apply t_ret. intros v E. injection E as <-. exists w. auto. Qed.
  Lemma y_ret : forall S v w, rv S v w -> yields S (ret (Some v)) (Ret w).
  Proof. intros S v w R. apply t_ret. intros v' E. injection E as <-. exists w. auto. Qed.
  Lemma y_w1 : forall S se e a f g, renv S se e -> (forall v w, rv S v w -> yields S (f v) (g w)) -> yields S (w1 se a f) (rbind (rd a e) g).
  Proof.
    intros S se e a f g R H. unfold w1. destruct (get a se) as [v|] eqn:G; [|apply y_none]. destruct (R a v G) as (w & E & RV). unfold rd. rewrite E. cbn [rbind]. now apply H.
  Qed.
  Lemma four_words : forall (b : bytes) off, off mod 4 = 0 -> off + 16 <= 64 -> 64 <= lenN b ->
    vec_of (takeN 16 (dropN off b)) = V (le_val (takeN 4 (dropN (4 * (off / 4)) b))) (le_val (takeN 4 (dropN (4 * (off / 4 + 1)) b))) (le_val (takeN 4 (dropN (4 * (off / 4 + 2)) b))) (le_val (takeN 4 (dropN (4 * (off / 4 + 3)) b))).
  Proof.
    intros b off M O L. assert (E : off = 4 * (off / 4)) by (pose proof (N.div_mod off 4); lia). set (q := off / 4) in *. clearbody q. subst off. unfold vec_of.
    assert (T : forall i, i + 4 <= 16 -> takeN 4 (dropN i (takeN 16 (dropN (4 * q) b))) = takeN 4 (dropN (4 * q + i) b)).
    { intros i I. unfold takeN, dropN. rewrite skipn_firstn_comm, firstn_firstn. replace (Nat.min (N.to_nat 4) (N.to_nat 16 - N.to_nat i)) with (N.to_nat 4) by lia.
      f_equal. clear. rewrite N2Nat.inj_add. generalize (N.to_nat (4 * q)). generalize (N.to_nat i). intros n m. revert m b. induction m as [|m IH]; intros b; [reflexivity|]. destruct b; [now rewrite !skipn_nil|]. apply IH. }
    assert (T0 : takeN 4 (takeN 16 (dropN (4 * q) b)) = takeN 4 (dropN (4 * q) b)) by (pose proof (T 0 ltac:(lia)) as H; rewrite N.add_0_r in H; exact H). rewrite T0, !T by lia.
    f_equal; f_equal; f_equal; f_equal; lia.
  Qed.
  Lemma sval_sound : forall i S se e, renv S se e -> exists r, exec mem state i e = rbind r (fun v => Ret ((dest i, v) :: e)) /\ yields S (sval nmem hasst i se) r.
  Proof.
    intros i S se e R. destruct i; eexists; (split; [reflexivity|]); cbn [sval dest]; unfold op1, op2, op3.
    - unfold w1. destruct (get a se) as [v|] eqn:G; [|apply y_none]. destruct (R a v G) as (w & E & RV). unfold rd. rewrite E. now apply y_ret.
    - destruct (Nat.ltb_spec k nmem) as [K|]; [|apply y_none]. destruct (N.eqb_spec (off mod 4) 0) as [M|]; [|apply y_none]. destruct (N.leb_spec (off + 16) 64) as [O|]; [|apply y_none]. cbn [andb].
      destruct (mem_ok k K) as (b & E & L & V). rewrite E. unfold load_bytes. destruct (N.leb_spec (off + 16) (lenN b)) as [_|]; [|lia]. rewrite four_words by auto.
      assert (Q : off / 4 + 3 < 16) by (apply N.lt_le_trans with (off / 4 + 4); [lia|]; pose proof (N.div_mod off 4); lia).
      rewrite <- !V by lia. rewrite !N.add_assoc. apply y_some, t_vars.
    - unfold load_words. destruct (skipn off t) as [|a [|b [|c [|d' r]]]]; try apply y_none. destruct (small4 a b c d') eqn:SM; [|apply y_none]. apply y_some, t_consts, SM.
    - destruct hasst eqn:HS; [|apply y_none]. cbn [andb]. destruct (st_ok eq_refl) as [L V]. apply len8 in L as (s0 & s1 & s2 & s3 & s4 & s5 & s6 & s7 & ->).
      destruct off as [|[|[|[|[|off]]]]]; cbn [Nat.eqb orb]; try apply y_none; apply y_some.
      + eapply t_conseq; [apply t_vars|]. cbv beta. intros S' v _ H. pose proof (V 0%nat ltac:(lia)) as V0. pose proof (V 1%nat ltac:(lia)) as V1. pose proof (V 2%nat ltac:(lia)) as V2. pose proof (V 3%nat ltac:(lia)) as V3.
        cbn [nth] in *. change (32 + N.of_nat 0) with 32 in *. change (32 + N.of_nat 1) with 33 in *. change (32 + N.of_nat 2) with 34 in *. change (32 + N.of_nat 3) with 35 in *.
        change (32 + 1) with 33 in H. change (32 + 2) with 34 in H. change (32 + 3) with 35 in H. rewrite V0, V1, V2, V3 in H. exact H.
      + eapply t_conseq; [apply t_vars|]. cbv beta. intros S' v _ H. pose proof (V 4%nat ltac:(lia)) as V0. pose proof (V 5%nat ltac:(lia)) as V1. pose proof (V 6%nat ltac:(lia)) as V2. pose proof (V 7%nat ltac:(lia)) as V3.
        cbn [nth] in *. change (32 + N.of_nat 4) with 36 in *. change (32 + N.of_nat 5) with 37 in *. change (32 + N.of_nat 6) with 38 in *. change (32 + N.of_nat 7) with 39 in *.
        change (36 + 1) with 37 in H. change (36 + 2) with 38 in H. change (36 + 3) with 39 in H. rewrite V0, V1, V2, V3 in H. exact H.
    - cbv zeta. set (v := mm_set_epi64x hi lo). destruct (small4 (l0 v) (l1 v) (l2 v) (l3 v)) eqn:SM; [|apply y_none]. apply y_some. eapply t_conseq; [apply t_consts, SM|]. cbv beta. intros S' x _ H. destruct v. exact H.
    - apply y_w1; [exact R|]. intros v w RV. apply y_w1; [exact R|]. intros v' w' RV'. apply y_some. now apply t_vadd.
    - apply y_w1; [exact R|]. intros v w RV. apply y_ret. destruct RV as (A & B & C & D).
      assert (LN : forall j, ref S (lane v j) (lane w j)) by (intro j; unfold lane; destruct (j =? 0); [auto|]; destruct (j =? 1); [auto|]; destruct (j =? 2); auto).
      unfold mm_shuffle_epi32. split; [apply LN|]. split; [apply LN|]. split; apply LN.
    - apply y_w1; [exact R|]. intros v w RV. apply y_w1; [exact R|]. intros v' w' RV'. eapply t_bind; [apply (t_ismask _ _ _ RV')|]. cbv beta. intros b S' W X [-> H]. destruct b; [|apply y_none].
      rewrite (H eq_refl), shuf8_mask. apply y_some. now apply t_vswap.
    - apply y_w1; [exact R|]. intros v w RV. apply y_w1; [exact R|]. intros v' w' RV'. pose proof (rv_small _ _ _ RV) as SM. pose proof (rv_small _ _ _ RV') as SM'.
      destruct RV as (A0 & A1 & A2 & A3), RV' as (B0 & B1 & B2 & B3).
      destruct (N.eqb_spec imm 4) as [-> |_]; [rewrite alignr4 by auto; apply y_ret; repeat split; first [apply B1|apply B2|apply B3|apply A0]|].
      destruct (N.eqb_spec imm 8) as [-> |_]; [rewrite alignr8 by auto; apply y_ret; repeat split; first [apply B2|apply B3|apply A0|apply A1]|apply y_none].
    - apply y_w1; [exact R|]. intros v w RV. apply y_w1; [exact R|]. intros v' w' RV'. destruct RV as (A0 & A1 & A2 & A3), RV' as (B0 & B1 & B2 & B3).
      destruct (N.eqb_spec imm 0xF0) as [-> |_]; [|apply y_none]. rewrite blendF0. apply y_ret. repeat split; first [apply A0|apply A1|apply B2|apply B3].
    - apply y_w1; [exact R|]. intros v w RV. apply y_w1; [exact R|]. intros v' w' RV'. apply y_w1; [exact R|]. intros v'' w'' RV''. apply y_some. now apply t_rnds2.
    - apply y_w1; [exact R|]. intros v w RV. apply y_w1; [exact R|]. intros v' w' RV'. apply y_some. now apply t_msg1.
    - apply y_w1; [exact R|]. intros v w RV. apply y_w1; [exact R|]. intros v' w' RV'. apply y_some. now apply t_msg2.
    - apply y_w1; [exact R|]. intros v w RV. apply y_some. now apply t_vswap.
    - apply y_w1; [exact R|]. intros v w RV. apply y_w1; [exact R|]. intros v' w' RV'. apply y_w1; [exact R|]. intros v'' w'' RV''. apply y_some.
      eapply t_bind; [apply (t_hash _ _ _ _ _ _ _ RV RV' RV'')|]. cbv beta. intros p S' W X [P1 P2]. apply t_ret. exact P1.
    - apply y_w1; [exact R|]. intros v w RV. apply y_w1; [exact R|]. intros v' w' RV'. apply y_w1; [exact R|]. intros v'' w'' RV''. apply y_some.
      eapply t_bind; [apply (t_hash _ _ _ _ _ _ _ RV' RV RV'')|]. cbv beta. intros p S' W X [P1 P2]. apply t_ret. exact P2.
    - apply y_w1; [exact R|]. intros v w RV. apply y_w1; [exact R|]. intros v' w' RV'. apply y_some. rewrite su0_msg1. now apply t_msg1.
    - apply y_w1; [exact R|]. intros v w RV. apply y_w1; [exact R|]. intros v' w' RV'. apply y_w1; [exact R|]. intros v'' w'' RV''. apply y_some. now apply t_su1.
  Qed.
  Lemma sexec_sound : forall p S se e, renv S se e ->
    triple S (sexec_all nmem hasst p se) (fun S' o => forall se', o = Some se' -> exists e', exec_all mem state p e = Ret e' /\ renv S' se' e').
  Proof.
    induction p as [|i p IH]; intros S se e R; cbn [sexec_all exec_all].
    - apply t_ret. intros se' E. injection E as <-. exists e. auto.
    - destruct (sval_sound i S se e R) as (r & E & Y). eapply t_bind; [exact Y|]. cbv beta. intros o S' W X H. destruct o as [v|]; [|apply t_ret; discriminate].
      destruct (H v eq_refl) as (w & -> & RV). rewrite E. cbn [rbind]. apply IH. intros r' v' G. cbn [get] in *. destruct (String.eqb r' (dest i)).
      + injection G as <-. exists w. auto.
      + destruct (renv_ext _ _ _ _ X R r' v' G) as (w' & A & B). exists w'. auto.
  Qed.
End Sound.
