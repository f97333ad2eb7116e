(** Lemmas: symbolic execution of the SHA-NI and ARM programs into a graph of word operations, and its soundness. *)
From Coq Require Import String.
From Verif Require Import Base MDec LDec LU256 MHash SHash LHash MSha2 SSha2 LSha2 SHashApi LSha2b LSha2c LSha2d LHmac MSimd.
Local Open Scope N_scope.

Notation W32 := (2 ^ 32).
(** * The instructions compute the operations of the portable code *)
Lemma add32_wadd : forall a b, add32 a b = wadd 32 a b.
Proof. reflexivity. Qed.
Lemma ror_rotl : forall k x, k <= 32 -> ror32 k x = rotl 32 (32 - k) x.
Proof. intros k x K. unfold ror32, rotl. replace (32 - (32 - k)) with k by lia. apply N.lor_comm. Qed.
Lemma hw_S0_eq : forall x, hw_S0 x = S0 ops256 x.
Proof. intro x. unfold hw_S0. rewrite !ror_rotl by lia. reflexivity. Qed.
Lemma hw_S1_eq : forall x, hw_S1 x = S1 ops256 x.
Proof. intro x. unfold hw_S1. rewrite !ror_rotl by lia. reflexivity. Qed.
Lemma hw_s0_eq : forall x, hw_s0 x = s0 ops256 x.
Proof. intro x. unfold hw_s0. rewrite !ror_rotl by lia. reflexivity. Qed.
Lemma hw_s1_eq : forall x, hw_s1 x = s1 ops256 x.
Proof. intro x. unfold hw_s1. rewrite !ror_rotl by lia. reflexivity. Qed.
Lemma hw_maj_eq : forall x y z, hw_maj x y z = Maj x y z.
Proof. intros. rewrite maj_eq. reflexivity. Qed.
Lemma hw_ch_eq : forall x y z, x < W32 -> y < W32 -> z < W32 -> hw_ch x y z = Ch x y z.
Proof.
  intros x y z X Y Z. rewrite (ch_eq 32) by auto. reflexivity.
Qed.
Lemma w32 : W32 <> 0.
Proof. discriminate. Qed.
Lemma madd : forall a b, (a mod W32 + b) mod W32 = (a + b) mod W32.
Proof. intros. apply N.add_mod_idemp_l. apply w32. Qed.
Lemma madd' : forall a b, (a + b mod W32) mod W32 = (a + b) mod W32.
Proof. intros. apply N.add_mod_idemp_r. apply w32. Qed.
Lemma madd2 : forall x a b, (x + (a mod W32 + b)) mod W32 = (x + (a + b)) mod W32.
Proof. intros. rewrite <- madd'. rewrite madd. apply madd'. Qed.
Lemma madd3 : forall x y a b, (x + (y + (a mod W32 + b))) mod W32 = (x + (y + (a + b))) mod W32.
Proof. intros. rewrite <- madd'. rewrite madd2. apply madd'. Qed.
Lemma madd4 : forall x y z a b, (x + (y + (z + (a mod W32 + b)))) mod W32 = (x + (y + (z + (a + b)))) mod W32.
Proof. intros. rewrite <- madd'. rewrite madd3. apply madd'. Qed.
Lemma madd5 : forall x y z u a b, (x + (y + (z + (u + (a mod W32 + b))))) mod W32 = (x + (y + (z + (u + (a + b))))) mod W32.
Proof. intros. rewrite <- madd'. rewrite madd4. apply madd'. Qed.
Lemma madd2' : forall x y a, (x + (y + a mod W32)) mod W32 = (x + (y + a)) mod W32.
Proof. intros x y a. rewrite !N.add_assoc. apply madd'. Qed.
Lemma madd3' : forall x y z a, (x + (y + (z + a mod W32))) mod W32 = (x + (y + (z + a))) mod W32.
Proof. intros. rewrite <- madd'. rewrite madd2'. apply madd'. Qed.
Lemma madd4' : forall x y z u a, (x + (y + (z + (u + a mod W32)))) mod W32 = (x + (y + (z + (u + a)))) mod W32.
Proof. intros. rewrite <- madd'. rewrite madd3'. apply madd'. Qed.
Lemma madd5' : forall x y z u v a, (x + (y + (z + (u + (v + a mod W32))))) mod W32 = (x + (y + (z + (u + (v + a))))) mod W32.
Proof. intros. rewrite <- madd'. rewrite madd4'. apply madd'. Qed.
(** equality of sums modulo 2^32 *)
Ltac mods := repeat (rewrite <- ?N.add_assoc; progress (rewrite ?N.mod_mod by apply w32; rewrite ?madd, ?madd', ?madd2, ?madd3, ?madd4, ?madd5, ?madd2', ?madd3', ?madd4', ?madd5')); f_equal; lia.
(** one round on eight named words *)
Definition rndA (a b c d e f g h kw : N) : N := nth 0 (mstep ops256 [a; b; c; d; e; f; g; h] kw 0) 0.
Definition rndE (a b c d e f g h kw : N) : N := nth 4 (mstep ops256 [a; b; c; d; e; f; g; h] kw 0) 0.
Lemma rnd_step : forall a b c d e f g h k w, mstep ops256 [a; b; c; d; e; f; g; h] k w =
  [rndA a b c d e f g h (add32 k w); a; b; c; rndE a b c d e f g h (add32 k w); e; f; g].
Proof.
  intros. unfold rndA, rndE, mstep. cbn [nth]. change (wd ops256) with 32. unfold wadd, add32. set (S1 ops256 e) as p. set (Ch e f g) as q. set (S0 ops256 a) as r. set (Maj a b c) as s.
  clearbody p q r s. f_equal; [mods|]. do 3 f_equal. f_equal. mods.
Qed.
Lemma hw_a_eq : forall a b c d e f g h kw, e < W32 -> f < W32 -> g < W32 -> hw_a a b c e f g h kw = rndA a b c d e f g h kw.
Proof.
  intros a b c d e f g h kw E F G. unfold hw_a, hw_t, rndA, mstep. cbn [nth]. change (wd ops256) with 32. rewrite hw_ch_eq, hw_S1_eq, hw_S0_eq, hw_maj_eq by auto.
  set (S1 ops256 e) as p. set (Ch e f g) as q. set (S0 ops256 a) as r. set (Maj a b c) as s. clearbody p q r s. unfold wadd, add32. mods.
Qed.
Lemma hw_e_eq : forall a b c d e f g h kw, e < W32 -> f < W32 -> g < W32 -> hw_e d e f g h kw = rndE a b c d e f g h kw.
Proof.
  intros a b c d e f g h kw E F G. unfold hw_e, hw_t, rndE, mstep. cbn [nth]. change (wd ops256) with 32. rewrite hw_ch_eq, hw_S1_eq by auto.
  set (S1 ops256 e) as p. set (Ch e f g) as q. clearbody p q. unfold wadd, add32. mods.
Qed.
Lemma mod_lt32 : forall a, a mod W32 < W32.
Proof. intro a. apply N.mod_lt, w32. Qed.
Lemma rndA_lt : forall a b c d e f g h kw, rndA a b c d e f g h kw < W32.
Proof. intros. unfold rndA, mstep. cbn [nth]. apply mod_lt32. Qed.
Lemma rndE_lt : forall a b c d e f g h kw, rndE a b c d e f g h kw < W32.
Proof. intros. unfold rndE, mstep. cbn [nth]. apply mod_lt32. Qed.
(** the four steps of the ARM instructions *)
Definition rstep (r : list N) (kw : N) : list N :=
  match r with [a; b; c; d; e; f; g; h] => [rndA a b c d e f g h kw; a; b; c; rndE a b c d e f g h kw; e; f; g] | _ => r end.
Lemma arm_step : forall a b c d e f g h kw, e < W32 -> f < W32 -> g < W32 ->
  sha256hash_step (V a b c d, V e f g h) kw = (V (rndA a b c d e f g h kw) a b c, V (rndE a b c d e f g h kw) e f g).
Proof.
  intros a b c d e f g h kw E F G. unfold sha256hash_step. cbn [l0 l1 l2 l3]. unfold rndA, rndE, mstep. cbn [nth]. change (wd ops256) with 32. rewrite hw_ch_eq, hw_S1_eq, hw_S0_eq, hw_maj_eq by auto.
  set (S1 ops256 e) as p. set (Ch e f g) as q. set (S0 ops256 a) as r. set (Maj a b c) as s. clearbody p q r s. unfold wadd, add32.
  f_equal; f_equal; mods.
Qed.
Lemma lebytes4 : forall x, le_bytes 4 x = [x mod 256; x / 256 mod 256; x / 256 / 256 mod 256; x / 256 / 256 / 256 mod 256].
Proof. reflexivity. Qed.
Lemma le4_back : forall x, x < W32 -> le_val (le_bytes 4 x) = x.
Proof. intros x X. apply le_val_bytes. exact X. Qed.
Definition small_vec (v : vec) : Prop := l0 v < W32 /\ l1 v < W32 /\ l2 v < W32 /\ l3 v < W32.
Lemma vec_bytes_split : forall a, vec_bytes a = le_bytes 4 (l0 a) ++ le_bytes 4 (l1 a) ++ le_bytes 4 (l2 a) ++ le_bytes 4 (l3 a).
Proof. intro a. unfold vec_bytes, lanes. cbn [flat_map]. now rewrite app_nil_r. Qed.
Lemma four : forall n (x : N), exists b0 b1 b2 b3, n = 4%nat -> le_bytes n x = [b0; b1; b2; b3].
Proof. intros n x. eexists. eexists. eexists. eexists. intros ->. apply lebytes4. Qed.
Ltac bytes4 x := let b0 := fresh "b" in let b1 := fresh "b" in let b2 := fresh "b" in let b3 := fresh "b" in let E := fresh "E" in
  destruct (four 4 x) as (b0 & b1 & b2 & b3 & E); specialize (E eq_refl).
Lemma alignr4 : forall a b, small_vec a -> small_vec b -> mm_alignr_epi8 a b 4 = V (l1 b) (l2 b) (l3 b) (l0 a).
Proof.
  intros a b (A0 & A1 & A2 & A3) (B0 & B1 & B2 & B3). unfold mm_alignr_epi8. rewrite !vec_bytes_split.
  rewrite <- (le4_back (l1 b)) at 2 by auto. rewrite <- (le4_back (l2 b)) at 2 by auto. rewrite <- (le4_back (l3 b)) at 2 by auto. rewrite <- (le4_back (l0 a)) at 2 by auto.
  bytes4 (l0 a). bytes4 (l1 a). bytes4 (l2 a). bytes4 (l3 a). bytes4 (l0 b). bytes4 (l1 b). bytes4 (l2 b). bytes4 (l3 b).
  rewrite E, E0, E1, E2, E3, E4, E5, E6. reflexivity.
Qed.
Lemma alignr8 : forall a b, small_vec a -> small_vec b -> mm_alignr_epi8 a b 8 = V (l2 b) (l3 b) (l0 a) (l1 a).
Proof.
  intros a b (A0 & A1 & A2 & A3) (B0 & B1 & B2 & B3). unfold mm_alignr_epi8. rewrite !vec_bytes_split.
  rewrite <- (le4_back (l2 b)) at 2 by auto. rewrite <- (le4_back (l3 b)) at 2 by auto. rewrite <- (le4_back (l0 a)) at 2 by auto. rewrite <- (le4_back (l1 a)) at 2 by auto.
  bytes4 (l0 a). bytes4 (l1 a). bytes4 (l2 a). bytes4 (l3 a). bytes4 (l0 b). bytes4 (l1 b). bytes4 (l2 b). bytes4 (l3 b).
  rewrite E, E0, E1, E2, E3, E4, E5, E6. reflexivity.
Qed.
Definition mask : vec := V 0x00010203 0x04050607 0x08090a0b 0x0c0d0e0f.
Lemma shuf8_mask : forall a, mm_shuffle_epi8 a mask = vrev32q_u8 a.
Proof.
  intro a. unfold mm_shuffle_epi8, vrev32q_u8, bswap32. change (vec_bytes mask) with [3; 2; 1; 0; 7; 6; 5; 4; 11; 10; 9; 8; 15; 14; 13; 12]. rewrite vec_bytes_split.
  bytes4 (l0 a). bytes4 (l1 a). bytes4 (l2 a). bytes4 (l3 a). rewrite E, E0, E1, E2. reflexivity.
Qed.
Lemma half_join : forall x, x mod 2 ^ 16 + 2 ^ 16 * (x / 2 ^ 16) = x.
Proof. intro x. rewrite N.add_comm. symmetry. apply N.div_mod. discriminate. Qed.
Lemma blendF0 : forall a b, mm_blend_epi16 a b 0xF0 = V (l0 a) (l1 a) (l2 b) (l3 b).
Proof.
  intros a b. unfold mm_blend_epi16, blend_word.
  change (N.testbit 0xF0 (2 * 0)) with false. change (N.testbit 0xF0 (2 * 0 + 1)) with false. change (N.testbit 0xF0 (2 * 1)) with false. change (N.testbit 0xF0 (2 * 1 + 1)) with false.
  change (N.testbit 0xF0 (2 * 2)) with true. change (N.testbit 0xF0 (2 * 2 + 1)) with true. change (N.testbit 0xF0 (2 * 3)) with true. change (N.testbit 0xF0 (2 * 3 + 1)) with true.
  cbv iota. now rewrite !half_join.
Qed.

(** * The graph *)
Inductive node :=
  | NVar (i : N) | NConst (c : N) | NSwap (x : N) | NAdd (x y : N) | NS0 (x y : N) | NS1 (x y : N)
  | NRnd (first : bool) (a b c d e f g h kw : N).
Definition node_eqb (m n : node) : bool :=
  match m, n with
  | NVar i, NVar j => i =? j
  | NConst i, NConst j => i =? j
  | NSwap i, NSwap j => i =? j
  | NAdd i j, NAdd k l => (i =? k) && (j =? l)
  | NS0 i j, NS0 k l => (i =? k) && (j =? l)
  | NS1 i j, NS1 k l => (i =? k) && (j =? l)
  | NRnd b a1 a2 a3 a4 a5 a6 a7 a8 a9, NRnd b' c1 c2 c3 c4 c5 c6 c7 c8 c9 =>
      Bool.eqb b b' && (a9 =? c9) && (a1 =? c1) && (a2 =? c2) && (a3 =? c3) && (a4 =? c4) && (a5 =? c5) && (a6 =? c6) && (a7 =? c7) && (a8 =? c8)
  | _, _ => false
  end.
Lemma node_eqb_eq : forall m n, node_eqb m n = true -> m = n.
Proof.
  intros m n. destruct m, n; cbn [node_eqb]; try discriminate; intro H; repeat (apply andb_prop in H as [H ?]); repeat match goal with X : (_ =? _) = true |- _ => apply N.eqb_eq in X; subst end; try reflexivity.
  match goal with X : Bool.eqb _ _ = true |- _ => apply Bool.eqb_prop in X; subst end. reflexivity.
Qed.
Definition kids (n : node) : list N :=
  match n with NVar _ | NConst _ => [] | NSwap x => [x] | NAdd x y | NS0 x y | NS1 x y => [x; y] | NRnd _ a b c d e f g h kw => [a; b; c; d; e; f; g; h; kw] end.
(** nodes with their numbers, the newest first, and the next number *)
Record graph := mk_graph { g_next : N; g_nodes : list (N * node) }.

Section Sem.
  Variable rho : N -> N.
  Definition neval (f : N -> N) (n : node) : N :=
    match n with
    | NVar i => rho i
    | NConst c => c mod W32
    | NSwap x => bswap32 (f x)
    | NAdd x y => add32 (f x) (f y)
    | NS0 x y => add32 (f x) (s0 ops256 (f y))
    | NS1 x y => add32 (f x) (s1 ops256 (f y))
    | NRnd true a b c d e f' g h kw => rndA (f a) (f b) (f c) (f d) (f e) (f f') (f g) (f h) (f kw)
    | NRnd false a b c d e f' g h kw => rndE (f a) (f b) (f c) (f d) (f e) (f f') (f g) (f h) (f kw)
    end.
  Fixpoint sem (l : list (N * node)) (i : N) : N :=
    match l with [] => 0 | (k, n) :: l' => if i =? k then neval (sem l') n else sem l' i end.
  Lemma bswap_lt : forall x, bswap32 x < W32.
  Proof.
    intro x. unfold bswap32. pose proof (le_val_lt (rev (le_bytes 4 x)) ltac:(apply Forall_rev; apply le_bytes_ok)) as H. exact H.
  Qed.
  Lemma neval_lt : (forall i, rho i < W32) -> forall f n, (forall i, f i < W32) -> neval f n < W32.
  Proof.
    intros R f n F. destruct n as [| | | | | |[|]]; cbn [neval]; auto using mod_lt32, bswap_lt, rndA_lt, rndE_lt; apply mod_lt32.
  Qed.
  Lemma sem_lt : (forall i, rho i < W32) -> forall l i, sem l i < W32.
  Proof.
    intro R. induction l as [|[k n] l IH]; intro i; cbn [sem]; [reflexivity|]. destruct (i =? k); [now apply neval_lt|apply IH].
  Qed.
  Lemma neval_ext : forall f g n, (forall i, In i (kids n) -> f i = g i) -> neval f n = neval g n.
  Proof.
    intros f g n H. destruct n as [| | | | | |[|]]; cbn [neval kids] in *; try reflexivity;
      repeat match goal with |- context [f ?x] => rewrite (H x) by (cbn [In]; tauto) end; reflexivity.
  Qed.
  Fixpoint wfl (b : N) (l : list (N * node)) : Prop :=
    match l with [] => True | (k, n) :: l' => k < b /\ Forall (fun i => i < k) (kids n) /\ wfl k l' end.
  Definition wf (S : graph) : Prop := wfl (g_next S) (g_nodes S).
  Definition ext (S S' : graph) : Prop := g_next S <= g_next S' /\ forall i, i < g_next S -> sem (g_nodes S') i = sem (g_nodes S) i.
  Definition ref (S : graph) (i x : N) : Prop := i < g_next S /\ sem (g_nodes S) i = x.
  Lemma ext_refl : forall S, ext S S.
  Proof. intro S. split; [lia|reflexivity]. Qed.
  Lemma ext_trans : forall S T U, ext S T -> ext T U -> ext S U.
  Proof. intros S T U [A B] [C D]. split; [lia|]. intros i I. rewrite D by lia. now apply B. Qed.
  Lemma ref_ext : forall S T i x, ext S T -> ref S i x -> ref T i x.
  Proof. intros S T i x [A B] [C D]. split; [lia|]. now rewrite B. Qed.
  Lemma ref_lt : (forall i, rho i < W32) -> forall S i x, ref S i x -> x < W32.
  Proof. intros R S i x [_ <-]. now apply sem_lt. Qed.
  (** a found node *)
  Fixpoint find_node (n : node) (l : list (N * node)) : option N :=
    match l with [] => None | (k, m) :: l' => if node_eqb m n then Some k else find_node n l' end.
  Lemma wfl_sem : forall l b c i, wfl b l -> c <= i -> (forall k n, In (k, n) l -> k < c) -> sem l i = 0.
  Proof.
    induction l as [|[k n] l IH]; intros b c i W I H; cbn [sem]; [reflexivity|]. pose proof (H k n (or_introl eq_refl)). destruct (N.eqb_spec i k); [lia|].
    cbn [wfl] in W. apply (IH k c); [tauto|lia|]. intros k' n' In'. apply (H k' n'). now right.
  Qed.
  Lemma wfl_in : forall l b k n, wfl b l -> In (k, n) l -> k < b.
  Proof. induction l as [|[k0 n0] l IH]; intros b k n W I; [destruct I|]. cbn [wfl] in W. destruct W as (A & B & C). destruct I as [E|I]; [injection E as <- <-; exact A|]. specialize (IH k0 k n C I). lia. Qed.
  Lemma find_sound : forall n l b k, wfl b l -> find_node n l = Some k -> k < b /\ Forall (fun i => i < k) (kids n) /\ sem l k = neval (sem l) n.
  Proof.
    induction l as [|[k0 m] l IH]; intros b k W F; [discriminate|]. cbn [find_node] in F. cbn [wfl] in W. destruct W as (A & B & C).
    destruct (node_eqb m n) eqn:E.
    - apply node_eqb_eq in E. subst m. injection F as <-. split; [exact A|]. split; [exact B|]. cbn [sem]. rewrite N.eqb_refl. apply neval_ext. intros i I.
      cbn [sem]. rewrite Forall_forall in B. specialize (B i I). destruct (N.eqb_spec i k0); [lia|reflexivity].
    - destruct (IH k0 k C F) as (H1 & H2 & H3). split; [lia|]. split; [exact H2|]. cbn [sem]. destruct (N.eqb_spec k k0); [lia|]. rewrite H3. apply neval_ext. intros i I.
      cbn [sem]. rewrite Forall_forall in H2. specialize (H2 i I). destruct (N.eqb_spec i k0); [lia|reflexivity].
  Qed.
  Definition sm (A : Type) := graph -> A * graph.
  Definition ret {A} (a : A) : sm A := fun S => (a, S).
  Definition bind {A B} (m : sm A) (k : A -> sm B) : sm B := fun S => let '(a, S') := m S in k a S'.
  Definition mk (n : node) : sm N := fun S =>
    match find_node n (g_nodes S) with
    | Some k => (k, S)
    | None => (g_next S, mk_graph (g_next S + 1) ((g_next S, n) :: g_nodes S))
    end.
  Fixpoint const_in (i : N) (l : list (N * node)) : option N :=
    match l with [] => None | (k, n) :: l' => if i =? k then match n with NConst c => Some (c mod W32) | _ => None end else const_in i l' end.
  Definition const_of (i : N) : sm (option N) := fun S =>
    (const_in i (g_nodes S), S).
  (** a computation from a well-formed graph leads to a well-formed extension in which its result satisfies [Q] *)
  Definition triple {A} (S : graph) (m : sm A) (Q : graph -> A -> Prop) : Prop :=
    wf S -> exists a S', m S = (a, S') /\ wf S' /\ ext S S' /\ Q S' a.
  Lemma t_ret : forall A (a : A) S (Q : graph -> A -> Prop), Q S a -> triple S (ret a) Q.
  Proof. intros A a S Q H W. exists a, S. split; [reflexivity|]. split; [exact W|]. split; [apply ext_refl|exact H]. Qed.
  Lemma t_bind : forall A B (m : sm A) (k : A -> sm B) S P Q, triple S m P -> (forall a S', wf S' -> ext S S' -> P S' a -> triple S' (k a) Q) -> triple S (bind m k) Q.
  Proof.
    intros A B m k S P Q H K W. destruct (H W) as (a & S' & E & W' & X & PA). destruct (K a S' W' X PA W') as (b & S'' & E' & W'' & X' & QB).
    exists b, S''. unfold bind. rewrite E. split; [exact E'|]. split; [exact W''|]. split; [exact (ext_trans _ _ _ X X')|exact QB].
  Qed.
  Lemma t_conseq : forall A (m : sm A) S (P Q : graph -> A -> Prop), triple S m P -> (forall S' a, ext S S' -> P S' a -> Q S' a) -> triple S m Q.
  Proof. intros A m S P Q H K W. destruct (H W) as (a & S' & E & W' & X & PA). exists a, S'. auto 6. Qed.
  Lemma t_mk : forall n S, Forall (fun i => i < g_next S) (kids n) -> triple S (mk n) (fun S' i => ref S' i (neval (sem (g_nodes S)) n)).
  Proof.
    intros n S K W. unfold mk. destruct (find_node n (g_nodes S)) as [k|] eqn:F.
    - destruct (find_sound n (g_nodes S) (g_next S) k W F) as (A & B & C). exists k, S. split; [reflexivity|]. split; [exact W|]. split; [apply ext_refl|]. split; [exact A|exact C].
    - eexists. eexists. split; [reflexivity|]. split; [|split].
      + unfold wf. cbn [g_next g_nodes wfl]. split; [lia|]. split; [exact K|exact W].
      + split; cbn [g_next g_nodes]; [lia|]. intros i I. cbn [sem]. destruct (N.eqb_spec i (g_next S)); [lia|reflexivity].
      + split; cbn [g_next g_nodes]; [lia|]. cbn [sem]. now rewrite N.eqb_refl.
  Qed.
  Lemma t_const_of : forall i S, triple S (const_of i) (fun S' o => S' = S /\ forall c, o = Some c -> sem (g_nodes S) i = c).
  Proof.
    intros i S W. unfold const_of. eexists. eexists. split; [reflexivity|]. split; [exact W|]. split; [apply ext_refl|]. split; [reflexivity|].
    clear W. generalize (g_nodes S). induction l as [|[k n] l IH]; intros c H; [discriminate|]. cbn [const_in] in H. cbn [sem]. destruct (i =? k); [|now apply IH].
    destruct n; try discriminate. injection H as <-. reflexivity.
  Qed.
  (** operations with constant folding *)
  Definition s_const (c : N) : sm N := mk (NConst (c mod W32)).
  Definition s_var (i : N) : sm N := mk (NVar i).
  Definition s_swap (i : N) : sm N := bind (const_of i) (fun o => match o with Some c => s_const (bswap32 c) | None => mk (NSwap i) end).
  Definition s_add (i j : N) : sm N :=
    bind (const_of i) (fun a => bind (const_of j) (fun b =>
    match a, b with
    | Some x, Some y => s_const (x + y)
    | Some 0, _ => ret j
    | _, Some 0 => ret i
    | _, _ => if i <=? j then mk (NAdd i j) else mk (NAdd j i)
    end)).
  Definition s_m1 (i j : N) : sm N := bind (const_of j) (fun b => match b with Some y => bind (s_const (s0 ops256 y)) (s_add i) | None => mk (NS0 i j) end).
  Definition s_m2 (i j : N) : sm N := bind (const_of j) (fun b => match b with Some y => bind (s_const (s1 ops256 y)) (s_add i) | None => mk (NS1 i j) end).
  Lemma t_const : forall S c, triple S (s_const c) (fun S' i => ref S' i (c mod W32)).
  Proof. intros S c. eapply t_conseq; [apply (t_mk (NConst (c mod W32))); constructor|]. cbv beta. intros S' i _ R. cbn [neval] in R. rewrite N.mod_mod in R by discriminate. exact R. Qed.
  Lemma t_var : forall S i, triple S (s_var i) (fun S' j => ref S' j (rho i)).
  Proof. intros S c. apply (t_mk (NVar c)). constructor. Qed.
  Lemma t_swap : forall S i x, ref S i x -> triple S (s_swap i) (fun S' j => ref S' j (bswap32 x)).
  Proof.
    intros S i x R. eapply t_bind; [apply t_const_of|]. cbv beta. intros o S' W X [-> H]. destruct o as [c|].
    - rewrite <- (proj2 R), (H c eq_refl). eapply t_conseq; [apply t_const|]. cbv beta. intros S'' a _ R'. rewrite N.mod_small in R' by apply bswap_lt. exact R'.
    - eapply t_conseq; [apply t_mk; constructor; [apply R|constructor]|]. cbv beta. intros S'' a _ R'. cbn [neval] in R'. rewrite (proj2 R) in R'. exact R'.
  Qed.
  Hypothesis rho_lt : forall i, rho i < W32.
  Lemma t_add : forall S i j x y, ref S i x -> ref S j y -> triple S (s_add i j) (fun S' k => ref S' k (add32 x y)).
  Proof.
    intros S i j x y RX RY. eapply t_bind; [apply t_const_of|]. cbv beta. intros o S' W X [-> H]. eapply t_bind; [apply t_const_of|]. cbv beta. intros o' S' W' X' [-> H'].
    assert (G : triple S (if i <=? j then mk (NAdd i j) else mk (NAdd j i)) (fun S' k => ref S' k (add32 x y))).
    { destruct (i <=? j); (eapply t_conseq; [apply t_mk; repeat constructor; try apply RX; try apply RY|]); cbv beta; intros S'' a _ R'; cbn [neval] in R'; rewrite (proj2 RX), (proj2 RY) in R'; auto.
      unfold add32 in *. now rewrite N.add_comm. }
    assert (Z1 : o = Some 0 -> triple S (ret j) (fun S' k => ref S' k (add32 x y))).
    { intros ->. apply t_ret. specialize (H 0 eq_refl). rewrite (proj2 RX) in H. subst x. unfold add32. rewrite N.add_0_l, N.mod_small by exact (ref_lt rho_lt _ _ _ RY). exact RY. }
    assert (Z2 : o' = Some 0 -> triple S (ret i) (fun S' k => ref S' k (add32 x y))).
    { intros ->. apply t_ret. specialize (H' 0 eq_refl). rewrite (proj2 RY) in H'. subst y. unfold add32. rewrite N.add_0_r, N.mod_small by exact (ref_lt rho_lt _ _ _ RX). exact RX. }
    destruct o as [a|]; destruct o' as [b|].
    - assert (C : triple S (s_const (a + b)) (fun S' k => ref S' k (add32 x y))).
      { rewrite <- (proj2 RX), <- (proj2 RY), (H a eq_refl), (H' b eq_refl). apply t_const. }
      destruct a; exact C.
    - destruct a; [now apply Z1|exact G].
    - destruct b; [now apply Z2|exact G].
    - exact G.
  Qed.
  Lemma t_m1 : forall S i j x y, ref S i x -> ref S j y -> triple S (s_m1 i j) (fun S' k => ref S' k (add32 x (s0 ops256 y))).
  Proof.
    intros S i j x y RX RY. eapply t_bind; [apply t_const_of|]. cbv beta. intros o S' W X [-> H]. destruct o as [c|].
    - eapply t_bind; [apply t_const|]. cbv beta. intros a S' W' X' R. eapply t_conseq; [exact (t_add S' i a x _ (ref_ext _ _ _ _ X' RX) R)|]. cbv beta. intros S'' k _ R'.
      unfold add32 in R' at 1. rewrite madd' in R'. rewrite <- (proj2 RY), (H c eq_refl). exact R'.
    - eapply t_conseq; [apply t_mk; repeat constructor; [apply RX|apply RY]|]. cbv beta. intros S'' a _ R'. cbn [neval] in R'. rewrite (proj2 RX), (proj2 RY) in R'. exact R'.
  Qed.
  Lemma t_m2 : forall S i j x y, ref S i x -> ref S j y -> triple S (s_m2 i j) (fun S' k => ref S' k (add32 x (s1 ops256 y))).
  Proof.
    intros S i j x y RX RY. eapply t_bind; [apply t_const_of|]. cbv beta. intros o S' W X [-> H]. destruct o as [c|].
    - eapply t_bind; [apply t_const|]. cbv beta. intros a S' W' X' R. eapply t_conseq; [exact (t_add S' i a x _ (ref_ext _ _ _ _ X' RX) R)|]. cbv beta. intros S'' k _ R'.
      unfold add32 in R' at 1. rewrite madd' in R'. rewrite <- (proj2 RY), (H c eq_refl). exact R'.
    - eapply t_conseq; [apply t_mk; repeat constructor; [apply RX|apply RY]|]. cbv beta. intros S'' a _ R'. cbn [neval] in R'. rewrite (proj2 RX), (proj2 RY) in R'. exact R'.
  Qed.
  Lemma t_rnd : forall S (p : bool) a b c d e f g h kw a' b' c' d' e' f' g' h' kw',
    ref S a a' -> ref S b b' -> ref S c c' -> ref S d d' -> ref S e e' -> ref S f f' -> ref S g g' -> ref S h h' -> ref S kw kw' ->
    triple S (mk (NRnd p a b c d e f g h kw)) (fun S' i => ref S' i (if p then rndA a' b' c' d' e' f' g' h' kw' else rndE a' b' c' d' e' f' g' h' kw')).
  Proof.
    intros S p a b c d e f g h kw a' b' c' d' e' f' g' h' kw' A B C D E F G H K. eapply t_conseq; [apply t_mk; repeat constructor; match goal with R : ref _ ?i _ |- ?i < _ => apply R end|].
    cbv beta. intros S'' i _ R. destruct p; cbn [neval] in R; rewrite (proj2 A), (proj2 B), (proj2 C), (proj2 D), (proj2 E), (proj2 F), (proj2 G), (proj2 H), (proj2 K) in R; exact R.
  Qed.
End Sem.
