(** Lemmas: the programs of x86_shani.rs and arm_sha2.rs compute the standard's compression function. *)
From Coq Require Import String.
From Verif Require Import Base MDec LDec LU256 MHash SHash LHash MSha2 SSha2 LSha2 SHashApi LSha2b LSha2c LSha2d LHmac MSimd LSimd LSimd2.
Local Open Scope N_scope.
#[local] Opaque compress iterate sha256_comp.

(** * The standard with a window of sixteen words *)
Fixpoint mrounds (K : list N) (r w : list N) : list N :=
  match K with [] => r | k :: K' => mrounds K' (mstep ops256 r k (hd 0 w)) (tl w ++ [mnext ops256 w]) end.
Lemma mrounds_slide : forall K r w, w <> [] -> mrounds K r w = msteps ops256 r (combine K (w ++ slide ops256 (List.length K) w)).
Proof.
  induction K as [|k K IH]; intros r w NE; [reflexivity|]. destruct w as [|x w]; [congruence|]. cbn [mrounds hd tl List.length slide]. rewrite IH by (destruct w; discriminate).
  cbn [app combine]. unfold msteps at 2. cbn [fold_left fst snd]. unfold msteps. f_equal. f_equal. now rewrite <- app_assoc.
Qed.
Lemma combine_long : forall (A B : Type) (a : list A) (b b' : list B), (List.length a <= List.length b)%nat -> combine a (b ++ b') = combine a b.
Proof. intros A B. induction a as [|x a IH]; intros [|y b] b' H; cbn [List.length] in H; try lia; cbn [app combine]; [destruct b'; reflexivity|reflexivity|]. rewrite IH by lia. reflexivity. Qed.
Lemma slide_len : forall o n v, List.length (slide o n v) = n.
Proof. intros o. induction n as [|n IH]; intro v; cbn [slide List.length]; auto. Qed.
Definition K256 : list N := map i_k sha256_rounds.
Lemma K256_eq : K256 = fK sha256_std.
Proof. vm_compute. reflexivity. Qed.
(** the compression function on the words of a block *)
Definition cword (st w : list N) : list N := wadd2 ops256 st (mrounds K256 st w).
Lemma cword_spec : forall st b w, good ops256 st -> words_of sha256_std b = w -> small ops256 w -> List.length w = 16%nat -> compress sha256_std st b = cword st w.
Proof.
  intros st b w G E SW LW. rewrite (compress_words st b w G E SW LW). unfold cword. f_equal. rewrite mrounds_slide by (destruct w; discriminate). f_equal.
  rewrite K256_eq, (proj1 len_K). change 64%nat with (48 + 16)%nat. rewrite slide_app by lia. rewrite app_assoc. symmetry. apply combine_long. rewrite app_length, slide_len, LW, (proj1 len_K). lia.
Qed.
(** the words of a block *)
Definition word_at (b : bytes) (j : N) : N := be_val (takeN 4 (dropN (4 * j) b)).
Definition ix (n : nat) : list N := map N.of_nat (seq 0 n).
Lemma chunks_at : forall n bs l, chunks_n n bs l = map (fun j => takeN bs (dropN (bs * N.of_nat j) l)) (seq 0 n).
Proof.
  induction n as [|n IH]; intros bs l; [reflexivity|]. cbn [chunks_n seq map]. f_equal.
  - rewrite N.mul_0_r. reflexivity.
  - rewrite IH. rewrite <- seq_shift, map_map. apply map_ext. intro j. f_equal. unfold dropN. replace (N.to_nat (bs * N.of_nat (S j))) with (N.to_nat (bs * N.of_nat j) + N.to_nat bs)%nat by lia.
    generalize (N.to_nat bs) as p. generalize (N.to_nat (bs * N.of_nat j)) as q. clear. intros q p. revert l. induction p as [|p IH]; intro l; [now rewrite Nat.add_0_r|].
    rewrite Nat.add_succ_r. destruct l as [|x l]; [now rewrite !skipn_nil|]. cbn [skipn]. apply IH.
Qed.
Lemma words_at : forall b, lenN b = 64 -> words_of sha256_std b = map (word_at b) (ix 16).
Proof.
  intros b L. rewrite <- (be_words_of ops256 sha256_std agree256 ltac:(exists 4; split; [reflexivity|lia])) by (rewrite L; reflexivity). change (wd ops256 / 8) with 4.
  unfold be_words, chunks_exact. rewrite L. change (N.to_nat (64 / 4)) with 16%nat. rewrite chunks_at. unfold ix. rewrite !map_map. reflexivity.
Qed.
Lemma words_small : forall b, bytes_ok b -> lenN b = 64 -> small ops256 (map (word_at b) (ix 16)).
Proof.
  intros b OK L. rewrite <- words_at by auto. rewrite <- (be_words_of ops256 sha256_std agree256 ltac:(exists 4; split; [reflexivity|lia])) by (rewrite L; reflexivity).
  exact (proj1 (be_words_small ops256 ltac:(exists 4; split; [reflexivity|lia]) b OK L)).
Qed.
Lemma compress_at : forall st b, good ops256 st -> bytes_ok b -> lenN b = 64 -> compress sha256_std st b = cword st (map (word_at b) (ix 16)).
Proof. intros st b G OK L. apply cword_spec; auto using words_at, words_small. Qed.

(** * The same on graph numbers *)
Definition s_list (l : list (sm N)) : sm (list N) := fold_right (fun m r => bind m (fun x => bind r (fun xs => ret (x :: xs)))) (ret []) l.
Definition s_next (w : list N) : sm N :=
  bind (s_m1 (nth 0 w 0) (nth 1 w 0)) (fun a => bind (s_add a (nth 9 w 0)) (fun a => s_m2 a (nth 14 w 0))).
Fixpoint s_rounds (K : list N) (r w : list N) : sm (list N) :=
  match K with
  | [] => ret r
  | k :: K' =>
      match r with
      | [a; b; c; d; e; f; g; h] =>
          bind (s_const k) (fun kc => bind (s_add kc (hd 0 w)) (fun kw => bind (s_rnd2 a b c d e f g h kw) (fun p =>
          bind (s_next w) (fun x => s_rounds K' [fst p; a; b; c; snd p; e; f; g] (tl w ++ [x])))))
      | _ => ret []
      end
  end.
Fixpoint s_adds (a b : list N) : sm (list N) :=
  match a, b with x :: a', y :: b' => bind (s_add x y) (fun z => bind (s_adds a' b') (fun zs => ret (z :: zs))) | _, _ => ret [] end.
Definition s_cword (r w : list N) : sm (list N) := bind (s_rounds K256 r w) (fun r' => s_adds r r').
Section Spec.
  Variable rho : N -> N.
  Notation ref := (LSimd.ref rho).
  Notation ext := (LSimd.ext rho).
  Notation triple := (LSimd.triple rho).
  Definition rl (S : graph) (a b : list N) : Prop := Forall2 (ref S) a b.
  Lemma rl_ext : forall S T a b, ext S T -> rl S a b -> rl T a b.
  Proof. intros S T a b X H. induction H; constructor; auto. exact (ref_ext rho _ _ _ _ X H). Qed.
  Lemma rl_nth : forall S a b i, rl S a b -> (i < List.length a)%nat -> ref S (nth i a 0) (nth i b 0).
  Proof. intros S a b i H. revert i. induction H; intros [|i] L; cbn [List.length] in L; try lia; [auto|]. apply IHForall2. lia. Qed.
  Lemma rl_len : forall S a b, rl S a b -> List.length a = List.length b.
  Proof. intros S a b H. induction H; cbn [List.length]; auto. Qed.
  Lemma rl_app : forall S a b c d, rl S a b -> rl S c d -> rl S (a ++ c) (b ++ d).
  Proof. intros. now apply Forall2_app. Qed.
  Lemma t_list : forall (l : list (sm N)) vs S, Forall2 (fun m v => forall T, ext S T -> triple T m (fun S' i => ref S' i v)) l vs -> triple S (s_list l) (fun S' a => rl S' a vs).
  Proof.
    induction l as [|m l IH]; intros vs S H; inversion H as [|? v ? vs' A B]; subst; cbn [s_list fold_right].
    - apply t_ret. constructor.
    - eapply t_bind; [exact (A S (ext_refl rho S))|]. cbv beta. intros x S' W X R. eapply t_bind.
      + apply (IH vs'). revert B. clear -X. induction 1; constructor; auto. intros T X'. apply H. exact (ext_trans rho _ _ _ X X').
      + cbv beta. intros xs S'' W' X' R'. apply t_ret. constructor; [exact (ref_ext rho _ _ _ _ X' R)|exact R'].
  Qed.
  Hypothesis rho_lt : forall i, rho i < W32.
  Lemma t_next : forall S w w', rl S w w' -> List.length w = 16%nat -> triple S (s_next w) (fun S' i => ref S' i (mnext ops256 w')).
  Proof.
    intros S w w' R L. assert (RN : forall i, (i < 16)%nat -> ref S (nth i w 0) (nth i w' 0)) by (intros i I; apply rl_nth; [exact R|lia]). unfold s_next.
    eapply t_bind; [apply (t_m1 rho rho_lt); [apply (RN 0%nat); lia|apply (RN 1%nat); lia]|]. cbv beta. intros a S1 W1 X1 R1.
    eapply t_bind; [apply (t_add rho rho_lt); [exact R1|exact (ref_ext rho _ _ _ _ X1 (RN 9%nat ltac:(lia)))]|]. cbv beta. intros b S2 W2 X2 R2.
    eapply t_conseq; [apply (t_m2 rho rho_lt); [exact R2|exact (ref_ext rho _ _ _ _ (ext_trans rho _ _ _ X1 X2) (RN 14%nat ltac:(lia)))]|]. cbv beta. intros S3 i X3 R3.
    unfold mnext. change (wd ops256) with 32. set (p := s0 ops256 (nth 1 w' 0)) in *. set (q := s1 ops256 (nth 14 w' 0)) in *. clearbody p q.
    assert (E : wadd 32 (wadd 32 (wadd 32 (nth 0 w' 0) q) (nth 9 w' 0)) p = add32 (add32 (add32 (nth 0 w' 0) p) (nth 9 w' 0)) q) by (unfold wadd, add32; mods).
    rewrite E. exact R3.
  Qed.
  Lemma t_rounds : forall K S r w r' w', rl S r r' -> rl S w w' -> List.length r = 8%nat -> List.length w = 16%nat -> Forall (fun k => k < W32) K ->
    triple S (s_rounds K r w) (fun S' a => rl S' a (mrounds K r' w')).
  Proof.
    induction K as [|k K IH]; intros S r w r' w' R RW L LW KS; cbn [s_rounds mrounds].
    - now apply t_ret.
    - pose proof (rl_len _ _ _ R) as L'. rewrite L in L'. symmetry in L'. apply len8 in L as (a & b & c & d & e & f & g & h & ->). apply len8 in L' as (a' & b' & c' & d' & e' & f' & g' & h' & ->).
      assert (RN : forall i, (i < 8)%nat -> ref S (nth i [a; b; c; d; e; f; g; h] 0) (nth i [a'; b'; c'; d'; e'; f'; g'; h'] 0)) by (intros i I; apply rl_nth; [exact R|exact I]).
      pose proof (RN 0%nat ltac:(lia)) as Ra. pose proof (RN 1%nat ltac:(lia)) as Rb. pose proof (RN 2%nat ltac:(lia)) as Rc. pose proof (RN 3%nat ltac:(lia)) as Rd.
      pose proof (RN 4%nat ltac:(lia)) as Re. pose proof (RN 5%nat ltac:(lia)) as Rf. pose proof (RN 6%nat ltac:(lia)) as Rg. pose proof (RN 7%nat ltac:(lia)) as Rh. clear RN. cbn [nth] in *.
      assert (RH : ref S (hd 0 w) (hd 0 w')).
      { pose proof (rl_nth S w w' 0 RW ltac:(lia)) as H. destruct w, w'; exact H. }
      apply Forall_cons_iff in KS as [KL KS].
      eapply t_bind; [apply t_const|]. cbv beta. intros kc S1 W1 X1 R1. rewrite N.mod_small in R1 by exact KL.
      eapply t_bind; [apply (t_add rho rho_lt); [exact R1|exact (ref_ext rho _ _ _ _ X1 RH)]|]. cbv beta. intros kw S2 W2 X2 R2. assert (X12 := ext_trans rho _ _ _ X1 X2).
      eapply t_bind; [apply (t_rnd2 rho) with (1 := ref_ext rho _ _ _ _ X12 Ra) (2 := ref_ext rho _ _ _ _ X12 Rb) (3 := ref_ext rho _ _ _ _ X12 Rc) (4 := ref_ext rho _ _ _ _ X12 Rd) (5 := ref_ext rho _ _ _ _ X12 Re)
        (6 := ref_ext rho _ _ _ _ X12 Rf) (7 := ref_ext rho _ _ _ _ X12 Rg) (8 := ref_ext rho _ _ _ _ X12 Rh) (9 := R2)|]. cbv beta. intros p S3 W3 X3 [P1 P2]. assert (X13 := ext_trans rho _ _ _ X12 X3).
      eapply t_bind; [apply t_next; [exact (rl_ext _ _ _ _ X13 RW)|exact LW]|]. cbv beta. intros x S4 W4 X4 RX. assert (X14 := ext_trans rho _ _ _ X13 X4).
      rewrite rnd_step. apply IH.
      + constructor; [exact (ref_ext rho _ _ _ _ X4 P1)|]. constructor; [exact (ref_ext rho _ _ _ _ X14 Ra)|]. constructor; [exact (ref_ext rho _ _ _ _ X14 Rb)|].
        constructor; [exact (ref_ext rho _ _ _ _ X14 Rc)|]. constructor; [exact (ref_ext rho _ _ _ _ X4 P2)|]. constructor; [exact (ref_ext rho _ _ _ _ X14 Re)|].
        constructor; [exact (ref_ext rho _ _ _ _ X14 Rf)|]. constructor; [exact (ref_ext rho _ _ _ _ X14 Rg)|]. constructor.
      + apply rl_app; [|constructor; [exact RX|constructor]]. pose proof (rl_ext _ _ _ _ X14 RW) as H. destruct H; [constructor|assumption].
      + reflexivity.
      + rewrite app_length. destruct w; [discriminate|]. cbn [List.length tl] in *. lia.
      + exact KS.
  Qed.
  Lemma t_adds : forall a b S a' b', rl S a a' -> rl S b b' -> triple S (s_adds a b) (fun S' c => rl S' c (wadd2 ops256 a' b')).
  Proof.
    induction a as [|x a IH]; intros b S a' b' RA RB; inversion RA; subst; cbn [s_adds wadd2]; [apply t_ret; constructor|].
    inversion RB; subst; [apply t_ret; constructor|]. eapply t_bind; [apply (t_add rho rho_lt); eassumption|]. cbv beta. intros z S' W X R.
    eapply t_bind; [apply IH; [eapply rl_ext; [exact X|eassumption]|eapply rl_ext; [exact X|eassumption]]|]. cbv beta. intros zs S'' W' X' R'. apply t_ret. constructor; [exact (ref_ext rho _ _ _ _ X' R)|exact R'].
  Qed.
  Lemma K256_small : Forall (fun k => k < W32) K256.
  Proof. repeat (constructor; [vm_compute; reflexivity|]). constructor. Qed.
  Lemma t_cword : forall S r w r' w', rl S r r' -> rl S w w' -> List.length r = 8%nat -> List.length w = 16%nat -> triple S (s_cword r w) (fun S' a => rl S' a (cword r' w')).
  Proof.
    intros S r w r' w' R RW L LW. unfold s_cword, cword. eapply t_bind; [exact (t_rounds K256 S r w r' w' R RW L LW K256_small)|]. cbv beta. intros a S1 W1 X1 R1.
    apply t_adds; [exact (rl_ext _ _ _ _ X1 R)|exact R1].
  Qed.
  Lemma t_consts_list : forall l S, Forall (fun x => x < W32) l -> triple S (s_list (map s_const l)) (fun S' a => rl S' a l).
  Proof.
    intros l S F. apply t_list. induction F as [|x l X F IH]; cbn [map]; constructor; [|exact IH]. intros T _. eapply t_conseq; [apply t_const|]. cbv beta. intros S' i _ R. rewrite N.mod_small in R by exact X. exact R.
  Qed.
  Lemma t_vars_list : forall l S, triple S (s_list (map s_var l)) (fun S' a => rl S' a (map rho l)).
  Proof. intros l S. apply t_list. induction l as [|x l IH]; cbn [map]; constructor; [|exact IH]. intros T _. apply t_var. Qed.
  Definition s_word (i : N) : sm N := bind (s_var i) s_swap.
  Lemma t_words_list : forall l S, triple S (s_list (map s_word l)) (fun S' a => rl S' a (map (fun i => bswap32 (rho i)) l)).
  Proof.
    intros l S. apply t_list. induction l as [|x l IH]; cbn [map]; constructor; [|exact IH]. intros T _. unfold s_word. eapply t_bind; [apply t_var|]. cbv beta. intros a S' W X R. apply (t_swap rho _ _ _ R).
  Qed.
  Lemma ref_fun : forall S i x y, ref S i x -> ref S i y -> x = y.
  Proof. intros S i x y [_ A] [_ B]. congruence. Qed.
  Lemma rv_fun : forall S v x y, rv rho S v x -> rv rho S v y -> x = y.
  Proof.
    intros S v [x0 x1 x2 x3] [y0 y1 y2 y3] (A0 & A1 & A2 & A3) (B0 & B1 & B2 & B3). cbn [l0 l1 l2 l3] in *.
    now rewrite (ref_fun _ _ _ _ A0 B0), (ref_fun _ _ _ _ A1 B1), (ref_fun _ _ _ _ A2 B2), (ref_fun _ _ _ _ A3 B3).
  Qed.
End Spec.
Definition v_eqb (a b : v4 N) : bool := (l0 a =? l0 b) && (l1 a =? l1 b) && (l2 a =? l2 b) && (l3 a =? l3 b).
Lemma v_eqb_eq : forall a b, v_eqb a b = true -> a = b.
Proof.
  intros [a0 a1 a2 a3] [b0 b1 b2 b3] H. unfold v_eqb in H. cbn [l0 l1 l2 l3] in H. apply andb_prop in H as [H H4]. apply andb_prop in H as [H H3]. apply andb_prop in H as [H1 H2].
  apply N.eqb_eq in H1, H2, H3, H4. now subst.
Qed.
Definition g_empty : graph := mk_graph 0 [].
Lemma wf_empty : wf g_empty.
Proof. exact I. Qed.
(** a checked computation from the empty graph *)
Lemma checked : forall rho (m : sm bool) (P : Prop), triple rho g_empty m (fun _ b => b = true -> P) -> fst (m g_empty) = true -> P.
Proof. intros rho m P T H. destruct (T wf_empty) as (a & S' & E & _ & _ & Q). rewrite E in H. exact (Q H). Qed.
