(** Lemmas on child numbers and derivation paths. *)
From Coq Require Import String.
From Verif Require Import Base MDec LDec MText SText LText LAmountText LU256 MBip32 SBip32.
Local Open Scope N_scope.

(** * Child numbers *)
Lemma flag_shift : forall c, N.land c HARDENED_FLAG = 0 <-> N.testbit c 31 = false.
Proof.
  intro c. unfold HARDENED_FLAG. split; intro H.
  - assert (N.testbit (N.land c (2 ^ 31)) 31 = false) by (rewrite H; apply N.bits_0).
    rewrite N.land_spec, N.pow2_bits_true, andb_true_r in H0. exact H0.
  - apply N.bits_inj. intro k. rewrite N.land_spec, N.pow2_bits_eqb, N.bits_0. destruct (N.eqb_spec 31 k) as [<-|]; [now rewrite H|apply andb_false_r].
Qed.
Lemma bit31 : forall c, c < 2 ^ 32 -> N.testbit c 31 = (2 ^ 31 <=? c).
Proof.
  intros c L. rewrite <- N.shiftr_spec with (n := 31) (m := 0) by lia. rewrite N.shiftr_div_pow2.
  destruct (N.leb_spec (2 ^ 31) c).
  - replace (c / 2 ^ 31) with 1; [reflexivity|]. apply N.div_unique with (r := c - 2 ^ 31); lia.
  - now rewrite N.div_small.
Qed.
Lemma is_hardened_iff : forall c, cn_ok c -> is_hardened c = (2 ^ 31 <=? c).
Proof.
  intros c L. unfold is_hardened. rewrite <- (bit31 c L). pose proof (flag_shift c). destruct (N.eqb_spec (N.land c HARDENED_FLAG) 0); destruct (N.testbit c 31); cbn; auto; intuition congruence.
Qed.
Lemma cn_index_mod : forall c, cn_index c = c mod 2 ^ 31.
Proof. intro c. unfold cn_index. change MAX_CHILD_INDEX with (N.ones 31). apply N.land_ones. Qed.
Lemma cn_index_eq : forall c, cn_ok c -> cn_index c = if 2 ^ 31 <=? c then c - 2 ^ 31 else c.
Proof.
  intros c L. unfold cn_ok in L. rewrite cn_index_mod. destruct (N.leb_spec (2 ^ 31) c).
  - symmetry. apply N.mod_unique with (q := 1); lia.
  - apply N.mod_small. lia.
Qed.
Lemma from_normal_eq : forall i, from_normal_idx i = if i <? 2 ^ 31 then Ok i else Err i.
Proof. intro i. unfold from_normal_idx. change MAX_CHILD_INDEX with (2 ^ 31 - 1). destruct (N.leb_spec i (2 ^ 31 - 1)), (N.ltb_spec i (2 ^ 31)); auto; lia. Qed.
Lemma lor_flag : forall i, i < 2 ^ 31 -> N.lor i HARDENED_FLAG = i + 2 ^ 31.
Proof.
  intros i L. unfold HARDENED_FLAG. rewrite <- N.lxor_lor, <- N.add_nocarry_lxor; auto.
  all: apply N.bits_inj; intro k; rewrite N.land_spec, N.pow2_bits_eqb, N.bits_0; destruct (N.eqb_spec 31 k) as [<-|]; [|apply andb_false_r];
    rewrite bit31 by lia; rewrite (proj2 (N.leb_gt _ _) L); reflexivity.
Qed.
Lemma from_hardened_eq : forall i, from_hardened_idx i = if i <? 2 ^ 31 then Ok (i + 2 ^ 31) else Err i.
Proof.
  intro i. unfold from_hardened_idx. change MAX_CHILD_INDEX with (2 ^ 31 - 1). destruct (N.leb_spec i (2 ^ 31 - 1)), (N.ltb_spec i (2 ^ 31)); auto; try lia.
  now rewrite lor_flag.
Qed.
Lemma increment_eq : forall c, cn_ok c ->
  increment c = if (c =? 2 ^ 31 - 1) || (c =? 2 ^ 32 - 1) then Err (2 ^ 31) else Ok (c + 1).
Proof.
  intros c L. unfold increment. rewrite (cn_index_eq c L), (is_hardened_iff c L), from_hardened_eq, from_normal_eq. unfold cn_ok in L.
  destruct (N.leb_spec (2 ^ 31) c).
  - rewrite (proj2 (N.ltb_lt _ _)) by lia. destruct (N.eqb_spec c (2 ^ 31 - 1)); [lia|]. cbn [orb]. destruct (N.eqb_spec c (2 ^ 32 - 1)).
    + subst c. reflexivity.
    + rewrite (proj2 (N.ltb_lt _ _)) by lia. f_equal. lia.
  - rewrite (proj2 (N.ltb_lt _ _)) by lia. destruct (N.eqb_spec c (2 ^ 31 - 1)).
    + subst c. reflexivity.
    + cbn [orb]. destruct (N.eqb_spec c (2 ^ 32 - 1)); [lia|]. rewrite (proj2 (N.ltb_lt _ _)) by lia. reflexivity.
Qed.

(** * The text of a child number *)
Lemma parse_u32_ok : forall s n, parse_u32 s = Ok n <-> int_text digit10 10 false s (Z.of_N n) /\ n < 2 ^ 32.
Proof.
  intros s n. unfold parse_u32. transitivity (from_str_radix false 0 (2 ^ 32 - 1) 10 s = Ok (Z.of_N n)).
  - destruct (from_str_radix false 0 (2 ^ 32 - 1) 10 s) as [z|] eqn:E; [|split; discriminate]. apply (radix_ok 10 digit10) in E; [|exact good10]. split; intro H; inv H; f_equal; lia.
  - rewrite (radix_ok 10 digit10) by exact good10. split; intros [T R]; split; auto; lia.
Qed.
Lemma int_text_chars : forall s z c, int_text digit10 10 false s z -> In c s -> c = 43 \/ 48 <= c < 58.
Proof.
  intros s z c T I. assert (D : forall t n, numeral digit10 10 t n -> In c t -> 48 <= c < 58).
  { intros t n N1 I1. destruct (numeral_in _ _ _ _ _ N1 I1) as (d & D1 & D2). lia. }
  inv T; [right; eauto| |discriminate]. destruct I as [<-|I]; [now left|right; eauto].
Qed.
Lemma int_text_nonempty : forall s z, int_text digit10 10 false s z -> s <> [].
Proof. intros s z T. inv T; [|discriminate|discriminate]. now apply numeral_nonempty in H. Qed.
Lemma int_text_fun : forall s n m, int_text digit10 10 false s (Z.of_N n) -> int_text digit10 10 false s (Z.of_N m) -> n = m.
Proof.
  intros s n m A B.
  assert (HD : forall t k, numeral digit10 10 (43 :: t) k -> False) by (intros t k X; apply numeral_head in X as (d & D1 & D2); lia).
  inv A; inv B; try discriminate; try (exfalso; eauto; fail).
  - assert (n0 = n1) by (eapply numeral_fun; [|eassumption|eassumption]; apply digit10_inj). lia.
  - assert (n0 = n1) by (eapply numeral_fun; [|eassumption|eassumption]; apply digit10_inj). lia.
Qed.
Lemma in_last : forall (s : str) l f, rev s = l :: f -> s = rev f ++ [l].
Proof. intros s l f H. rewrite <- (rev_involutive s), H. reflexivity. Qed.
Lemma last_digit : forall s z l f, int_text digit10 10 false s z -> s = f ++ [l] -> l <> 39 /\ l <> 104.
Proof. intros s z l f T ->. assert (I : In l (f ++ [l])) by (apply in_or_app; right; now left). pose proof (int_text_chars _ _ _ T I). lia. Qed.
Lemma cn_from_str_ok : forall s c, cn_from_str s = Ok c <-> child_text s c.
Proof.
  intros s c. unfold cn_from_str, child_text. destruct (rev s) as [|l f] eqn:R.
  - assert (s = []) as -> by (rewrite <- (rev_involutive s), R; reflexivity). split; [discriminate|].
    intros (d & i & T & L & [[E _]|[[E|E] _]]); [symmetry in E; now apply int_text_nonempty in T| |]; symmetry in E; now apply app_eq_nil in E as [_ E].
  - apply in_last in R. subst s. destruct (N.eqb_spec l 39) as [->|N39]; [|destruct (N.eqb_spec l 104) as [->|N104]]; cbn [orb]; split.
    1,3: destruct (parse_u32 (rev f)) as [n|] eqn:P; [|discriminate]; apply parse_u32_ok in P as [T L]; rewrite from_hardened_eq; destruct (N.ltb_spec n (2 ^ 31)); [|discriminate];
      intro E; inv E; exists (rev f), n; split; [exact T|split; [auto|right; split; auto]].
    1,2: intros (d & i & T & L & [[E ->]|[[E|E] ->]]);
      [destruct (last_digit _ _ _ _ T (eq_sym E)); lia|..]; apply app_inj_tail in E as [E1 E2]; try discriminate E2; subst d;
      rewrite (proj2 (parse_u32_ok _ i)) by (split; [exact T|lia]); rewrite from_hardened_eq, (proj2 (N.ltb_lt _ _) L); reflexivity.
    + destruct (parse_u32 (rev f ++ [l])) as [n|] eqn:P; [|discriminate]. apply parse_u32_ok in P as [T L]. rewrite from_normal_eq. destruct (N.ltb_spec n (2 ^ 31)); [|discriminate].
      intro E. inv E. exists (rev f ++ [l]), c. split; [exact T|]. split; [auto|]. now left.
    + intros (d & i & T & L & [[E ->]|[[E|E] ->]]).
      * subst d. rewrite (proj2 (parse_u32_ok _ i)) by (split; [exact T|lia]). rewrite from_normal_eq, (proj2 (N.ltb_lt _ _) L). reflexivity.
      * apply app_inj_tail in E as [_ E]. now destruct (N39 E).
      * apply app_inj_tail in E as [_ E]. now destruct (N104 E).
Qed.
Lemma child_text_ok : forall s c, child_text s c -> cn_ok c.
Proof. intros s c (d & i & _ & L & [[_ ->]|[_ ->]]); unfold cn_ok; lia. Qed.
Lemma cn_display_text : forall alt c, cn_ok c -> child_text (cn_display alt c) c.
Proof.
  intros alt c L. unfold cn_display. rewrite (cn_index_eq c L), (is_hardened_iff c L). unfold cn_ok in L.
  destruct (N.leb_spec (2 ^ 31) c).
  - exists (fmt_u (c - 2 ^ 31)), (c - 2 ^ 31). split; [constructor; apply fmt_u_canonical|]. split; [lia|]. right. split; [|lia]. destruct alt; auto.
  - exists (fmt_u c), c. split; [constructor; apply fmt_u_canonical|]. split; [auto|]. left. now rewrite app_nil_r.
Qed.
Lemma child_text_chars : forall s c x, child_text s c -> In x s -> x = 43 \/ 48 <= x < 58 \/ x = 39 \/ x = 104.
Proof.
  intros s c x (d & i & T & L & H) I. pose proof (int_text_chars d _ x T) as CH.
  destruct H as [[-> _]|[[->| ->] _]]; [specialize (CH I); lia|..]; apply in_app_or in I as [I|[<-|[]]]; [specialize (CH I); lia|auto|specialize (CH I); lia|auto].
Qed.
Lemma child_text_nonempty : forall s c, child_text s c -> s <> [].
Proof. intros s c (d & i & T & _ & H) ->. destruct H as [[E _]|[[E|E] _]]; [symmetry in E; now apply int_text_nonempty in T|..]; symmetry in E; now apply app_eq_nil in E as [_ E]. Qed.
Lemma child_text_no_slash : forall s c, child_text s c -> ~ In 47 s.
Proof. intros s c T I. pose proof (child_text_chars _ _ _ T I). lia. Qed.
Lemma child_text_fun : forall s c d, child_text s c -> child_text s d -> c = d.
Proof. intros s c d A B. apply cn_from_str_ok in A. apply cn_from_str_ok in B. congruence. Qed.

(** * Paths *)
Lemma split_joined : forall s, joined (str_split 47 s) = s /\ str_split 47 s <> [].
Proof.
  induction s as [|x t [IH NE]]; [split; [reflexivity|discriminate]|]. cbn [str_split]. destruct (str_split 47 t) as [|p ps]; [congruence|].
  destruct (N.eqb_spec x 47) as [->|NX].
  - split; [|discriminate]. change (joined ([] :: p :: ps)) with ([] ++ lit "/" ++ joined (p :: ps)). now rewrite IH.
  - split; [|discriminate]. rewrite <- IH. destruct ps; reflexivity.
Qed.
Lemma split_cons : forall p, ~ In 47 p -> str_split 47 p = [p].
Proof. induction p as [|x p IH]; intro NI; [reflexivity|]. cbn [str_split]. rewrite IH by (intro; apply NI; now right). destruct (N.eqb_spec x 47) as [->|]; [exfalso; apply NI; now left|reflexivity]. Qed.
Lemma split_app : forall p s, ~ In 47 p -> str_split 47 (p ++ 47 :: s) = p :: str_split 47 s.
Proof.
  induction p as [|x p IH]; intros s NI.
  - cbn [app str_split]. destruct (str_split 47 s) eqn:E; [now destruct (split_joined s)|reflexivity].
  - cbn [app str_split]. rewrite IH by (intro; apply NI; now right). destruct (N.eqb_spec x 47) as [->|]; [exfalso; apply NI; now left|reflexivity].
Qed.
Lemma joined_split : forall parts, parts <> [] -> Forall (fun p => ~ In 47 p) parts -> str_split 47 (joined parts) = parts.
Proof.
  induction parts as [|p ps IH]; intros NE F; [congruence|]. inv F. destruct ps as [|q ps].
  - now apply split_cons.
  - change (joined (p :: q :: ps)) with (p ++ 47 :: joined (q :: ps)). rewrite split_app by auto. f_equal. apply IH; [discriminate|auto].
Qed.
Lemma split_no_slash : forall s, Forall (fun p => ~ In 47 p) (str_split 47 s).
Proof.
  induction s as [|x t IH]; [repeat constructor; intros []|]. cbn [str_split]. destruct (str_split 47 t) as [|p ps]; [repeat constructor; intros []|]. inv IH.
  destruct (N.eqb_spec x 47) as [->|]; [repeat constructor; auto; intros []|constructor; auto]. intros [->|I]; auto.
Qed.
Lemma parse_parts_ok : forall l acc p, parse_parts l acc = Ok p <-> exists q, p = acc ++ q /\ Forall2 child_text l q.
Proof.
  induction l as [|part l IH]; intros acc p.
  - cbn [parse_parts]. split.
    + intro E. inv E. exists []. rewrite app_nil_r. auto.
    + intros (q & -> & F). inv F. now rewrite app_nil_r.
  - cbn [parse_parts]. destruct part as [|x t].
    + split; [discriminate|]. intros (q & -> & F). inv F. now apply child_text_nonempty in H1.
    + destruct (cn_from_str (x :: t)) as [c|e] eqn:E.
      * rewrite IH. split.
        -- intros (q & -> & F). exists (c :: q). rewrite <- app_assoc. split; [reflexivity|]. constructor; auto. now apply cn_from_str_ok.
        -- intros (q & -> & F). inv F. exists l'. apply cn_from_str_ok in H1. assert (c = y) as -> by congruence. rewrite <- app_assoc. auto.
      * split; [discriminate|]. intros (q & -> & F). inv F. apply cn_from_str_ok in H1. congruence.
Qed.
Lemma forall2_no_slash : forall parts q, Forall2 child_text parts q -> Forall (fun p => ~ In 47 p) parts.
Proof. intros parts q F. induction F; constructor; auto. now apply child_text_no_slash in H. Qed.
Lemma parse_split : forall s p, parse_parts (str_split 47 s) [] = Ok p <-> p <> [] /\ rel_text s p.
Proof.
  intros s p. rewrite parse_parts_ok. destruct (split_joined s) as [J NE]. split.
  - intros (q & -> & F). cbn [app]. split; [intros ->; inv F; congruence|]. exists (str_split 47 s). auto.
  - intros (NP & parts & -> & F). exists p. split; [reflexivity|]. rewrite joined_split; auto; [|now apply forall2_no_slash in F]. intros ->. inv F. congruence.
Qed.
Lemma rel_text_nil : forall s, rel_text s [] <-> s = [].
Proof. intro s. split; [intros (parts & -> & F); now inv F|intros ->; exists []; split; auto]. Qed.
Lemma rel_text_nonempty : forall s p, p <> [] -> rel_text s p -> s <> [].
Proof.
  intros s p NP (parts & -> & F) E. destruct F as [|a b l l' H F]; [congruence|]. destruct l as [|q l]; [cbn in E; subst; now apply child_text_nonempty in H|].
  change (joined (a :: q :: l)) with (a ++ lit "/" ++ joined (q :: l)) in E. apply app_eq_nil in E as [E _]. subst. now apply child_text_nonempty in H.
Qed.
Lemma rel_text_head : forall s p t, rel_text (109 :: t) p -> s = 109 :: t -> False.
Proof.
  intros s p t (parts & E & F) _. destruct F as [|a b l l' H F]; [discriminate|]. pose proof (child_text_nonempty _ _ H) as NE. destruct a as [|x a]; [congruence|].
  assert (x = 109) as -> by (destruct l; cbn in E; now inv E). pose proof (child_text_chars _ _ 109 H (or_introl eq_refl)). lia.
Qed.
Lemma rel_from_str_ok : forall s p, rel_from_str s = Ok p <-> rel_text s p.
Proof.
  intros s p. unfold rel_from_str. destruct s as [|x t].
  - split; [intro E; inv E; now apply rel_text_nil|]. intro R. destruct p as [|c p]; [reflexivity|]. apply rel_text_nonempty in R; congruence.
  - destruct (str_eqb (x :: t) (lit "m")) eqn:E1; cbn [orb].
    + apply str_eqb_eq in E1. split; [discriminate|]. intro R. inv E1. exfalso. eapply rel_text_head; [exact R|reflexivity].
    + unfold starts_with. destruct (strip_prefix (lit "m/") (x :: t)) as [u|] eqn:E2.
      * apply strip_prefix_some in E2. split; [discriminate|]. intro R. inv E2. exfalso. eapply rel_text_head; [exact R|reflexivity].
      * rewrite parse_split. split; [tauto|]. intro R. split; auto. intros ->. apply rel_text_nil in R. discriminate.
Qed.
Lemma abs_from_str_ok : forall s p, abs_from_str s = Ok p <-> abs_text s p.
Proof.
  intros s p. unfold abs_from_str, abs_text. destruct (str_eqb s (lit "m")) eqn:E1.
  - apply str_eqb_eq in E1. subst s. split; [intro E; inv E; now left|]. intros [[_ ->]|(_ & t & E & _)]; [reflexivity|]. discriminate.
  - destruct (strip_prefix (lit "m/") s) as [u|] eqn:E2.
    + apply strip_prefix_some in E2. subst s. destruct u as [|x u].
      * split; [discriminate|]. intros [[E _]|(NP & t & E & R)]; [discriminate|]. apply app_inv_head in E. subst t. now apply rel_text_nonempty in R.
      * rewrite parse_split. split.
        -- intros [NP R]. right. split; auto. eauto.
        -- intros [[E _]|(NP & t & E & R)]; [rewrite E in E1; discriminate|]. apply app_inv_head in E. subst t. auto.
    + split; [discriminate|]. intros [[-> _]|(_ & t & -> & _)].
      * discriminate.
      * rewrite (proj2 (strip_prefix_some (lit "m/") _ t) eq_refl) in E2. discriminate.
Qed.
Lemma rel_display_text : forall alt p, Forall cn_ok p -> rel_text (rel_display alt p) p.
Proof.
  intros alt p F. exists (map (cn_display alt) p). split.
  - destruct p as [|c p]; [reflexivity|]. cbn [rel_display map]. clear F. generalize (cn_display alt c). induction p as [|d p IH]; intro acc; [reflexivity|].
    cbn [fold_left map]. rewrite IH. change (joined (acc :: cn_display alt d :: map (cn_display alt) p)) with (acc ++ lit "/" ++ joined (cn_display alt d :: map (cn_display alt) p)).
    destruct p; cbn [map joined]; now rewrite <- ?app_assoc.
  - induction F; constructor; auto. now apply cn_display_text.
Qed.
Lemma rel_text_fun : forall s p q, rel_text s p -> rel_text s q -> p = q.
Proof. intros s p q A B. apply rel_from_str_ok in A. apply rel_from_str_ok in B. congruence. Qed.
(** the errors of the loop *)
Lemma parse_parts_err : forall l acc e, parse_parts l acc = Err e <->
  exists good cs bad rest, l = good ++ bad :: rest /\ Forall2 child_text good cs /\
    ((bad = [] /\ e = PEmptyChild) \/ (bad <> [] /\ exists e', cn_from_str bad = Err e' /\ e = PChild e')).
Proof.
  induction l as [|part l IH]; intros acc e.
  - cbn [parse_parts]. split; [discriminate|]. intros (g & cs & b & r & E & _). now apply app_cons_not_nil in E.
  - cbn [parse_parts]. destruct part as [|x t].
    + split.
      * intro E. inv E. exists [], [], [], l. split; [reflexivity|]. split; [constructor|]. now left.
      * intros (g & cs & b & r & E & F & H). destruct g as [|g0 g]; [inv E; destruct H as [[_ ->]|[N1 _]]; [reflexivity|congruence]|]. inv E. inv F. now apply child_text_nonempty in H2.
    + destruct (cn_from_str (x :: t)) as [c|e0] eqn:E0.
      * rewrite IH. split.
        -- intros (g & cs & b & r & -> & F & H). exists ((x :: t) :: g), (c :: cs), b, r. split; [reflexivity|]. split; auto. constructor; auto. now apply cn_from_str_ok.
        -- intros (g & cs & b & r & E & F & H). destruct g as [|g0 g].
           ++ inv E. destruct H as [[N1 _]|(_ & e' & H & _)]; [discriminate|congruence].
           ++ inv E. inv F. exists g, l', b, r. auto.
      * split.
        -- intro E. inv E. exists [], [], (x :: t), l. split; [reflexivity|]. split; [constructor|]. right. split; [discriminate|]. eauto.
        -- intros (g & cs & b & r & E & F & H). destruct g as [|g0 g].
           ++ inv E. destruct H as [[N1 _]|(_ & e' & H & ->)]; [discriminate|congruence].
           ++ inv E. inv F. apply cn_from_str_ok in H2. congruence.
Qed.
(** * Iterators *)
Lemma iter_nth_spec : forall k p c, cn_ok c ->
  fst (iter_nth (children_from p c) k) = if (c mod 2 ^ 31) + N.of_nat k <? 2 ^ 31 then Some (p ++ [c + N.of_nat k]) else None.
Proof.
  induction k as [|k IH]; intros p c L.
  - cbn [iter_nth iter_next children_from it_next fst]. rewrite (proj2 (N.ltb_lt _ _)). { unfold path_child. do 3 f_equal. lia. }
    pose proof (N.mod_lt c (2 ^ 31)). lia.
  - cbn [iter_nth iter_next children_from it_next it_base]. rewrite (increment_eq c L). unfold cn_ok in L.
    assert (MC : c mod 2 ^ 31 = if 2 ^ 31 <=? c then c - 2 ^ 31 else c) by (rewrite <- cn_index_mod; now apply cn_index_eq).
    destruct (N.eqb_spec c (2 ^ 31 - 1)) as [->|N1]; [|destruct (N.eqb_spec c (2 ^ 32 - 1)) as [->|N2]]; cbn [orb].
    + rewrite MC. destruct (N.ltb_spec ((if 2 ^ 31 <=? 2 ^ 31 - 1 then 2 ^ 31 - 1 - 2 ^ 31 else 2 ^ 31 - 1) + N.of_nat (S k)) (2 ^ 31)) as [X|X].
      * destruct (N.leb_spec (2 ^ 31) (2 ^ 31 - 1)); lia.
      * destruct k; reflexivity.
    + rewrite MC. destruct (N.ltb_spec ((if 2 ^ 31 <=? 2 ^ 32 - 1 then 2 ^ 32 - 1 - 2 ^ 31 else 2 ^ 32 - 1) + N.of_nat (S k)) (2 ^ 31)) as [X|X].
      * destruct (N.leb_spec (2 ^ 31) (2 ^ 32 - 1)); lia.
      * destruct k; reflexivity.
    + change (mk_iter p (Some (c + 1))) with (children_from p (c + 1)). rewrite IH by (unfold cn_ok; lia).
      assert (MC' : (c + 1) mod 2 ^ 31 = if 2 ^ 31 <=? c + 1 then c + 1 - 2 ^ 31 else c + 1) by (rewrite <- cn_index_mod; apply cn_index_eq; unfold cn_ok; lia).
      assert (R : (c + 1) mod 2 ^ 31 + N.of_nat k = c mod 2 ^ 31 + N.of_nat (S k)).
      { rewrite MC, MC'. destruct (N.leb_spec (2 ^ 31) c), (N.leb_spec (2 ^ 31) (c + 1)); lia. }
      rewrite R. destruct (_ <? _); [|reflexivity]. do 3 f_equal. lia.
Qed.
Lemma iter_none : forall i, it_next i = None -> forall k, fst (iter_nth i k) = None.
Proof. intros i E k. destruct k; cbn [iter_nth]; unfold iter_next; rewrite E; reflexivity. Qed.
