(** Witness stacks as lists. *)
From Verif Require Import Base MDec LDec LDec2 LDrive LCompact MWitness SWitness LWitness LWitDec MTx LCodec LBuilt SWire LWire STx LTxId MTxSize LTxSize MWitness2 SWitness2 LTxEx.
Local Open Scope N_scope.

Lemma elements_size_flat : forall ls, elements_size ls = lenN (flat ls).
Proof.
  intro ls. unfold elements_size, flat. rewrite flat_map_concat_map. f_equal. f_equal. apply map_ext. intro e. symmetry. apply wire_bytes_eq.
Qed.
Lemma fits_app : forall a b, fits (a ++ b) -> fits a.
Proof. intros a b F. unfold fits in *. rewrite offs_app in F. now apply Forall_app in F. Qed.
Lemma fits_last : forall ls e, fits (ls ++ [e]) <-> fits ls /\ lenN (flat ls) <= U32_MAX.
Proof.
  intros. unfold fits. rewrite offs_app, Forall_app. cbn [offs]. rewrite N.add_0_l. split.
  - intros [H1 H2]. split; auto. now apply Forall_inv in H2.
  - intros [H1 H2]. split; auto.
Qed.

Lemma push_stack : forall w ls e, stack_of w ls -> push_slice w e = from_slice (ls ++ [e]).
Proof.
  intros w ls e H. apply stack_of_layout in H as [-> F]. rewrite push_slice_spec, from_slice_spec.
  destruct (N.leb_spec (lenN (flat ls)) U32_MAX) as [H|H].
  - assert (K : fits (ls ++ [e])) by (now apply fits_last). apply fitsb_spec in K. now rewrite K.
  - destruct (fitsb (offs (ls ++ [e]) 0)) eqn:K; auto. apply fitsb_spec in K. apply fits_last in K as [_ K]. lia.
Qed.
Lemma extend_stack : forall es w ls, stack_of w ls -> wit_extend w es = from_slice (ls ++ es).
Proof.
  induction es as [|e es IH]; intros w ls H; cbn [wit_extend].
  - rewrite app_nil_r. symmetry. exact H.
  - rewrite (push_stack _ _ _ H). destruct (from_slice (ls ++ [e])) as [w'|] eqn:E; cbn [rbind].
    + rewrite (IH _ (ls ++ [e]) E), <- app_assoc. reflexivity.
    + rewrite from_slice_spec in *. destruct (fitsb (offs (ls ++ [e]) 0)) eqn:K; [discriminate|].
      destruct (fitsb (offs (ls ++ e :: es) 0)) eqn:K2; auto.
      change (e :: es) with ([e] ++ es) in K2. rewrite app_assoc in K2. apply fitsb_spec in K2. apply fits_app in K2. apply fitsb_spec in K2. congruence.
Qed.
Lemma op_stack : forall w ls o, stack_of w ls -> wit_op w o = from_slice (list_op ls o).
Proof.
  intros w ls [e|es| |xs] H; cbn [wit_op list_op].
  - now apply push_stack.
  - now apply extend_stack.
  - reflexivity.
  - reflexivity.
Qed.
Lemma ops_stack : forall os w ls w', stack_of w ls -> wit_ops w os = Ret w' -> stack_of w' (list_ops ls os).
Proof.
  induction os as [|o os IH]; intros w ls w' H E; cbn [wit_ops] in E.
  - inv E. exact H.
  - rewrite (op_stack _ _ _ H) in E. destruct (from_slice (list_op ls o)) as [w1|] eqn:E1; [|discriminate]. cbn [rbind] in E.
    change (list_ops ls (o :: os)) with (list_ops (list_op ls o) os). eapply IH; eauto.
Qed.
Lemma ops_total : forall os w ls, stack_of w ls ->
  (forall k, elements_size (list_ops ls (firstn k os)) <= 2 ^ 32) -> exists w', wit_ops w os = Ret w'.
Proof.
  induction os as [|o os IH]; intros w ls H B; cbn [wit_ops]; [eauto|].
  rewrite (op_stack _ _ _ H). pose proof (B 1%nat) as B1. cbn [firstn] in B1. change (list_ops ls [o]) with (list_op ls o) in B1.
  rewrite elements_size_flat in B1. assert (F : fits (list_op ls o)).
  { destruct (list_op ls o) as [|e l _] using rev_ind; [constructor|]. apply fits_last. rewrite flat_app, flat_cons, lenN_app, lenN_app, elem_bytes_len in B1.
    assert (1 <= cs_encoded_size (lenN e)) by (unfold cs_encoded_size; destr_if; [lia|destr_if; [lia|destr_if; lia]]).
    assert (lenN (flat l) <= U32_MAX) by (unfold U32_MAX; change (2 ^ 32) with 4294967296 in B1; lia). split; auto. now apply fits_short. }
  assert (S1 : stack_of (layout (list_op ls o)) (list_op ls o)) by (apply stack_of_layout; auto).
  unfold stack_of in S1. rewrite S1. cbn [rbind]. apply (IH _ (list_op ls o)); auto. intro k. exact (B (S k)).
Qed.

(** room *)
Lemma room : forall ls, fits ls -> small ls -> lenN (flat ls) + lenN (flat ls) * 4 + 2 ^ 63 + 8 < USIZE /\ lenN ls <= lenN (flat ls) /\
  lenN (wt_content (layout ls)) <= lenN (flat ls) + lenN (flat ls) * 4.
Proof.
  intros ls F S. pose proof (stack_flat_bound ls F S) as B. pose proof (length_flat ls) as L.
  assert (L' : lenN ls <= lenN (flat ls)) by (unfold lenN; lia).
  split; [unfold USIZE, U32_MAX in *; change (2 ^ 63) with 9223372036854775808; lia|]. split; auto.
  cbn [layout wt_content]. rewrite lenN_app, idxs_len, offs_len. lia.
Qed.
Lemma get_nth : forall ls i, fits ls -> small ls -> i < 2 ^ 61 -> wit_get (layout ls) i = Ret (nth_error ls (N.to_nat i)).
Proof.
  intros ls i F S Hi. destruct (room ls F S) as (R1 & R2 & R3). change (2 ^ 61) with 2305843009213693952 in Hi. change (2 ^ 63) with 9223372036854775808 in R1.
  destruct (nth_error ls (N.to_nat i)) as [e|] eqn:En.
  - destruct (nth_error_split _ _ En) as (pre & post & -> & Hl).
    replace i with (lenN pre) by (unfold lenN; lia). rewrite get_spec; auto; [|lia].
    unfold small in S. apply Forall_app in S as [_ S]. apply Forall_inv in S. now replace (lenN e <=? 4000000) with true by lia.
  - apply nth_error_None in En. apply get_out; [unfold lenN; lia|lia].
Qed.
Lemma to_vec_list : forall ls, fits ls -> small ls -> wit_to_vec (layout ls) = Ret ls.
Proof. intros ls F S. destruct (room ls F S) as (R1 & R2 & R3). apply to_vec_spec; auto. lia. Qed.
Lemma get_back_nth : forall ls i, fits ls -> small ls -> wit_get_back (layout ls) i = Ret (nth_error (rev ls) (N.to_nat i)).
Proof.
  intros ls i F S. unfold wit_get_back. change (wt_elements (layout ls)) with (lenN ls). destruct (room ls F S) as (R1 & R2 & R3). change (2 ^ 63) with 9223372036854775808 in R1.
  destruct (N.leb_spec (lenN ls) i) as [H|H].
  - f_equal. symmetry. apply nth_error_None. rewrite rev_length. unfold lenN in H. lia.
  - assert (B := stack_flat_bound ls F S). rewrite get_nth; auto.
    + f_equal. destruct (nth_error (rev ls) (N.to_nat i)) as [e|] eqn:E.
      * rewrite (nth_error_nth' (rev ls) []) in E by (rewrite rev_length; unfold lenN in H; lia).
        rewrite rev_nth in E by (unfold lenN in H; lia). rewrite (nth_error_nth' ls []) by (unfold lenN in *; lia).
        rewrite <- E. f_equal. f_equal. unfold lenN. lia.
      * apply nth_error_None in E. rewrite rev_length in E. unfold lenN in H. lia.
    + change (2 ^ 61) with 2305843009213693952. unfold U32_MAX in B. lia.
Qed.

Lemma flat_inj : forall a b, Forall (fun e => lenN e < U64) a -> Forall (fun e => lenN e < U64) b -> lenN a = lenN b -> flat a = flat b -> a = b.
Proof.
  induction a as [|x a IH]; intros [|y b] Fa Fb Hl H; auto; try (exfalso; unfold lenN in Hl; cbn [length] in Hl; lia).
  inv Fa. inv Fb. rewrite !flat_cons in H. unfold elem_bytes in H. rewrite <- !app_assoc in H.
  assert (E : lenN x = lenN y /\ x ++ flat a = y ++ flat b).
  { pose proof (decode_unchecked_encode (lenN x) (x ++ flat a) H2) as K1. rewrite H, decode_unchecked_encode in K1 by auto. inv K1. auto. }
  destruct E as [El E]. assert (x = y /\ flat a = flat b) as [-> E'].
  { assert (length x = length y) by (unfold lenN in El; lia). split.
    - apply (f_equal (firstn (length x))) in E. rewrite firstn_app_exact in E by reflexivity. rewrite H0 in E. now rewrite firstn_app_exact in E.
    - apply (f_equal (skipn (length x))) in E. rewrite skipn_app_exact in E by reflexivity. rewrite H0 in E. now rewrite skipn_app_exact in E. }
  f_equal. apply IH; auto. rewrite !lenN_cons in Hl. lia.
Qed.
Lemma layout_inj : forall a b, Forall (fun e => lenN e < U64) a -> Forall (fun e => lenN e < U64) b -> layout a = layout b -> a = b.
Proof.
  intros a b Fa Fb H. assert (Hn : lenN a = lenN b) by exact (f_equal wt_elements H).
  assert (Hs : lenN (flat a) = lenN (flat b)) by exact (f_equal wt_start H).
  assert (Hc : flat a ++ idxs (offs a 0) = flat b ++ idxs (offs b 0)) by exact (f_equal wt_content H).
  apply flat_inj; auto. apply (f_equal (firstn (length (flat a)))) in Hc. rewrite firstn_app_exact in Hc by reflexivity.
  replace (length (flat a)) with (length (flat b)) in Hc by (unfold lenN in Hs; lia). now rewrite firstn_app_exact in Hc.
Qed.

(** taproot reading *)
Section P2tr.
Context {C : Type} (dcb : bytes -> option C).
Definition bip341_spend (ls : list bytes) : option (@p2tr_spend C) :=
  match ls with
  | [] => None
  | _ => match bip341_script ls with
         | None => Some (SpendKey (bip341_annex ls))
         | Some (s, cbb) => match dcb cbb with
                            | None => None
                            | Some cb => Some (SpendScript s cb (bip341_annex ls))
                            end
         end
  end.
Lemma rev_rest : forall (ls : list bytes) x l, rev ls = x :: l -> rev (removelast ls) = l.
Proof.
  intros ls x l H. destruct ls as [|y ls _] using rev_ind; [discriminate|]. rewrite removelast_last. rewrite rev_app_distr in H. cbn in H. now inv H.
Qed.
Lemma annex_alt : forall ls, bip341_annex ls = match rev ls with x :: _ :: _ => if has_annex_prefix x then Some x else None | _ => None end.
Proof.
  intro ls. unfold bip341_annex, has_annex_prefix. destruct (rev ls) as [|x [|y l]]; auto.
  - destruct x as [|b x]; auto. destruct b as [|b]; auto. do 7 (try (destruct b as [b|b|]; auto)).
  - destruct x as [|b x]; auto. destruct b as [|b]; auto. do 7 (try (destruct b as [b|b|]; auto)).
Qed.
Lemma from_witness_spec : forall w ls, stack_of w ls -> short_elements ls -> from_witness dcb w = Ret (bip341_spend ls).
Proof.
  intros w ls St Sh. apply stack_of_layout in St as [-> F]. assert (Sm : small ls) by exact Sh.
  unfold from_witness, wit_len, wit_last. rewrite !get_back_nth by auto. change (wt_elements (layout ls)) with (lenN ls).
  change (N.to_nat 0) with 0%nat. change (N.to_nat 1) with 1%nat. change (N.to_nat 2) with 2%nat. cbn [rbind].
  assert (Hn : lenN ls = N.of_nat (length (rev ls))) by (unfold lenN; now rewrite rev_length).
  assert (RR := rev_rest ls). rewrite Hn. unfold bip341_spend, bip341_script, bip341_rest. rewrite annex_alt.
  destruct ls as [|e0 ls0] eqn:El; [reflexivity|]. rewrite <- El in *.
  destruct (rev ls) as [|x [|y l]] eqn:Er.
  - apply (f_equal (@rev _)) in Er. rewrite rev_involutive in Er. subst ls. discriminate.
  - cbn. now rewrite Er.
  - specialize (RR _ _ eq_refl). cbn [length nth_error expect rbind]. destruct (has_annex_prefix x) eqn:Hx.
    + rewrite RR. destruct l as [|z l].
      * reflexivity.
      * cbn [length]. replace (N.of_nat (S (S (S (length l)))) =? 0) with false by lia. replace (N.of_nat (S (S (S (length l)))) =? 1) with false by lia.
        replace (N.of_nat (S (S (S (length l)))) =? 2) with false by lia. replace (3 <=? N.of_nat (S (S (S (length l))))) with true by lia. cbn [andb].
        destruct (dcb y); auto.
    + rewrite Er, !andb_false_r. replace (N.of_nat (S (S (length l))) =? 0) with false by lia. replace (N.of_nat (S (S (length l))) =? 1) with false by lia.
      destruct (dcb x); auto.
Qed.
End P2tr.

(** Elements a witness stores but cannot read back, and offsets that do not fit. *)
Lemma big_eq : forall big x, lenN big = 4000001 -> wit_eq_slice (big_wit big) [x] = Ret true.
Proof. intros big x H. unfold wit_eq_slice. change (wt_elements (big_wit big)) with 1. change (lenN [x]) with 1. cbn [N.eqb Pos.eqb negb]. rewrite big_to_vec by auto. reflexivity. Qed.
Lemma big_spend : forall C (dcb : bytes -> option C) big e, lenN big = 4000001 -> lenN e <= 4000000 ->
  exists w, stack_of w [e; big] /\ from_witness dcb w = Panic.
Proof.
  intros C dcb big e Hb He. exists (layout [e; big]). assert (F : fits [e; big]).
  { apply fits_short. rewrite !flat_cons, !lenN_app, !elem_bytes_len, Hb. change (lenN (flat [])) with 0. pose proof (esize_bound (lenN e)). pose proof (esize_bound 4000001). unfold U32_MAX. lia. }
  split; [apply stack_of_layout; auto|].
  unfold from_witness, wit_last, wit_get_back. change (wit_len (layout [e; big])) with 2. change (wt_elements (layout [e; big])) with 2.
  change (2 =? 0) with false. change (2 =? 1) with false. change (2 <=? 0) with false. cbv iota.
  pose proof (get_spec [e] big [] F) as K. cbn [app] in K. change (@lenN bytes [e]) with 1 in *.
  assert (K' : wit_get (layout [e; big]) 1 = Ret None); [|change (2 - 1 - 0) with 1; rewrite K'; reflexivity]. etransitivity; [apply K|].
  2: rewrite Hb; reflexivity.
  cbn [layout wt_content]. rewrite lenN_app, idxs_len, offs_len, !flat_cons, !lenN_app, !elem_bytes_len, Hb. change (lenN (flat [])) with 0.
    pose proof (esize_bound (lenN e)). pose proof (esize_bound 4000001). change (lenN [e; big]) with 2. change (lenN [e]) with 1. unfold USIZE. lia.
Qed.
Lemma flat_repeat : forall e n, lenN (flat (repeat e n)) = N.of_nat n * (cs_encoded_size (lenN e) + lenN e).
Proof. intros e n. induction n; [reflexivity|]. cbn [repeat]. rewrite flat_cons, lenN_app, elem_bytes_len, IHn. lia. Qed.
Lemma decode_boom : forall e, lenN e = 4000000 ->
  decode_from_slice witness_dec (wire_stack (repeat e 1074 ++ [e])) = Panic.
Proof.
  intros e He. rewrite <- wire_stack_eq. pose proof (slice_unbounded_den witness_dec _ _ witness_lawful (stack_bytes (repeat e 1074 ++ [e]))) as K.
  change (init witness_dec) with wd_init in K. rewrite <- (app_nil_r (stack_bytes _)) in K. rewrite wd_roundtrip in K.
  - replace (fitsb (offs (repeat e 1074 ++ [e]) 0)) with false in K.
    + rewrite app_nil_r in K. unfold decode_from_slice. now rewrite K.
    + symmetry. destruct (fitsb _) eqn:Q; auto. exfalso. apply fitsb_spec in Q. apply (fits_last (repeat e 1074) e) in Q as [_ Q].
      rewrite flat_repeat, He in Q. vm_compute in Q. now apply Q.
  - apply Forall_app. split; [apply Forall_forall; intros x Hx; apply repeat_spec in Hx; subst x; lia|constructor; [lia|constructor]].
  - rewrite lenN_app. unfold lenN at 1. rewrite repeat_length. vm_compute. discriminate.
Qed.
Lemma get_wrap : wit_get (layout [[7]]) (2 ^ 62) = Panic.
Proof. vm_compute. reflexivity. Qed.

Lemma decoded_memory : forall l w rest, bytes_ok l -> decode_from_slice_unbounded witness_dec l = Ret (Ok w, rest) ->
  lenN (wt_content w) <= 5 * (lenN l - lenN rest).
Proof.
  intros l w rest Hl H. apply (codec_prefix witness_codec) in H as [-> (ls & -> & _)]; auto.
  rewrite wit_encode_layout. rewrite lenN_app. unfold stack_bytes. rewrite lenN_app.
  cbn [layout wt_content]. rewrite lenN_app, idxs_len, offs_len. pose proof (length_flat ls). unfold lenN in *. lia.
Qed.
