(** Lemmas about signatures. *)
From Coq Require Import String.
From Verif Require Import Base MDec LDec MText SText LText MBip32 LBip32c LPoly MKey MSighash PSighash LKey MSig SSig.
Local Open Scope N_scope.

Lemma vec_spec : forall s b, decode_to_vec s = Ok b <-> hex_of s b.
Proof.
  intros s b. unfold decode_to_vec. split.
  - destruct (N.eqb_spec (str_len s mod 2) 0); cbn [negb]; [|discriminate]. destruct (hex_pairs s) as [r|] eqn:P; [|discriminate]. intro H. assert (r = b) as -> by congruence. now apply hex_of_pairs.
  - intro H. rewrite (hex_len _ _ H), N.mul_comm, N.mod_mul by lia. cbn [N.eqb negb]. now rewrite (hex_pairs_of _ _ H).
Qed.
Lemma rev_last : forall (l : list N) x r, rev l = x :: r <-> l = rev r ++ [x].
Proof. intros l x r. split; intro H; [rewrite <- (rev_involutive l), H; reflexivity|rewrite H, rev_app_distr, rev_involutive; reflexivity]. Qed.
Lemma std_iff : forall n t, from_standard n = Ok t <-> n = type_byte t.
Proof. intros n t. rewrite (proj1 (proj2 C39_type_numbers)). destruct t; reflexivity. Qed.
Lemma std_err : forall n m, from_standard n = Err m -> m = n /\ forall t, n <> type_byte t.
Proof.
  intros n m H. split.
  - unfold from_standard in H. repeat match type of H with (if ?b then _ else _) = _ => destruct b; try discriminate end. congruence.
  - intros t E. apply std_iff in E. congruence.
Qed.
Lemma as_u8_byte : forall t, ecdsa_as_u8 t = type_byte t. Proof. destruct t; reflexivity. Qed.

Section E.
  Variable C : ecurve.
  Lemma es_slice_iff : forall b s, es_from_slice C b = Ok s <-> exists der, b = der ++ [type_byte (es_type C s)] /\ ec_from_der C der = Some (es_sig C s).
  Proof.
    intros b s. unfold es_from_slice. split.
    - destruct (rev b) as [|ty fr] eqn:R; [discriminate|]. apply rev_last in R. destruct (from_standard ty) as [t|] eqn:T; [|discriminate]. destruct (ec_from_der C (rev fr)) as [x|] eqn:D; [|discriminate].
      intro H. assert (s = mk_esig C x t) as -> by congruence. apply std_iff in T. exists (rev fr). cbn [es_type es_sig]. rewrite <- T. auto.
    - intros (der & -> & D). rewrite rev_app_distr. cbn [rev app]. rewrite (proj2 (std_iff _ (es_type C s)) eq_refl), rev_involutive, D. destruct s; reflexivity.
  Qed.
  Hypothesis OK : ecurve_ok C.
  Lemma es_ser_spec : forall s, exists x, es_serialize C s = Ret x /\ ss_bytes x = Ret (ecdsa_bytes C s) /\ lenN (ss_data x) = 73.
  Proof.
    intro s. unfold es_serialize. pose proof (e_len C OK (es_sig C s)) as L. set (d := ec_der C (es_sig C s)) in *. change (repeat 0 (N.to_nat MAX_SIG_LEN)) with ([] ++ repeat 0 (N.to_nat 73)).
    rewrite (copy_range_eq 0 (lenN d) d [] 73 eq_refl ltac:(lia) ltac:(lia) ltac:(lia)). cbn [rbind app].
    rewrite (copy_range_eq (lenN d) (lenN d + 1) [ecdsa_as_u8 (es_type C s)] d (0 + 73 - lenN d) eq_refl) by (try lia; change (lenN [ecdsa_as_u8 (es_type C s)]) with 1; lia). cbn [rbind].
    eexists. split; [reflexivity|]. unfold ss_bytes. cbn [ss_data ss_len]. rewrite as_u8_byte.
    assert (LB : lenN (d ++ [type_byte (es_type C s)]) = lenN d + 1) by (rewrite lenN_app; reflexivity). rewrite lenN_app, LB, repeat_lenN.
    destruct (N.leb_spec (lenN d + 1) (lenN d + 1 + N.of_nat (N.to_nat (lenN d + (0 + 73 - lenN d) - (lenN d + 1))))) as [_|X]; [|lia]. split; [|lia].
    f_equal. rewrite (takeN_pref _ _ _ LB). reflexivity.
  Qed.
End E.

(** taproot *)
Lemma tap_byte_u8 : forall t, is_tdefault t = false -> tap_byte t = [tap_u8 t]. Proof. destruct t; (discriminate || reflexivity). Qed.
Lemma tap_iff : forall n t, tap_from_consensus_u8 n = Ok t <-> n = tap_u8 t. Proof. intros n t. apply (proj1 C39_type_numbers). Qed.
Lemma ts_slice_total : forall b, ts_from_slice b <> Panic.
Proof.
  intro b. unfold ts_from_slice. destruct (lenN b =? 64); [discriminate|]. destruct (N.eqb_spec (lenN b) 65) as [L|]; [|discriminate]. destruct (rev b) as [|ty fr] eqn:R.
  - apply (f_equal (@List.length N)) in R. rewrite rev_length in R. unfold lenN in L. cbn in R. lia.
  - destruct (tap_from_consensus_u8 ty) as [t|]; [|discriminate]. destruct (is_tdefault t); discriminate.
Qed.
Lemma ts_slice_iff : forall b s, ts_from_slice b = Ret (Ok s) <-> lenN (ts_sig s) = 64 /\ b = tap_bytes s.
Proof.
  intros b s. unfold ts_from_slice, tap_bytes. split.
  - destruct (N.eqb_spec (lenN b) 64) as [L|L].
    + intro H. assert (s = mk_tsig b TDefault) as -> by congruence. cbn [ts_sig ts_type tap_byte]. now rewrite app_nil_r.
    + destruct (N.eqb_spec (lenN b) 65) as [L'|]; [|discriminate]. destruct (rev b) as [|ty fr] eqn:R; [discriminate|]. apply rev_last in R. destruct (tap_from_consensus_u8 ty) as [t|] eqn:T; [|discriminate].
      destruct (is_tdefault t) eqn:D; [discriminate|]. intro H. assert (s = mk_tsig (rev fr) t) as -> by congruence. cbn [ts_sig ts_type]. apply tap_iff in T. rewrite tap_byte_u8, <- T by exact D.
      split; [|exact R]. rewrite R, lenN_app in L'. change (lenN [ty]) with 1 in L'. lia.
  - intros [L ->]. destruct s as [g t]. cbn [ts_sig ts_type] in *. destruct (is_tdefault t) eqn:D.
    + destruct t; try discriminate D. cbn [tap_byte]. rewrite app_nil_r, L, N.eqb_refl. reflexivity.
    + rewrite (tap_byte_u8 t D). rewrite lenN_app, L. change (64 + lenN [tap_u8 t] =? 64) with false. change (64 + lenN [tap_u8 t] =? 65) with true. cbv iota. rewrite rev_app_distr. cbn [rev app].
      rewrite (proj2 (tap_iff _ t) eq_refl), D, rev_involutive. reflexivity.
Qed.
Lemma tap_len : forall s, lenN (ts_sig s) = 64 -> lenN (tap_bytes s) = if is_tdefault (ts_type s) then 64 else 65.
Proof. intros [g t] L. unfold tap_bytes. cbn [ts_sig ts_type] in *. rewrite lenN_app, L. destruct t; reflexivity. Qed.
Lemma ts_ser_spec : forall s, lenN (ts_sig s) = 64 -> exists x, ts_serialize s = Ret x /\ ss_bytes x = Ret (tap_bytes s) /\ ss_len x = lenN (tap_bytes s) /\ lenN (ss_data x) = 65.
Proof.
  intros s L. unfold ts_serialize. change (repeat 0 (N.to_nat TAP_MAX_LEN)) with ([] ++ repeat 0 (N.to_nat 65)). rewrite (copy_range_eq 0 64 (ts_sig s) [] 65 eq_refl L ltac:(lia) ltac:(lia)). cbn [rbind app].
  pose proof (tap_len s L) as LT. destruct s as [g t]. cbn [ts_sig ts_type] in *. destruct (is_tdefault t) eqn:D.
  - destruct t; try discriminate D. unfold from_raw_parts. cbn [N.leb N.compare Pos.compare Pos.compare_cont TAP_MAX_LEN]. eexists. split; [reflexivity|]. unfold ss_bytes. cbn [ss_data ss_len]. rewrite lenN_app, repeat_lenN, L.
    change (64 <=? 64 + N.of_nat (N.to_nat (0 + 65 - 64))) with true. cbv iota. rewrite (takeN_pref 64 g _ L). unfold tap_bytes in *. cbn [ts_sig ts_type tap_byte] in *. rewrite app_nil_r in *. rewrite L. auto.
  - rewrite (copy_range_last 64 65 [tap_u8 t] g (0 + 65 - 64) L eq_refl ltac:(lia) eq_refl). cbn [rbind]. unfold from_raw_parts. cbn [N.leb N.compare Pos.compare Pos.compare_cont TAP_MAX_LEN]. eexists. split; [reflexivity|].
    unfold ss_bytes. cbn [ss_data ss_len]. unfold tap_bytes in *. cbn [ts_sig ts_type] in *. rewrite (tap_byte_u8 t D) in *. rewrite LT. change (65 <=? 65) with true. cbv iota. rewrite takeN_all by (rewrite LT; lia). auto.
Qed.

(** the iterator *)
Definition view (i : into_iter) (q : bytes) : Prop :=
  exists pre post, ss_data (it_sig i) = pre ++ q ++ post /\ lenN pre = it_pos i /\ ss_len (it_sig i) = it_pos i + lenN q /\ lenN (ss_data (it_sig i)) < 2 ^ 64.
Lemma view_bytes : forall i q, view i q -> exists pre, ss_bytes (it_sig i) = Ret (pre ++ q) /\ lenN pre = it_pos i.
Proof.
  intros i q (pre & post & D & L & LL & _). exists pre. split; [|exact L]. unfold ss_bytes. rewrite LL, D, !lenN_app. destruct (N.leb_spec (it_pos i + lenN q) (lenN pre + (lenN q + lenN post))); [|lia].
  f_equal. rewrite app_assoc. apply takeN_pref. rewrite lenN_app. lia.
Qed.
Lemma view_next : forall i q, view i q -> exists i', iter_next i = Ret (hd_error q, i') /\ view i' (tl q).
Proof.
  intros i q V. destruct (view_bytes i q V) as (pre & B & LP). unfold iter_next. rewrite B. cbn [rbind].
  assert (E : N.to_nat (it_pos i) = (List.length pre + 0)%nat) by (unfold lenN in LP; lia). rewrite E, nth_error_app2 by lia. replace (List.length pre + 0 - List.length pre)%nat with 0%nat by lia. destruct q as [|x q]; cbn [nth_error hd_error tl].
  - exists i. auto.
  - eexists. split; [reflexivity|]. destruct V as (p & post & D & L & LL & LB). exists (p ++ [x]), post. cbn [it_sig it_pos]. rewrite D. split; [now rewrite <- app_assoc|]. split; [rewrite lenN_app; change (lenN [x]) with 1; lia|]. rewrite lenN_cons in LL. split; [lia|]. rewrite <- D. exact LB.
Qed.
Lemma view_len : forall i q, view i q -> iter_len i = Ret (lenN q).
Proof. intros i q (p & post & D & L & LL & _). unfold iter_len. rewrite LL. destruct (N.leb_spec (it_pos i) (it_pos i + lenN q)); [|lia]. f_equal. lia. Qed.
Lemma view_slice : forall i q, view i q -> iter_as_slice i = Ret q.
Proof.
  intros i q V. destruct (view_bytes i q V) as (pre & B & LP). unfold iter_as_slice. rewrite B. cbn [rbind]. rewrite lenN_app. destruct (N.leb_spec (it_pos i) (lenN pre + lenN q)); [|lia]. f_equal. apply dropN_pref. exact LP.
Qed.
Lemma tl_skip : forall n (l : list N), tl (skipn n l) = skipn (S n) l.
Proof. induction n as [|n IH]; intros [|x l]; try reflexivity. cbn [skipn]. rewrite IH. destruct l; reflexivity. Qed.
Lemma hd_skip : forall n (l : list N), hd_error (skipn n l) = nth_error l n.
Proof. induction n as [|n IH]; intros [|x l]; try reflexivity. cbn [skipn nth_error]. apply IH. Qed.
Lemma view_nth : forall i q n, view i q -> exists i', iter_nth i n = Ret (fst (queue_step q (CNth n)), i') /\ view i' (snd (queue_step q (CNth n))).
Proof.
  intros i q n V. unfold iter_nth. rewrite (view_len i q V). cbn [rbind queue_step]. destruct (N.leb_spec (lenN q) n) as [L|L]; cbn [fst snd].
  - eexists. split; [reflexivity|]. destruct V as (p & post & D & LP & LL & LB). exists (p ++ q), post. cbn [it_sig it_pos app]. rewrite D in *. split; [now rewrite <- app_assoc|]. rewrite lenN_app. rewrite LL, LP. split; [reflexivity|]. split; [cbn; lia|exact LB].
  - assert (V' : view (mk_iter (it_sig i) (it_pos i + n)) (skipn (N.to_nat n) q)).
    { destruct V as (p & post & D & LP & LL & LB). exists (p ++ firstn (N.to_nat n) q), post. cbn [it_sig it_pos]. rewrite D. split; [rewrite <- app_assoc, (app_assoc (firstn _ q)), firstn_skipn; reflexivity|].
      split; [unfold lenN in *; rewrite app_length, firstn_length; lia|]. split; [unfold lenN in *; rewrite skipn_length; lia|]. rewrite <- D. exact LB. }
    destruct V as (p & post & D & LP & LL & LB). rewrite D, !lenN_app in LB. destruct (N.ltb_spec (it_pos i + n) (2 ^ 64)) as [_|X]; [|lia].
    destruct (view_next _ _ V') as (i' & E & V''). exists i'. rewrite E, hd_skip. rewrite tl_skip in V''. auto.
Qed.
Lemma view_back : forall i q, view i q -> exists i', iter_next_back i = Ret (hd_error (rev q), i') /\ view i' (removelast q).
Proof.
  intros i q V. pose proof (view_bytes i q V) as (pre & B & LP). unfold iter_next_back. destruct V as (p & post & D & L & LL & LB). destruct q as [|x q _] using rev_ind.
  - change (lenN []) with 0 in LL. rewrite N.add_0_r in LL. rewrite LL, N.eqb_refl. exists i. split; [reflexivity|]. exists p, post. rewrite LL. change (lenN []) with 0. rewrite N.add_0_r. auto.
  - assert (LQ : lenN (q ++ [x]) = lenN q + 1) by (rewrite lenN_app; reflexivity). rewrite LQ in LL. destruct (N.eqb_spec (it_pos i) (ss_len (it_sig i))) as [X|_]; [lia|]. destruct (N.eqb_spec (ss_len (it_sig i)) 0) as [X|_]; [lia|].
    cbv zeta. rewrite B. cbn [rbind].
    assert (E : nth_error (pre ++ q ++ [x]) (N.to_nat (ss_len (it_sig i) - 1)) = Some x).
    { rewrite app_assoc, nth_error_app2 by (rewrite app_length; unfold lenN in *; lia). replace (N.to_nat (ss_len (it_sig i) - 1) - List.length (pre ++ q))%nat with 0%nat by (rewrite app_length; unfold lenN in *; lia). reflexivity. }
    rewrite E, rev_app_distr, removelast_last. cbn [rev app hd_error]. eexists. split; [reflexivity|]. exists p, (x :: post). cbn [it_sig it_pos ss_data ss_len]. rewrite D in *. rewrite <- app_assoc. cbn [app]. split; [reflexivity|]. split; [exact L|]. split; [lia|]. rewrite <- app_assoc in LB. exact LB.
Qed.
Lemma view_step : forall i q c, view i q -> exists i', iter_step i c = Ret (fst (queue_step q c), i') /\ view i' (snd (queue_step q c)).
Proof. intros i q [|n|] V; [exact (view_next i q V)|exact (view_nth i q n V)|exact (view_back i q V)]. Qed.
Lemma view_run : forall cs i q, view i q -> exists i', iter_run i cs = Ret (fst (queue_run q cs), i') /\ view i' (snd (queue_run q cs)).
Proof.
  induction cs as [|c cs IH]; intros i q V; cbn [iter_run queue_run]; [exists i; auto|]. destruct (view_step i q c V) as (i1 & E & V1). rewrite E. cbn [rbind]. destruct (queue_step q c) as [a q1]. cbn [fst snd] in *.
  destruct (IH i1 q1 V1) as (i2 & E2 & V2). rewrite E2. cbn [rbind]. destruct (queue_run q1 cs) as [l q2]. cbn [fst snd] in *. exists i2. auto.
Qed.
Lemma view_new : forall x b, ss_bytes x = Ret b -> lenN (ss_data x) < 2 ^ 64 -> ss_len x = lenN b -> view (iter_new x) b.
Proof.
  intros x b B LB L. unfold ss_bytes in B. destruct (N.leb_spec (ss_len x) (lenN (ss_data x))); [|discriminate]. assert (E : takeN (ss_len x) (ss_data x) = b) by congruence.
  exists [], (dropN (ss_len x) (ss_data x)). cbn [iter_new it_sig it_pos app]. rewrite <- E at 1. rewrite takeN_dropN. rewrite L. auto.
Qed.
