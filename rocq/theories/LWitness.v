(** Lemmas about witness stacks. *)
From Verif Require Import Base MDec LDec LDec2 LCompact MWitness SWitness.
Local Open Scope N_scope.

Lemma repeat_lenN : forall A (x : A) n, lenN (repeat x (N.to_nat n)) = n.
Proof. intros. unfold lenN. rewrite repeat_length. lia. Qed.

Lemma takeN_exact : forall A (a b : list A) n, lenN a = n -> takeN n (a ++ b) = a.
Proof. intros. subst. rewrite takeN_app_le by lia. apply takeN_all. lia. Qed.
Lemma dropN_exact : forall A (a b : list A) n, lenN a = n -> dropN n (a ++ b) = b.
Proof. intros. subst. rewrite dropN_app_le by lia. rewrite dropN_all by lia. reflexivity. Qed.
Lemma dropN_add : forall A (l : list A) m n, dropN m (dropN n l) = dropN (n + m) l.
Proof.
  intros. unfold dropN. replace (N.to_nat (n + m)) with (N.to_nat n + N.to_nat m)%nat by lia.
  revert l. induction (N.to_nat n); intros; cbn; auto. destruct l; auto. now rewrite skipn_nil.
Qed.

Lemma splice_app : forall a x b d p, lenN a = p -> lenN x = lenN d -> splice (a ++ x ++ b) p d = Ret (a ++ d ++ b).
Proof.
  intros a x b d p Ha Hx. unfold splice. rewrite !lenN_app, <- Hx.
  replace (p + lenN x <=? lenN a + (lenN x + lenN b)) with true by lia.
  rewrite takeN_exact by auto. rewrite <- dropN_add, dropN_exact by auto. now rewrite dropN_exact.
Qed.

Lemma flat_app : forall a b, flat (a ++ b) = flat a ++ flat b.
Proof. intros. unfold flat. apply flat_map_app. Qed.
Lemma flat_cons : forall e ls, flat (e :: ls) = elem_bytes e ++ flat ls.
Proof. reflexivity. Qed.
Lemma elem_bytes_len : forall e, lenN (elem_bytes e) = cs_encoded_size (lenN e) + lenN e.
Proof. intros. unfold elem_bytes. now rewrite lenN_app, cs_encode_len. Qed.
Lemma content_size_flat : forall ls, content_size ls = lenN (flat ls).
Proof.
  induction ls; [reflexivity|]. rewrite flat_cons, lenN_app, elem_bytes_len, <- IHls.
  cbn [content_size fold_right]. fold (content_size ls). lia.
Qed.
Lemma offs_len : forall ls at_, lenN (offs ls at_) = lenN ls.
Proof. induction ls; intros; [reflexivity|]. cbn [offs]. rewrite !lenN_cons. now rewrite IHls. Qed.
Lemma offs_app : forall a b at_, offs (a ++ b) at_ = offs a at_ ++ offs b (at_ + lenN (flat a)).
Proof.
  induction a; intros; cbn [app offs].
  - cbn. now rewrite N.add_0_r.
  - rewrite IHa, flat_cons, lenN_app. cbn [app]. now rewrite N.add_assoc.
Qed.

Definition idxs (os : list N) : bytes := flat_map (le_bytes 4) os.
Lemma idxs_app : forall a b, idxs (a ++ b) = idxs a ++ idxs b.
Proof. intros. apply flat_map_app. Qed.
Lemma idxs_len : forall os, lenN (idxs os) = 4 * lenN os.
Proof.
  induction os; [reflexivity|]. cbn [idxs flat_map]. fold (idxs os).
  rewrite lenN_app, le_bytes_lenN, lenN_cons, IHos. lia.
Qed.

Fixpoint fitsb (os : list N) : bool := match os with [] => true | o :: os' => (o <=? U32_MAX) && fitsb os' end.
Lemma fitsb_spec : forall os, fitsb os = true <-> Forall (fun o => o <= U32_MAX) os.
Proof.
  induction os; cbn; split; intro H; auto.
  - apply andb_true_iff in H as [H1 H2]. constructor; [lia|tauto].
  - inv H. apply andb_true_iff. split; [lia|tauto].
Qed.
Lemma fitsb_app : forall a b, fitsb (a ++ b) = fitsb a && fitsb b.
Proof. induction a; intros; cbn; auto. now rewrite IHa, andb_assoc. Qed.

(** The layout of a witness. *)
Definition layout (ls : list bytes) : witness :=
  {| wt_content := flat ls ++ idxs (offs ls 0); wt_elements := lenN ls; wt_start := lenN (flat ls) |}.

Lemma repeat_split : forall A (x : A) a b, repeat x (N.to_nat (a + b)) = repeat x (N.to_nat a) ++ repeat x (N.to_nat b).
Proof. intros. rewrite <- repeat_app. f_equal. lia. Qed.

Lemma from_slice_loop_spec : forall ls fl ix csize i cursor,
  lenN fl = cursor -> csize = cursor + lenN (flat ls) -> lenN ix = 4 * i ->
  from_slice_loop (fl ++ repeat 0 (N.to_nat (lenN (flat ls))) ++ ix ++ repeat 0 (N.to_nat (4 * lenN ls))) csize i cursor ls
  = if fitsb (offs ls cursor) then Ret (fl ++ flat ls ++ ix ++ idxs (offs ls cursor)) else Panic.
Proof.
  induction ls as [|e ls IH]; intros fl ix csize i cursor H1 H2 H3.
  - cbn. reflexivity.
  - cbn [from_slice_loop offs fitsb]. unfold encode_cursor.
    destruct (cursor <=? U32_MAX) eqn:Hc; [|reflexivity]. cbn [rbind andb].
    rewrite lenN_cons. replace (4 * (1 + lenN ls)) with (4 + 4 * lenN ls) by lia.
    rewrite repeat_split. rewrite flat_cons, lenN_app in *.
    set (E := elem_bytes e) in *.
    rewrite app_assoc. rewrite app_assoc.
    rewrite splice_app.
    2:{ rewrite !lenN_app, repeat_lenN. lia. }
    2:{ rewrite repeat_lenN, le_bytes_lenN. reflexivity. }
    cbn [rbind]. unfold E at 1. rewrite elem_bytes_len, <- cs_encode_len.
    rewrite (repeat_split _ _ (lenN (cs_encode _) + lenN e)), (repeat_split _ _ (lenN (cs_encode _))).
    rewrite <- !app_assoc. rewrite splice_app; auto.
    2:{ now rewrite repeat_lenN. }
    cbn [rbind]. rewrite app_assoc. rewrite splice_app.
    2:{ rewrite lenN_app. lia. }
    2:{ now rewrite repeat_lenN. }
    cbn [rbind].
    rewrite (app_assoc ix). rewrite (app_assoc (fl ++ _)).
    rewrite IH.
    + replace (cursor + lenN (cs_encode (lenN e)) + lenN e) with (cursor + lenN E)
        by (unfold E; rewrite elem_bytes_len, cs_encode_len; lia).
      destruct (fitsb _); [|reflexivity]. f_equal. unfold E, elem_bytes. cbn [idxs flat_map].
      rewrite <- !app_assoc. reflexivity.
    + rewrite !lenN_app. lia.
    + rewrite H2. unfold E. rewrite elem_bytes_len, <- cs_encode_len. lia.
    + rewrite lenN_app, le_bytes_lenN. lia.
Qed.

Lemma from_slice_spec : forall ls, from_slice ls = if fitsb (offs ls 0) then Ret (layout ls) else Panic.
Proof.
  intro ls. unfold from_slice. rewrite content_size_flat, repeat_split.
  replace (lenN ls * 4) with (4 * lenN ls) by lia.
  pose proof (from_slice_loop_spec ls [] [] (lenN (flat ls)) 0 0 eq_refl) as H.
  cbn [app] in H. rewrite H by reflexivity. destruct (fitsb _); reflexivity.
Qed.

Lemma repr_spec : forall ls w, repr ls w <-> fits ls /\ w = layout ls.
Proof.
  intros. unfold repr, fits. rewrite from_slice_spec, <- fitsb_spec.
  destruct (fitsb _); split; intro H; [inv H|destruct H as [_ ->]|discriminate|destruct H; discriminate]; auto.
Qed.

Lemma push_slice_spec : forall ls e, push_slice (layout ls) e =
  if lenN (flat ls) <=? U32_MAX then Ret (layout (ls ++ [e])) else Panic.
Proof.
  intros. unfold push_slice. cbn [wt_content wt_elements wt_start layout].
  set (enc := cs_encode (lenN e)). set (F := flat ls). set (I := idxs (offs ls 0)).
  rewrite <- app_assoc. rewrite takeN_exact, dropN_exact by auto.
  unfold rotate_right.
  assert (HI : lenN (I ++ repeat 0 (N.to_nat (lenN enc + lenN e + 4))) - (lenN enc + lenN e) = lenN I + 4).
  { rewrite lenN_app, repeat_lenN. lia. }
  rewrite HI. replace (lenN enc + lenN e + 4) with (4 + (lenN enc + lenN e)) by lia.
  rewrite repeat_split, (app_assoc I).
  rewrite takeN_exact, dropN_exact by (rewrite lenN_app, repeat_lenN; reflexivity).
  replace (lenN ls + 1 - 1) with (lenN ls) by lia.
  unfold encode_cursor. destruct (lenN F <=? U32_MAX); [|reflexivity]. cbn [rbind].
  rewrite (app_assoc (repeat 0 (N.to_nat (lenN enc + lenN e)))). rewrite app_assoc.
  rewrite <- (app_nil_r (repeat 0 (N.to_nat 4))).
  rewrite splice_app.
  2:{ rewrite !lenN_app, repeat_lenN. unfold I. rewrite idxs_len, offs_len. lia. }
  2:{ rewrite repeat_lenN, le_bytes_lenN. reflexivity. }
  cbn [rbind]. rewrite (repeat_split _ _ (lenN enc)). rewrite <- !app_assoc.
  rewrite splice_app; auto. 2:{ now rewrite repeat_lenN. }
  cbn [rbind]. rewrite app_assoc. rewrite splice_app.
  2:{ now rewrite lenN_app. }
  2:{ now rewrite repeat_lenN. }
  cbn [rbind]. f_equal. unfold layout. rewrite flat_app, offs_app, idxs_app. cbn [offs].
  rewrite N.add_0_l. rewrite !lenN_app. rewrite flat_cons. cbn [flat flat_map idxs].
  fold F. fold I. unfold elem_bytes. fold enc. rewrite !lenN_app, !lenN_nil. rewrite !app_nil_r.
  f_equal; [|lia]. rewrite <- !app_assoc. reflexivity.
Qed.

Lemma decode_unchecked_encode : forall v r, v < U64 -> decode_unchecked (cs_encode v ++ r) = Ret (v, r).
Proof.
  intros v r H. unfold cs_encode. destruct (v <=? 252) eqn:H1.
  { rewrite N.mod_small by lia. cbn [app decode_unchecked].
    replace (v =? 255) with false by lia. replace (v =? 254) with false by lia.
    now replace (v =? 253) with false by lia. }
  destruct (v <=? 65535) eqn:H2.
  { rewrite N.mod_small by lia. cbn [app decode_unchecked]. change (253 =? 255) with false.
    change (253 =? 254) with false. change (253 =? 253) with true. cbn iota.
    rewrite lenN_cons, lenN_app, le_bytes_lenN. replace (1 + (N.of_nat 2 + lenN r) <? 3) with false by lia.
    rewrite takeN_exact, dropN_exact by apply le_bytes_lenN.
    rewrite le_val_bytes by (change (256 ^ N.of_nat 2) with 65536; lia).
    now replace (v <? 253) with false by lia. }
  destruct (v <=? 4294967295) eqn:H3.
  { rewrite N.mod_small by lia. cbn [app decode_unchecked]. change (254 =? 255) with false.
    change (254 =? 254) with true. cbn iota.
    rewrite lenN_cons, lenN_app, le_bytes_lenN. replace (1 + (N.of_nat 4 + lenN r) <? 5) with false by lia.
    rewrite takeN_exact, dropN_exact by apply le_bytes_lenN.
    rewrite le_val_bytes by (change (256 ^ N.of_nat 4) with 4294967296; lia).
    now replace (v <=? 65535) with false by lia. }
  cbn [app decode_unchecked]. change (255 =? 255) with true. cbn iota.
  rewrite lenN_cons, lenN_app, le_bytes_lenN. replace (1 + (N.of_nat 8 + lenN r) <? 9) with false by lia.
  rewrite takeN_exact, dropN_exact by apply le_bytes_lenN.
  rewrite le_val_bytes by (change (256 ^ N.of_nat 8) with U64; auto).
  now replace (v <=? 4294967295) with false by lia.
Qed.

Lemma cursor_spec : forall pre e post, fits (pre ++ e :: post) ->
  lenN (wt_content (layout (pre ++ e :: post))) < USIZE ->
  decode_cursor (wt_content (layout (pre ++ e :: post))) (wt_start (layout (pre ++ e :: post))) (lenN pre)
  = Ret (Some (lenN (flat pre))).
Proof.
  intros pre e post F Hu. unfold decode_cursor. cbn [layout wt_content wt_start] in *.
  rewrite lenN_app, idxs_len, offs_len, lenN_app, lenN_cons in *.
  replace (USIZE <=? _) with false by lia.
  replace (_ <=? _) with true by lia. do 2 f_equal.
  rewrite offs_app, idxs_app. rewrite <- dropN_add, dropN_exact by reflexivity.
  rewrite dropN_exact by (rewrite idxs_len, offs_len; lia). cbn [offs idxs flat_map].
  rewrite takeN_exact by apply le_bytes_lenN. rewrite N.add_0_l. apply le_val_bytes.
  unfold fits in F. rewrite offs_app in F. apply Forall_app in F as [_ F]. cbn [offs] in F. inv F.
  change (256 ^ N.of_nat 4) with 4294967296. unfold U32_MAX in *. lia.
Qed.

Lemma get_spec : forall pre e post, fits (pre ++ e :: post) ->
  lenN (wt_content (layout (pre ++ e :: post))) < USIZE ->
  wit_get (layout (pre ++ e :: post)) (lenN pre) = Ret (if lenN e <=? 4000000 then Some e else None).
Proof.
  intros pre e post F Hu. unfold wit_get. rewrite cursor_spec by auto. cbn [rbind].
  cbn [layout wt_content wt_start] in *. rewrite flat_app, flat_cons in *. rewrite <- !app_assoc in *.
  replace (lenN (flat pre ++ _) <? lenN (flat pre)) with false by (rewrite lenN_app; lia).
  rewrite dropN_exact by auto. unfold elem_bytes. rewrite <- app_assoc.
  rewrite decode_unchecked_encode.
  2:{ unfold elem_bytes in Hu. rewrite !lenN_app in Hu. unfold USIZE, U64 in *. lia. }
  cbn [rbind]. unfold cast_to_usize_if_valid.
  destruct (4000000 <? lenN e) eqn:Hb.
  - now replace (lenN e <=? 4000000) with false by lia.
  - replace (lenN e <=? 4000000) with true by lia.
    replace (lenN (e ++ _) <? lenN e) with false by (rewrite lenN_app; lia).
    now rewrite takeN_exact.
Qed.

Lemma get_out : forall ls i, lenN ls <= i -> lenN (flat ls) + i * 4 + 4 < USIZE -> wit_get (layout ls) i = Ret None.
Proof.
  intros ls i H Hu. unfold wit_get, decode_cursor. cbn [layout wt_content wt_start].
  replace (USIZE <=? _) with false by lia. rewrite lenN_app, idxs_len, offs_len.
  replace (_ <=? _) with false by lia. reflexivity.
Qed.

Definition small (ls : list bytes) : Prop := Forall (fun e => lenN e <= 4000000) ls.

Lemma iter_loop_spec : forall post pre fuel, fits (pre ++ post) -> small post ->
  lenN (wt_content (layout (pre ++ post))) + 4 < USIZE -> (length post < fuel)%nat ->
  iter_loop fuel (layout (pre ++ post)) (lenN pre) = Ret post.
Proof.
  induction post as [|e post IH]; intros pre fuel F S Hu Hf.
  - destruct fuel; [lia|]. cbn [iter_loop]. rewrite app_nil_r in *. rewrite get_out; auto; [lia|].
    cbn [layout wt_content] in Hu. rewrite lenN_app, idxs_len, offs_len in Hu. lia.
  - destruct fuel; [lia|]. cbn [iter_loop]. rewrite get_spec by (auto; lia). inv S.
    replace (lenN e <=? 4000000) with true by lia. cbn [rbind].
    replace (pre ++ e :: post) with ((pre ++ [e]) ++ post) in * by (now rewrite <- app_assoc).
    replace (lenN pre + 1) with (lenN (pre ++ [e])) by (rewrite lenN_app; reflexivity).
    rewrite IH; auto. cbn in Hf. lia.
Qed.

Lemma length_flat : forall ls, (length ls <= length (flat ls))%nat.
Proof.
  induction ls; [auto|]. rewrite flat_cons, app_length. unfold elem_bytes. rewrite app_length.
  pose proof (cs_encode_ne (lenN a)). destruct (cs_encode (lenN a)); [congruence|]. cbn. lia.
Qed.

Lemma to_vec_spec : forall ls, fits ls -> small ls -> lenN (wt_content (layout ls)) + 4 < USIZE ->
  wit_to_vec (layout ls) = Ret ls.
Proof.
  intros ls F S Hu. unfold wit_to_vec. apply (iter_loop_spec ls []); auto.
  cbn [layout wt_content]. rewrite app_length. pose proof (length_flat ls). lia.
Qed.

Lemma beqb_spec : forall a b, beqb a b = true <-> a = b.
Proof.
  induction a; destruct b; cbn; split; intro H; try discriminate; auto.
  - apply andb_true_iff in H as [H1 H2]. apply IHa in H2. apply N.eqb_eq in H1. now subst.
  - inv H. apply andb_true_iff. split; [apply N.eqb_refl|now apply IHa].
Qed.
Lemma zip_all_spec : forall a b, length a = length b -> (zip_all a b = true <-> a = b).
Proof.
  induction a; destruct b; cbn; intro Hl; split; intro H; try discriminate; auto.
  - apply andb_true_iff in H as [H1 H2]. apply beqb_spec in H1. apply IHa in H2; [now subst|lia].
  - inv H. apply andb_true_iff. split; [now apply beqb_spec|apply IHa; auto].
Qed.
