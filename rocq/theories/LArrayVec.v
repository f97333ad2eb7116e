(** Lemmas: the bounded vector. *)
From Verif Require Import Base MDec LDec MArrayVec SArrayVec.
Local Open Scope N_scope.

Section Vec.
  Context {T : Type}.
  Definition holds (c : N) (l : list T) (v : avec T) : Prop :=
    exists junk, av_data v = map Some l ++ junk /\ av_len v = lenN l /\ lenN (av_data v) = c.
  Lemma map_len : forall (l : list T), lenN (map Some l) = lenN l. Proof. intro. unfold lenN. now rewrite map_length. Qed.
  Lemma init_some : forall l : list T, init (map Some l) = Done l.
  Proof. induction l as [|x l IH]; [reflexivity|]. cbn [map init]. rewrite IH. reflexivity. Qed.
  Lemma holds_le : forall c l v, holds c l v -> lenN l <= c.
  Proof. intros c l v (j & D & L & C). rewrite D, lenN_app, map_len in C. lia. Qed.
  Lemma holds_slice : forall c l v, holds c l v -> as_slice v = Done l.
  Proof.
    intros c l v HV. pose proof (holds_le _ _ _ HV) as LE. destruct HV as (j & D & L & C). unfold as_slice, cap. rewrite C, L. destruct (N.leb_spec (lenN l) c); [|lia].
    rewrite D, takeN_app_le, takeN_all by (rewrite map_len; lia). apply init_some.
  Qed.
  Lemma holds_spare : forall c l v, holds c l v -> exists j, spare v = Done j /\ av_data v = map Some l ++ j /\ lenN l + lenN j = c.
  Proof.
    intros c l v HV. pose proof (holds_le _ _ _ HV) as LE. destruct HV as (j & D & L & C). exists j. unfold spare, cap. rewrite C, L. destruct (N.leb_spec (lenN l) c); [|lia].
    rewrite D, dropN_app_ge, map_len, N.sub_diag, dropN_0 by (rewrite map_len; lia). repeat split. rewrite D, lenN_app, map_len in C. exact C.
  Qed.
  Lemma take_pref : forall (a b : list (option T)), takeN (lenN a) (a ++ b) = a. Proof. intros. rewrite takeN_app_le by lia. apply takeN_all. lia. Qed.
  Lemma try_push_spec : forall c l v x, holds c l v ->
    if lenN l <? c then exists v', try_push v x = Done (v', Ok tt) /\ holds c (l ++ [x]) v' else try_push v x = Done (v, Err c).
  Proof.
    intros c l v x HV. destruct (holds_spare _ _ _ HV) as (j & S & D & J). destruct HV as (_ & _ & L & C). unfold try_push. rewrite S. cbn [mbind]. destruct (N.ltb_spec (lenN l) c) as [LT|GE].
    - destruct j as [|y j]; [rewrite lenN_nil in J; lia|]. rewrite lenN_cons in J. cbv zeta. cbn [av_len]. unfold set_len, cap. cbn [av_data]. rewrite L, D. rewrite <- (map_len l), take_pref, map_len. rewrite lenN_app, lenN_cons, map_len.
      destruct (N.leb_spec (lenN l + 1) (lenN l + (1 + lenN j))); [|lia]. cbn [mbind]. eexists. split; [reflexivity|]. exists j. cbn [av_data av_len]. rewrite map_app, <- app_assoc. cbn [map app]. split; [reflexivity|].
      rewrite !lenN_app, !lenN_cons, lenN_nil, map_len. lia.
    - destruct j as [|y j]; [|rewrite lenN_cons in J; lia]. unfold cap. now rewrite C.
  Qed.
  Lemma set_len_spec : forall c l v n, holds c l v -> n <= lenN l -> exists v', set_len v n = Done v' /\ holds c (takeN n l) v'.
  Proof.
    intros c l v n HV N. pose proof (holds_le _ _ _ HV) as LE. destruct HV as (j & D & L & C). unfold set_len, cap. rewrite C. destruct (N.leb_spec n c); [|lia]. eexists. split; [reflexivity|].
    exists (map Some (dropN n l) ++ j). cbn [av_data av_len]. rewrite D, app_assoc, <- map_app, takeN_dropN. split; [reflexivity|]. split; [rewrite lenN_takeN; lia|]. now rewrite <- D.
  Qed.
  Lemma pop_spec : forall c l v, holds c l v -> match rev l with [] => pop v = Done (v, None) /\ l = [] | x :: r => exists v', pop v = Done (v', Some x) /\ holds c (rev r) v' end.
  Proof.
    intros c l v HV. unfold pop. rewrite (holds_slice _ _ _ HV). cbn [mbind]. destruct (rev l) as [|x r] eqn:R; [split; [reflexivity|]; rewrite <- (rev_involutive l), R; reflexivity|].
    assert (E : l = rev r ++ [x]) by (rewrite <- (rev_involutive l), R; reflexivity). assert (LL : av_len v = lenN l) by (destruct HV as (_ & _ & LL & _); exact LL).
    destruct (set_len_spec c l v (av_len v - 1) HV) as (v' & -> & HV'); [rewrite LL; lia|]. cbn [mbind]. exists v'. split; [reflexivity|].
    replace (takeN (av_len v - 1) l) with (rev r) in HV'; [exact HV'|]. rewrite LL, E, lenN_app, lenN_cons, lenN_nil. rewrite takeN_app_le by lia. rewrite takeN_all by lia. reflexivity.
  Qed.
  Lemma extend_spec : forall c l v s, holds c l v -> if lenN l + lenN s <=? c then exists v', extend_from_slice v s = Done v' /\ holds c (l ++ s) v' else extend_from_slice v s = Panicked.
  Proof.
    intros c l v s HV. destruct (holds_spare _ _ _ HV) as (j & S & D & J). destruct HV as (_ & _ & L & C). unfold extend_from_slice. rewrite S. cbn [mbind].
    destruct (N.leb_spec (lenN l + lenN s) c) as [LE|GT]; destruct (N.leb_spec (lenN s) (lenN j)) as [LE'|GT']; try lia; [|reflexivity].
    unfold set_len, cap. cbn [av_data]. rewrite L, D. rewrite <- (map_len l), take_pref, map_len. rewrite !lenN_app, !map_len, lenN_dropN.
    destruct (N.leb_spec (lenN l + lenN s) (lenN l + (lenN s + (lenN j - lenN s)))); [|lia]. eexists. split; [reflexivity|]. exists (dropN (lenN s) j). cbn [av_data av_len].
    rewrite map_app, <- app_assoc. split; [reflexivity|]. rewrite !lenN_app, !map_len, lenN_dropN. lia.
  Qed.
  Lemma put_len : forall (l : list T) i x, i < lenN l -> lenN (put l i x) = lenN l.
  Proof. intros l i x L. unfold put, lenN in *. rewrite app_length, firstn_length. cbn [length]. rewrite skipn_length. lia. Qed.
  Lemma set_spec : forall c l v i x, holds c l v -> if i <? lenN l then exists v', av_set v i x = Done v' /\ holds c (put l i x) v' else av_set v i x = Panicked.
  Proof.
    intros c l v i x HV. unfold av_set. rewrite (holds_slice _ _ _ HV). cbn [mbind]. destruct (N.ltb_spec i (lenN l)) as [LT|]; [|reflexivity]. destruct HV as (j & D & L & C).
    eexists. split; [reflexivity|]. exists j. cbn [av_data av_len]. rewrite D. split; [|split; [rewrite put_len; lia|]].
    - rewrite takeN_app_le, dropN_app_le by (rewrite map_len; lia). unfold put, takeN, dropN. rewrite map_app, firstn_map, <- app_assoc. f_equal. cbn [map app]. f_equal. rewrite skipn_map. do 3 f_equal. lia.
    - rewrite lenN_app, lenN_cons, lenN_takeN, lenN_dropN. rewrite <- C, D, lenN_app, map_len. lia.
  Qed.
  Lemma fill_spec : forall (s : list T) a j, lenN s <= lenN j -> fill (lenN a) s (map Some a ++ j) = map Some (a ++ s) ++ dropN (lenN s) j.
  Proof.
    induction s as [|x s IH]; intros a j L; [rewrite lenN_nil, dropN_0, app_nil_r; reflexivity|]. rewrite lenN_cons in L. destruct j as [|y j]; [rewrite lenN_nil in L; lia|]. cbn [fill]. rewrite lenN_cons in L.
    rewrite <- (map_len a) at 2 3. rewrite take_pref. rewrite dropN_app_ge by (rewrite map_len; lia). replace (lenN (map Some a) + 1 - lenN (map Some a)) with 1 by lia. change (dropN 1 (y :: j)) with j.
    replace (map Some a ++ Some x :: j) with (map Some (a ++ [x]) ++ j) by (rewrite map_app, <- app_assoc; reflexivity). replace (lenN a + 1) with (lenN (a ++ [x])) by (rewrite lenN_app, lenN_cons, lenN_nil; lia).
    rewrite IH by lia. rewrite <- app_assoc. cbn [app]. f_equal. rewrite lenN_cons. unfold dropN. replace (N.to_nat (1 + lenN s)) with (S (N.to_nat (lenN s))) by lia. reflexivity.
  Qed.
  Lemma uninit_len : forall c, lenN (@uninit T c) = c. Proof. intro. unfold uninit, lenN. rewrite repeat_length. lia. Qed.
  Lemma new_holds : forall c, holds c [] (av_new c).
  Proof. intro c. exists (uninit c). split; [reflexivity|]. split; [reflexivity|]. apply uninit_len. Qed.
  Lemma from_slice_spec : forall c s, if lenN s <=? c then exists v, av_from_slice c s = Done v /\ holds c s v else av_from_slice c s = Panicked.
  Proof.
    intros c s. unfold av_from_slice. destruct (N.leb_spec (lenN s) c) as [LE|]; [|reflexivity]. eexists. split; [reflexivity|].
    pose proof (fill_spec s [] (uninit c)) as F. rewrite uninit_len in F. specialize (F LE). cbn [map app] in F. rewrite lenN_nil in F. exists (dropN (lenN s) (uninit c)). cbn [av_data av_len]. rewrite F.
    split; [reflexivity|]. split; [reflexivity|]. rewrite lenN_app, map_len, lenN_dropN, uninit_len. lia.
  Qed.
  Lemma clone_spec : forall c l v, holds c l v -> exists v', av_clone v = Done v' /\ holds c l v'.
  Proof.
    intros c l v HV. unfold av_clone. rewrite (holds_slice _ _ _ HV). cbn [mbind]. replace (cap v) with c by (destruct HV as (_ & _ & _ & C); auto). pose proof (from_slice_spec c l) as F. pose proof (holds_le _ _ _ HV).
    destruct (N.leb_spec (lenN l) c); [exact F|lia].
  Qed.
  Lemma op_spec : forall c l v o, holds c l v -> match list_op c l o with Some (l', s) => exists v', vec_op v o = Done (v', s) /\ holds c l' v' | None => vec_op v o = Panicked end.
  Proof.
    intros c l v o HV. destruct o as [x|x| |s|i x| |n|]; cbn [list_op vec_op].
    - pose proof (try_push_spec c l v x HV) as P. unfold push. destruct (lenN l <? c); [destruct P as (v' & -> & Q); cbn [mbind]; eauto|rewrite P; reflexivity].
    - pose proof (try_push_spec c l v x HV) as P. destruct (lenN l <? c); [destruct P as (v' & -> & Q); cbn [mbind]; eauto|rewrite P; cbn [mbind]; eauto].
    - pose proof (pop_spec c l v HV) as P. destruct (rev l) as [|x r]; [destruct P as [-> ->]; cbn [mbind]; eauto|destruct P as (v' & -> & Q); cbn [mbind]; eauto].
    - pose proof (extend_spec c l v s HV) as P. destruct (lenN l + lenN s <=? c); [destruct P as (v' & -> & Q); cbn [mbind]; eauto|rewrite P; reflexivity].
    - pose proof (set_spec c l v i x HV) as P. destruct (i <? lenN l); [destruct P as (v' & -> & Q); cbn [mbind]; eauto|rewrite P; reflexivity].
    - destruct (clone_spec c l v HV) as (v' & -> & Q). cbn [mbind]. eauto.
    - assert (LL : av_len v = lenN l) by (destruct HV as (_ & _ & LL & _); exact LL). destruct (set_len_spec c l v (N.min n (av_len v)) HV) as (v' & -> & Q); [rewrite LL; lia|]. cbn [mbind]. exists v'. split; [reflexivity|].
      rewrite LL in Q. fold (takeN n l). destruct (N.le_gt_cases n (lenN l)) as [LE|GT]; [now rewrite N.min_l in Q|]. rewrite N.min_r, takeN_all in Q by lia. now rewrite takeN_all by lia.
    - rewrite (holds_slice _ _ _ HV). cbn [mbind]. eauto.
  Qed.
  Lemma ops_spec : forall c os l v, holds c l v -> match list_ops c l os with Some (l', ss) => exists v', vec_ops v os = Done (v', ss) /\ holds c l' v' | None => vec_ops v os = Panicked end.
  Proof.
    intros c os. induction os as [|o os IH]; intros l v HV; cbn [list_ops vec_ops]; [eauto|]. pose proof (op_spec c l v o HV) as P. destruct (list_op c l o) as [[l1 s]|]; [|rewrite P; reflexivity].
    destruct P as (v1 & -> & H1). cbn [mbind]. specialize (IH l1 v1 H1). destruct (list_ops c l1 os) as [[l2 ss]|]; [|rewrite IH; reflexivity]. destruct IH as (v2 & -> & H2). cbn [mbind]. eauto.
  Qed.
  Lemma visit_spec : forall c items l v, holds c l v -> if lenN l + lenN items <=? c then exists v', visit_items v items = Done (Ok v') /\ holds c (l ++ items) v' else visit_items v items = Done (Err (c + 1)).
  Proof.
    intros c items. induction items as [|x items IH]; intros l v HV; cbn [visit_items].
    - pose proof (holds_le _ _ _ HV). rewrite lenN_nil. destruct (N.leb_spec (lenN l + 0) c); [|lia]. rewrite app_nil_r. eauto.
    - rewrite lenN_cons. pose proof (try_push_spec c l v x HV) as P. destruct (N.ltb_spec (lenN l) c) as [LT|GE].
      + destruct P as (v1 & -> & H1). cbn [mbind]. specialize (IH (l ++ [x]) v1 H1). rewrite lenN_app, lenN_cons, lenN_nil in IH. replace (lenN l + (1 + lenN items)) with (lenN l + (1 + 0) + lenN items) by lia.
        rewrite <- app_assoc in IH. exact IH.
      + rewrite P. cbn [mbind]. rewrite (holds_slice _ _ _ HV). cbn [mbind]. pose proof (holds_le _ _ _ HV). destruct (N.leb_spec (lenN l + (1 + lenN items)) c); [lia|]. do 3 f_equal. lia.
  Qed.
End Vec.
