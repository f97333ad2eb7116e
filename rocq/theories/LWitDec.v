(** The witness decoder is lawful; what it accepts. *)
From Verif Require Import Base MDec LDec LDec2 LPrefix LCompact MWitness SWitness LWitness.
Local Open Scope N_scope.

Definition wd_build (n : N) (content : bytes) : rust (result witness wd_err) :=
  rbind (wd_index (N.to_nat n) content (lenN content) 0) (fun c =>
  Ret (Ok {| wt_content := c; wt_elements := n; wt_start := lenN content |})).

Fixpoint wd_items (n : N) (k : nat) (content : bytes) (len : bytes) (rem : option N) (l : bytes)
  : outcome witness wd_err :=
  match k with
  | O => of_fin (wd_build n content) l
  | S k' =>
      let eof := WdEof (N.of_nat k) in
      let body c r l' := obind (fun e => e) (fun e => e) (otake r eof l') (fun b l'' => wd_items n k' (c ++ b) [] None l'') in
      match rem with
      | Some r => body content r l
      | None => obind (fun _ => eof) WdPrefix (cs_den (cs_fin MAX_WITNESS_ITEM_SIZE) len l)
                  (fun r l' => body (content ++ cs_encode r) r l')
      end
  end.

Definition wd_left (s : wd_state) (n : N) : nat := N.to_nat (n - wd_idx s).
Definition wd_items_of (s : wd_state) (n : N) (l : bytes) :=
  wd_items n (wd_left s n) (wd_content s) (wd_len s) (wd_remaining s) l.
Definition wd_den (s : wd_state) (l : bytes) : outcome witness wd_err :=
  match wd_elements s with
  | Some n => wd_items_of s n l
  | None => obind (fun _ => WdEof 0) WdPrefix (cs_den (cs_fin MAX_WITNESS_STACK_ITEMS) (wd_count s) l)
              (fun n l' => wd_items n (N.to_nat n) [] [] None l')
  end.

Definition wd_mid (s : wd_state) : Prop :=
  match wd_remaining s with None => cs_good (wd_len s) | Some r => 0 < r /\ wd_len s = [] end.
Definition wd_good (s : wd_state) : Prop :=
  match wd_elements s with
  | None => wd_content s = [] /\ cs_good (wd_count s) /\ wd_idx s = 0 /\ wd_len s = [] /\ wd_remaining s = None
  | Some n => wd_idx s < n /\ wd_mid s
  end.

Lemma cs_prefixy : forall limit buf, cs_good buf -> prefixy (cs_den (cs_fin limit) buf).
Proof. intros. apply (prefixy_lawful _ _ _ _ _ (cs_lawful limit)). auto. Qed.

Lemma wd_items_prefixy : forall k n content len rem, cs_good len -> prefixy (wd_items n k content len rem).
Proof.
  induction k; intros n content len rem G; cbn [wd_items].
  - apply prefixy_fin.
  - assert (B : forall c r, prefixy (fun l' => obind (fun e => e) (fun e => e) (otake r (WdEof (N.of_nat (S k))) l')
                (fun b l'' => wd_items n k (c ++ b) [] None l''))).
    { intros c r. apply prefixy_bind; [apply prefixy_take|]. intro b. apply IHk. exact I. }
    destruct rem as [r|]; [apply B|].
    apply prefixy_bind; [now apply cs_prefixy|]. intro r. apply B.
Qed.

Lemma wd_good_len : forall s n, wd_elements s = Some n -> wd_good s -> cs_good (wd_len s).
Proof.
  intros s n H G. unfold wd_good in G. rewrite H in G. destruct G as [_ G]. unfold wd_mid in G.
  destruct (wd_remaining s); auto. destruct G as [_ ->]. exact I.
Qed.
Lemma wd_den_prefixy : forall s, wd_good s -> prefixy (wd_den s).
Proof.
  intros s G. pose proof (wd_good_len s) as GL. unfold wd_den, wd_good, wd_items_of in *. destruct (wd_elements s) as [n|].
  - apply wd_items_prefixy. eapply GL; eauto.
  - apply prefixy_bind.
    + apply cs_prefixy. tauto.
    + intro n. apply wd_items_prefixy. exact I.
Qed.

Lemma wd_left_pos : forall s n, wd_idx s < n -> wd_left s n = S (N.to_nat (n - wd_idx s - 1)).
Proof. intros. unfold wd_left. lia. Qed.

Lemma cs_den_nil : forall dv buf, cs_good buf -> exists e, cs_den dv buf [] = More e.
Proof.
  intros dv [|b q] G; [eexists; reflexivity|]. eexists. apply cs_den_incomplete. exact G.
Qed.

Lemma wd_den_nil : forall s, wd_good s ->
  wd_den s [] = More (WdEof (match wd_elements s with None => 0 | Some n => n - wd_idx s end)).
Proof.
  intros s G. unfold wd_den, wd_good in *. destruct (wd_elements s) as [n|].
  - destruct G as [Hi G]. unfold wd_items_of. rewrite wd_left_pos by auto. cbn [wd_items].
    replace (N.of_nat (S _)) with (n - wd_idx s) by lia. unfold wd_mid in G.
    destruct (wd_remaining s) as [r|].
    + unfold otake. change (lenN (@nil N)) with 0. unfold bytes, byte in *. change (lenN (@nil N)) with 0. replace (0 <? r) with true by lia. reflexivity.
    + destruct (cs_den_nil (cs_fin MAX_WITNESS_ITEM_SIZE) _ G) as [e ->]. reflexivity.
  - destruct G as (_ & G & _). destruct (cs_den_nil (cs_fin MAX_WITNESS_STACK_ITEMS) _ G) as [e ->]. reflexivity.
Qed.

Definition wd_shape (n : N) (s : wd_state) : Prop :=
  wd_elements s = Some n /\ wd_idx s <= n /\ wd_mid s.

Lemma wd_fin_full : forall s n, wd_elements s = Some n -> wd_idx s = n -> wd_fin s = wd_build n (wd_content s).
Proof.
  intros s n H1 H2. unfold wd_fin, wd_build. rewrite H1, H2.
  replace (n <? n) with false by lia. replace (n - n =? 0) with true by lia. reflexivity.
Qed.

Lemma wd_loop_law : forall fuel n s l, wd_shape n s -> (length l <= fuel)%nat ->
  match wd_loop fuel n s l with
  | (s', r, NeedsMore) => wd_shape n s' /\ wd_idx s' < n /\ r = [] /\ forall t, wd_items_of s n (l ++ t) = wd_items_of s' n t
  | (s', r, Ready) => (exists p, l = p ++ r) /\ forall t, wd_items_of s n (l ++ t) = of_fin (wd_fin s') (r ++ t)
  | (s', r, PErr e) => (exists p, l = p ++ r) /\ forall t, wd_items_of s n (l ++ t) = Fail e
  | (_, _, PPanic) => False
  end.
Proof.
  induction fuel; intros n s l Sh Hl.
  - destruct l; [|cbn in Hl; lia]. destruct Sh as (H1 & H2 & H3). cbn [wd_loop].
    destruct (n <=? wd_idx s) eqn:Hi.
    + split; [exists []; auto|]. intro t. unfold wd_items_of. rewrite (wd_fin_full s n) by (auto; lia).
      replace (wd_left s n) with 0%nat by (unfold wd_left; lia). reflexivity.
    + split; [now repeat split|]. split; [lia|]. auto.
  - assert (Rdy : wd_idx s = n -> (exists p, l = p ++ l) /\ forall t, wd_items_of s n (l ++ t) = of_fin (wd_fin s) (l ++ t)).
    { intro Hi. destruct Sh as (H1 & H2 & H3). split; [exists []; auto|]. intro t. unfold wd_items_of.
      rewrite (wd_fin_full s n) by (auto; lia).
      replace (wd_left s n) with 0%nat by (unfold wd_left; lia). reflexivity. }
    destruct Sh as (H1 & H2 & H3). cbn [wd_loop]. destruct (n <=? wd_idx s) eqn:Hi; [apply Rdy; lia|].
    destruct l as [|x l0] eqn:El; [repeat split; auto; lia|]. rewrite <- El in *. clear Rdy.
    assert (Hne : l <> []) by (subst; discriminate). clear x l0 El.
    assert (Hleft : wd_left s n = S (N.to_nat (n - wd_idx s - 1))) by (apply wd_left_pos; lia).
    unfold wd_mid in H3. destruct (wd_remaining s) as [r|] eqn:Hr.
    + destruct H3 as [Hr0 Hlen].
      set (k := N.min (lenN l) r).
      match goal with |- context [wd_loop fuel n ?s1 ?l1] => set (s' := s1); specialize (IHfuel n s' l1) end.
      assert (Hkpos : 0 < k). { unfold k. destruct l; [congruence|]. rewrite lenN_cons. lia. }
      assert (K : wd_shape n s').
      { unfold wd_shape, s', wd_mid. cbn [wd_elements wd_idx wd_len wd_remaining]. split; auto.
        destruct (r - k =? 0) eqn:Hz; split; try lia; auto. rewrite Hlen. exact I. split; auto. lia. }
      specialize (IHfuel K). 
      assert (Hl' : (length (dropN k l) <= fuel)%nat).
      { unfold dropN. rewrite skipn_length. unfold lenN in *. lia. }
      specialize (IHfuel Hl').
      assert (Hsteps : forall t, wd_items_of s n (l ++ t) = wd_items_of s' n (dropN k l ++ t)).
      { intro t. unfold wd_items_of. rewrite Hleft, Hr. unfold s' at 2 3 4. cbn [wd_content wd_len wd_remaining].
        destruct (r - k =? 0) eqn:Hz.
        - replace (wd_left s' n) with (N.to_nat (n - wd_idx s - 1)).
          2:{ unfold wd_left, s'. cbn [wd_idx]. lia. }
          cbn [wd_items]. unfold otake.
          assert (k = r) by lia. assert (r <= lenN l) by lia.
          replace (lenN (l ++ t) <? r) with false by (rewrite lenN_app; lia). cbn [obind].
          rewrite takeN_app_le, dropN_app_le by lia. rewrite H, Hlen. reflexivity.
        - replace (wd_left s' n) with (S (N.to_nat (n - wd_idx s - 1))).
          cbn [wd_items]. assert (k = lenN l) by lia. rewrite H at 1 2.
          rewrite takeN_all, dropN_all by lia. cbn [app]. unfold otake. rewrite lenN_app.
          rewrite ?H. replace (lenN l + lenN t <? r) with (lenN t <? r - lenN l) by lia.
          destruct (lenN t <? r - lenN l); [reflexivity|]. cbn [obind].
          rewrite takeN_app_ge, dropN_app_ge by lia. rewrite <- app_assoc. reflexivity. }
      destruct (wd_loop fuel n s' (dropN k l)) as [[s2 r2] []]; auto.
      * destruct IHfuel as (A1 & A2 & A3 & A4). repeat split; try apply A1; auto.
        intro t. now rewrite Hsteps.
      * destruct IHfuel as ((p & Hp) & A). split.
        -- exists (takeN k l ++ p). rewrite <- app_assoc, <- Hp. now rewrite takeN_dropN.
        -- intro t. now rewrite Hsteps.
      * destruct IHfuel as ((p & Hp) & A). split.
        -- exists (takeN k l ++ p). rewrite <- app_assoc, <- Hp. now rewrite takeN_dropN.
        -- intro t. now rewrite Hsteps.
    + pose proof (cs_push_spec _ l H3) as P. destruct (cs_push (wd_len s) l) as [[b l'] []]; try contradiction.
      * destruct P as (G' & -> & ->). repeat split; cbn [wd_elements wd_idx]; auto; [lia|].
        intro t. unfold wd_items_of. cbn [wd_content wd_len wd_remaining]. rewrite Hr.
        change (wd_left {| wd_content := _ |} n) with (wd_left s n). rewrite Hleft. cbn [wd_items].
        now rewrite cs_den_app.
      * destruct P as (_ & p & b0 & q & -> & Hp & -> & E & Hlb).
        assert (D : forall t, cs_den (cs_fin MAX_WITNESS_ITEM_SIZE) (wd_len s) (p ++ t)
                    = of_res (cs_fin MAX_WITNESS_ITEM_SIZE (wd_len s ++ p)) t).
        { intro t. apply cs_den_prefix with b0; auto; rewrite E; try discriminate; try reflexivity; congruence. }
        destruct (cs_fin MAX_WITNESS_ITEM_SIZE (wd_len s ++ p)) as [len|e].
        -- match goal with |- context [wd_loop fuel n ?s1 ?l1] => set (s' := s1); specialize (IHfuel n s' l1) end.
           assert (K : wd_shape n s').
           { unfold wd_shape, s', wd_mid. cbn [wd_elements wd_idx wd_len wd_remaining]. split; auto.
             destruct (len =? 0) eqn:Hz; split; try lia; auto. exact I. split; auto. lia. }
           specialize (IHfuel K).
           assert (Hl' : (length l' <= fuel)%nat).
           { rewrite app_length in Hl. destruct p; [congruence|]. cbn in Hl. lia. }
           specialize (IHfuel Hl').
           assert (Hsteps : forall t, wd_items_of s n ((p ++ l') ++ t) = wd_items_of s' n (l' ++ t)).
           { intro t. unfold wd_items_of. rewrite Hleft, Hr. unfold s' at 2 3 4. cbn [wd_content wd_len wd_remaining].
             cbn [wd_items]. rewrite <- app_assoc, D. cbn [of_res obind].
             destruct (len =? 0) eqn:Hz.
             - replace (wd_left s' n) with (N.to_nat (n - wd_idx s - 1)).
               2:{ unfold wd_left, s'. cbn [wd_idx]. lia. }
               assert (len = 0) by lia. subst len. unfold otake.
               replace (lenN (l' ++ t) <? 0) with false by lia. cbn [obind].
               rewrite takeN_0, dropN_0, app_nil_r. reflexivity.
             - replace (wd_left s' n) with (S (N.to_nat (n - wd_idx s - 1))).
               cbn [wd_items]. reflexivity. }
           destruct (wd_loop fuel n s' l') as [[s2 r2] []]; auto.
           ++ destruct IHfuel as (A1 & A2 & A3 & A4). repeat split; try apply A1; auto.
              intro t. now rewrite Hsteps.
           ++ destruct IHfuel as ((p' & Hp') & A). split.
              ** exists (p ++ p'). rewrite <- app_assoc, <- Hp'. reflexivity.
              ** intro t. now rewrite Hsteps.
           ++ destruct IHfuel as ((p' & Hp') & A). split.
              ** exists (p ++ p'). rewrite <- app_assoc, <- Hp'. reflexivity.
              ** intro t. now rewrite Hsteps.
        -- split; [eauto|]. intro t. unfold wd_items_of. rewrite Hleft, Hr. cbn [wd_items].
           rewrite <- app_assoc, D. reflexivity.
Qed.

Lemma wd_items_lim : forall k n content len rem l v r, cs_good len -> wd_items n (S k) content len rem l = Done v r ->
  (match rem with Some x => x | None => cs_lim len end) + lenN r <= lenN l.
Proof.
  intros k n content len rem l v r G H. cbn [wd_items] in H. destruct rem as [x|].
  - unfold otake in H. destruct (lenN l <? x) eqn:Hx; [discriminate|]. cbn [obind] in H.
    apply prefixy_shrink in H; [|apply wd_items_prefixy; exact I]. rewrite lenN_dropN in H. lia.
  - destruct (cs_den _ len l) as [x l1| | |] eqn:Hc; try discriminate. cbn [obind] in H.
    pose proof (law_lim _ _ _ (cs_lawful _) _ _ _ _ G Hc) as L1. cbn [lim cs_dec] in L1.
    unfold otake in H. destruct (lenN l1 <? x) eqn:Hx; [discriminate|]. cbn [obind] in H.
    apply prefixy_shrink in H; [|apply wd_items_prefixy; exact I]. rewrite lenN_dropN in H. lia.
Qed.

Lemma witness_lawful : lawful witness_dec wd_good wd_den.
Proof.
  constructor; cbn [st init push fin lim witness_dec].
  - unfold wd_good, wd_init. cbn. auto.
  - intros s l G. unfold wd_push. pose proof G as G0. unfold wd_good in G. unfold wd_den.
    destruct (wd_elements s) as [n|] eqn:Hs.
    + destruct G as [Hi Hm].
      pose proof (wd_loop_law (length l) n s l) as W.
      destruct (wd_loop (length l) n s l) as [[s' r] []].
      * destruct W as ((A1 & A2 & A3) & A4 & -> & A5); [split; [auto|split; [lia|auto]]|lia|].
        unfold wd_good. rewrite A1. repeat split; auto.
        -- exists l. now rewrite app_nil_r.
      * apply W; [split; [auto|split; [lia|auto]]|lia].
      * apply W; [split; [auto|split; [lia|auto]]|lia].
      * exfalso. apply W; [split; [auto|split; [lia|auto]]|lia].
    + destruct G as (G1 & G2 & G3 & G4 & G5).
      pose proof (cs_push_spec _ l G2) as P. destruct (cs_push (wd_count s) l) as [[b l'] []]; try contradiction.
      * destruct P as (G' & -> & ->). unfold wd_good. cbn [wd_elements wd_content wd_count wd_idx wd_len wd_remaining].
        repeat split; auto.
        -- exists l. now rewrite app_nil_r.
        -- intro t. now rewrite cs_den_app.
      * destruct P as (_ & p & b0 & q & -> & Hp & -> & E & Hlb).
        assert (D : forall t, cs_den (cs_fin MAX_WITNESS_STACK_ITEMS) (wd_count s) (p ++ t)
                    = of_res (cs_fin MAX_WITNESS_STACK_ITEMS (wd_count s ++ p)) t).
        { intro t. apply cs_den_prefix with b0; auto; rewrite E; try discriminate; try reflexivity; congruence. }
        destruct (cs_fin MAX_WITNESS_STACK_ITEMS (wd_count s ++ p)) as [n|e].
        -- destruct (n =? 0) eqn:Hn.
           ++ split; [eauto|]. intro t. rewrite <- app_assoc, D. cbn [of_res obind].
              assert (n = 0) by lia. subst n. cbn [N.to_nat wd_items].
              rewrite (wd_fin_full _ 0) by auto. cbn [wd_content]. now rewrite G1.
           ++ rewrite G1, G3, G4, G5.
              match goal with |- context [wd_loop _ n ?s1 ?l1] => set (s' := s1); pose proof (wd_loop_law (length l1) n s' l1) as W end.
              assert (Sh : wd_shape n s'). { unfold wd_shape, s', wd_mid. cbn. repeat split; auto. lia. }
              assert (Hsteps : forall t, obind (fun _ => WdEof 0) WdPrefix
                 (cs_den (cs_fin MAX_WITNESS_STACK_ITEMS) (wd_count s) ((p ++ l') ++ t))
                 (fun n l' => wd_items n (N.to_nat n) [] [] None l') = wd_items_of s' n (l' ++ t)).
              { intro t. rewrite <- app_assoc, D. cbn [of_res obind]. unfold wd_items_of, wd_left, s'.
                cbn [wd_idx wd_content wd_len wd_remaining]. now rewrite N.sub_0_r. }
              specialize (W Sh (Nat.le_refl _)).
              destruct (wd_loop (length l') n s' l') as [[s2 r] []].
              ** destruct W as ((A1 & A2 & A3) & A4 & -> & A5). unfold wd_good. rewrite A1.
                 repeat split; auto.
                 --- exists (p ++ l'). now rewrite app_nil_r.
                 --- intro t. rewrite Hsteps. auto.
              ** destruct W as ((p' & ->) & A). split; [exists (p ++ p'); now rewrite app_assoc|].
                 intro t. rewrite Hsteps. auto.
              ** destruct W as ((p' & ->) & A). split; [exists (p ++ p'); now rewrite app_assoc|].
                 intro t. rewrite Hsteps. auto.
              ** contradiction.
        -- split; [eauto|]. intro t. rewrite <- app_assoc, D. reflexivity.
  - intros s G. rewrite wd_den_nil by auto. unfold wd_fin, wd_good in *. destruct (wd_elements s) as [n|]; auto.
    destruct G as [Hi _]. replace (n <? wd_idx s) with false by lia. now replace (n - wd_idx s =? 0) with false by lia.
  - intros s l v r G. apply pf_done. now apply wd_den_prefixy.
  - intros s l e t G. apply pf_fail. now apply wd_den_prefixy.
  - intros s l t G. apply pf_boom. now apply wd_den_prefixy.
  - intros s l v r G H. unfold wd_lim. unfold wd_den in H. pose proof (wd_good_len s) as GL. unfold wd_good in G.
    destruct (wd_elements s) as [n|] eqn:Hs.
    + specialize (GL n eq_refl). unfold wd_items_of in H. destruct G as [Hi Hm]. rewrite wd_left_pos in H by auto.
      apply wd_items_lim in H; auto. apply GL. unfold wd_good. rewrite Hs. auto.
    + destruct (cs_den _ (wd_count s) l) as [x l1| | |] eqn:Hc; try discriminate. cbn [obind] in H.
      destruct G as (_ & G & _).
      pose proof (law_lim _ _ _ (cs_lawful _) _ _ _ _ G Hc) as L1. cbn [lim cs_dec] in L1.
      apply prefixy_shrink in H; [|apply wd_items_prefixy; exact I]. lia.
  - intros s G H. exfalso. unfold wd_lim, wd_good in *. destruct (wd_elements s) as [n|].
    + destruct G as [_ G]. unfold wd_mid in G. destruct (wd_remaining s); [lia|].
      pose proof (cs_lim_pos _ G). lia.
    + destruct G as (_ & G & _). pose proof (cs_lim_pos _ G). lia.
Qed.

Lemma witness_nontrivial : nontrivial (D := witness_dec) wd_good wd_den.
Proof. intros s G. rewrite wd_den_nil by auto. eauto. Qed.

(** *** What the decoder accepts *)
Lemma wd_index_spec : forall ls pre ix, Forall (fun e => lenN e < U64) ls ->
  wd_index (length ls) (flat (pre ++ ls) ++ ix) (lenN (flat (pre ++ ls))) (lenN (flat pre))
  = if fitsb (offs ls (lenN (flat pre))) then Ret (flat (pre ++ ls) ++ ix ++ idxs (offs ls (lenN (flat pre)))) else Panic.
Proof.
  induction ls as [|e ls IH]; intros pre ix HF; cbn [length wd_index offs fitsb].
  - cbn [idxs flat_map]. now rewrite !app_nil_r.
  - inv HF. replace (lenN (flat pre) <=? U32_MAX) with (negb (U32_MAX <? lenN (flat pre))) by lia.
    destruct (U32_MAX <? lenN (flat pre)); [reflexivity|]. cbn [negb andb].
    replace (lenN (flat (pre ++ e :: ls)) <? lenN (flat pre)) with false
      by (rewrite flat_app, lenN_app; lia).
    replace (takeN (lenN (flat (pre ++ e :: ls)) - lenN (flat pre)) (dropN (lenN (flat pre)) (flat (pre ++ e :: ls) ++ ix)))
      with (flat (e :: ls)).
    2:{ rewrite flat_app, lenN_app, <- app_assoc, dropN_exact by auto. rewrite takeN_exact; auto. lia. }
    rewrite flat_cons. unfold elem_bytes at 1. rewrite <- app_assoc, decode_unchecked_encode by auto.
    cbn [rbind].
    replace (lenN (flat pre) + (lenN (elem_bytes e ++ flat ls) - lenN (e ++ flat ls)) + lenN e)
      with (lenN (flat (pre ++ [e]))).
    2:{ rewrite flat_app, !lenN_app, flat_cons. cbn [flat flat_map]. rewrite app_nil_r.
        unfold elem_bytes. rewrite !lenN_app. lia. }
    replace (pre ++ e :: ls) with ((pre ++ [e]) ++ ls) by (now rewrite <- app_assoc).
    rewrite <- app_assoc, IH by auto.
    replace (lenN (flat (pre ++ [e]))) with (lenN (flat pre) + lenN (elem_bytes e)).
    2:{ rewrite flat_app, lenN_app, flat_cons. cbn [flat flat_map]. now rewrite app_nil_r. }
    destruct (fitsb _); [|reflexivity]. cbn [idxs flat_map]. rewrite <- !app_assoc. reflexivity.
Qed.

Lemma wd_build_spec : forall ls, Forall (fun e => lenN e < U64) ls ->
  wd_build (lenN ls) (flat ls) = if fitsb (offs ls 0) then Ret (Ok (layout ls)) else Panic.
Proof.
  intros ls H. unfold wd_build. pose proof (wd_index_spec ls [] [] H) as K.
  cbn [app] in K. change (lenN (flat [])) with 0 in K. rewrite app_nil_r in K.
  replace (N.to_nat (lenN ls)) with (length ls) by (unfold lenN; lia). rewrite K.
  destruct (fitsb _); reflexivity.
Qed.

Lemma small_u64 : forall ls, small ls -> Forall (fun e => lenN e < U64) ls.
Proof. intros ls H. eapply Forall_impl; [|exact H]. unfold U64. cbn beta. intros. lia. Qed.

Lemma wd_items_run : forall ls n content t, small ls ->
  wd_items n (length ls) content [] None (flat ls ++ t) = of_fin (wd_build n (content ++ flat ls)) t.
Proof.
  induction ls as [|e ls IH]; intros n content t S; cbn [length wd_items].
  - cbn [flat flat_map app]. now rewrite app_nil_r.
  - inv S. rewrite flat_cons. unfold elem_bytes. rewrite <- !app_assoc.
    rewrite cs_den_roundtrip by (unfold U64, MAX_WITNESS_ITEM_SIZE; lia). cbn [obind]. unfold otake.
    replace (lenN (e ++ flat ls ++ t) <? lenN e) with false by (rewrite lenN_app; lia). cbn [obind].
    rewrite takeN_exact, dropN_exact by auto. rewrite IH by auto. now rewrite <- !app_assoc.
Qed.

Lemma wd_roundtrip : forall ls t, small ls -> lenN ls <= MAX_WITNESS_STACK_ITEMS ->
  wd_den wd_init (stack_bytes ls ++ t) = if fitsb (offs ls 0) then Done (layout ls) t else Boom.
Proof.
  intros ls t S H. unfold wd_den, stack_bytes. cbn [wd_elements wd_init wd_count].
  rewrite <- app_assoc, cs_den_roundtrip by (unfold U64, MAX_WITNESS_STACK_ITEMS in *; lia). cbn [obind].
  replace (N.to_nat (lenN ls)) with (length ls) by (unfold lenN; lia). rewrite wd_items_run by auto.
  cbn [app]. rewrite wd_build_spec by (now apply small_u64). destruct (fitsb _); reflexivity.
Qed.

(** What the items parser consumed before building. *)
Lemma wd_items_canon : forall k n content l, bytes_ok l ->
  match wd_items n k content [] None l with
  | Done w r => exists ls, length ls = k /\ small ls /\ l = flat ls ++ r /\ wd_build n (content ++ flat ls) = Ret (Ok w)
  | Boom => exists ls r, length ls = k /\ small ls /\ l = flat ls ++ r /\ wd_build n (content ++ flat ls) = Panic
  | _ => True
  end.
Proof.
  induction k; intros n content l Hok; cbn [wd_items].
  - destruct (wd_build n content) as [[w|e]|] eqn:E; cbn [of_fin of_res]; auto.
    + exists []. cbn [flat flat_map]. rewrite app_nil_r. repeat split; auto; constructor.
    + exists [], l. cbn [flat flat_map]. rewrite app_nil_r. repeat split; auto; constructor.
  - destruct (cs_den (cs_fin MAX_WITNESS_ITEM_SIZE) [] l) as [len l1| | |] eqn:Hc; cbn [obind]; auto.
    + apply cs_den_canon in Hc as (-> & Hlen & _); auto.
      apply bytes_ok_app in Hok as [_ Hok]. unfold otake.
      destruct (lenN l1 <? len) eqn:Hl; cbn [obind]; auto.
      assert (Hd : bytes_ok (dropN len l1)).
      { rewrite <- (takeN_dropN len l1) in Hok. now apply bytes_ok_app in Hok. }
      specialize (IHk n ((content ++ cs_encode len) ++ takeN len l1) (dropN len l1) Hd).
      assert (Hlt : lenN (takeN len l1) = len) by (rewrite lenN_takeN; lia).
      destruct (wd_items n k _ [] None (dropN len l1)); auto.
      * destruct IHk as (ls & E1 & E2 & E3 & E4). exists (takeN len l1 :: ls). cbn [length].
        rewrite flat_cons. unfold elem_bytes. rewrite Hlt. repeat split; auto.
        -- constructor; auto. rewrite Hlt. exact Hlen.
        -- rewrite <- !app_assoc, <- E3, takeN_dropN. reflexivity.
        -- rewrite <- !app_assoc in E4. rewrite <- !app_assoc. exact E4.
      * destruct IHk as (ls & r & E1 & E2 & E3 & E4). exists (takeN len l1 :: ls), r. cbn [length].
        rewrite flat_cons. unfold elem_bytes. rewrite Hlt. repeat split; auto.
        -- constructor; auto. rewrite Hlt. exact Hlen.
        -- rewrite <- !app_assoc, <- E3, takeN_dropN. reflexivity.
        -- rewrite <- !app_assoc in E4. rewrite <- !app_assoc. exact E4.
    + pose proof (cs_den_inv (cs_fin MAX_WITNESS_ITEM_SIZE) [] l) as K. rewrite Hc in K. contradiction.
Qed.

Lemma wd_canon : forall l, bytes_ok l ->
  match wd_den wd_init l with
  | Done w r => exists ls, small ls /\ lenN ls <= MAX_WITNESS_STACK_ITEMS /\ l = stack_bytes ls ++ r /\ fits ls /\ w = layout ls
  | Boom => exists ls r, small ls /\ lenN ls <= MAX_WITNESS_STACK_ITEMS /\ l = stack_bytes ls ++ r /\ ~ fits ls
  | _ => True
  end.
Proof.
  intros l Hok. unfold wd_den. cbn [wd_elements wd_init wd_count].
  destruct (cs_den (cs_fin MAX_WITNESS_STACK_ITEMS) [] l) as [n l1| | |] eqn:Hc; cbn [obind]; auto.
  - apply cs_den_canon in Hc as (-> & Hlen & _); auto.
    apply bytes_ok_app in Hok as [_ Hok].
    pose proof (wd_items_canon (N.to_nat n) n [] l1 Hok) as K. cbn [app] in K.
    destruct (wd_items n (N.to_nat n) [] [] None l1); auto.
    + destruct K as (ls & E1 & E2 & E3 & E4). assert (lenN ls = n) as E by (unfold lenN; lia). subst n.
      rewrite wd_build_spec in E4 by (now apply small_u64).
      destruct (fitsb (offs ls 0)) eqn:F; [|discriminate]. exists ls. unfold stack_bytes. rewrite <- app_assoc, <- E3.
      repeat split; auto; [now apply fitsb_spec|now inv E4].
    + destruct K as (ls & r & E1 & E2 & E3 & E4). assert (lenN ls = n) as E by (unfold lenN; lia). subst n.
      rewrite wd_build_spec in E4 by (now apply small_u64).
      destruct (fitsb (offs ls 0)) eqn:F; [discriminate|]. exists ls, r. unfold stack_bytes. rewrite <- app_assoc, <- E3.
      repeat split; auto. unfold fits. rewrite <- fitsb_spec. congruence.
  - pose proof (cs_den_inv (cs_fin MAX_WITNESS_STACK_ITEMS) [] l) as K. rewrite Hc in K. contradiction.
Qed.

Lemma offs_bound : forall ls at_, Forall (fun o => o <= at_ + lenN (flat ls)) (offs ls at_).
Proof.
  induction ls; intros; cbn [offs]; constructor; [lia|]. rewrite flat_cons, lenN_app.
  eapply Forall_impl; [|apply IHls]. cbn beta. intros. lia.
Qed.
Lemma fits_short : forall ls, lenN (flat ls) <= U32_MAX -> fits ls.
Proof.
  intros ls H. unfold fits. eapply Forall_impl; [|apply offs_bound]. cbn beta. intros. lia.
Qed.

(** No panic on inputs of less than 4 GiB. *)
Lemma wd_no_boom : forall l, bytes_ok l -> lenN l <= U32_MAX -> wd_den wd_init l <> Boom.
Proof.
  intros l Hok Hl H. pose proof (wd_canon l Hok) as K. rewrite H in K.
  destruct K as (ls & r & _ & _ & -> & F). apply F, fits_short.
  unfold stack_bytes in Hl. rewrite !lenN_app in Hl. lia.
Qed.

Lemma wit_encode_layout : forall ls, wit_encode (layout ls) = stack_bytes ls.
Proof.
  intros. unfold wit_encode, stack_bytes, layout. cbn [wt_content wt_elements wt_start].
  now rewrite takeN_exact.
Qed.
