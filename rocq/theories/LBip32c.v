(** Lemmas on the serialisation of extended keys. *)
From Coq Require Import String.
From Verif Require Import Base MDec LDec SSha2 SWire MText MBase58 SBase58 LBase58 LSha2b LAmountText LPoly MBip32 SBip32 LBip32 LBip32b.
Local Open Scope N_scope.

Lemma copy_range_eq : forall a b src pre k, lenN pre = a -> lenN src = b - a -> a <= b -> b <= a + k ->
  copy_range a b src (pre ++ repeat 0 (N.to_nat k)) = Ret ((pre ++ src) ++ repeat 0 (N.to_nat (a + k - b))).
Proof.
  intros a b src pre k LP LS LE LK. unfold copy_range. rewrite lenN_app, repeat_lenN, N2Nat.id, LP.
  rewrite (proj2 (N.leb_le _ _) LE), (proj2 (N.leb_le _ _) LK), (proj2 (N.eqb_eq _ _) LS). cbn [andb]. f_equal.
  rewrite (takeN_pref a pre _ LP), <- app_assoc. f_equal. f_equal. rewrite dropN_app_ge by lia. rewrite LP.
  replace (N.to_nat k) with (N.to_nat (b - a) + N.to_nat (a + k - b))%nat by lia. rewrite repeat_app. apply dropN_pref. rewrite repeat_lenN. lia.
Qed.
Lemma copy_range_last : forall a b src pre k, lenN pre = a -> lenN src = b - a -> a <= b -> b = a + k ->
  copy_range a b src (pre ++ repeat 0 (N.to_nat k)) = Ret (pre ++ src).
Proof. intros a b src pre k LP LS LE LK. rewrite copy_range_eq by (auto; lia). replace (a + k - b) with 0 by lia. now rewrite app_nil_r. Qed.
Lemma version_len : forall n, lenN (version_private n) = 4 /\ lenN (version_public n) = 4 /\ bytes_ok (version_private n) /\ bytes_ok (version_public n).
Proof. intros []; repeat split; repeat constructor. Qed.
Lemma priv_encode_eq : forall C x, xpriv_ok C x -> xpriv_encode x = Ret (priv_bytes x).
Proof.
  intros C x (DX & LP & OP & CX & KX & LC & OCH). destruct (version_len (s_net x)) as (LV & _). destruct (cn_len (s_child x)) as [L4 _]. destruct (sk_len (s_key x)) as [L32 _].
  unfold xpriv_encode. change (repeat 0 78) with ([] ++ repeat 0 (N.to_nat 78)). rewrite copy_range_eq by (auto; lia). cbn [rbind]. rewrite app_nil_l.
  rewrite copy_range_eq by (auto; try lia). cbn [rbind].
  rewrite copy_range_eq by (rewrite ?lenN_app, ?LV, ?LP; try reflexivity; try lia). cbn [rbind].
  rewrite copy_range_eq by (rewrite ?lenN_app, ?LV, ?LP, ?L4; try reflexivity; try lia). cbn [rbind].
  rewrite copy_range_eq by (rewrite ?lenN_app, ?LV, ?LP, ?L4, ?LC; try reflexivity; try lia). cbn [rbind].
  rewrite copy_range_eq by (rewrite ?lenN_app, ?LV, ?LP, ?L4, ?LC; try reflexivity; try lia). cbn [rbind].
  rewrite copy_range_last by (rewrite ?lenN_app, ?LV, ?LP, ?L4, ?LC, ?L32; try reflexivity; try lia).
  unfold priv_bytes, sk_bytes. now rewrite <- !app_assoc.
Qed.
Lemma pub_encode_eq : forall C x, ecurve_ok C -> xpub_ok C x -> xpub_encode C x = Ret (pub_bytes C x).
Proof.
  intros C x OKC (DX & LP & OP & CX & LC & OCH). destruct (version_len (p_net C x)) as (_ & LV & _). destruct (cn_len (p_child C x)) as [L4 _]. destruct (ser_33 C OKC (p_key C x)) as [L33 _].
  unfold xpub_encode. change (repeat 0 78) with ([] ++ repeat 0 (N.to_nat 78)). rewrite copy_range_eq by (auto; lia). cbn [rbind]. rewrite app_nil_l.
  rewrite copy_range_eq by (auto; try lia). cbn [rbind].
  rewrite copy_range_eq by (rewrite ?lenN_app, ?LV, ?LP; try reflexivity; try lia). cbn [rbind].
  rewrite copy_range_eq by (rewrite ?lenN_app, ?LV, ?LP, ?L4; try reflexivity; try lia). cbn [rbind].
  rewrite copy_range_eq by (rewrite ?lenN_app, ?LV, ?LP, ?L4, ?LC; try reflexivity; try lia). cbn [rbind].
  rewrite copy_range_last by (rewrite ?lenN_app, ?LV, ?LP, ?L4, ?LC, ?L33; try reflexivity; try lia).
  unfold pub_bytes. now rewrite <- !app_assoc.
Qed.
Lemma priv_bytes_ok : forall C x, xpriv_ok C x -> lenN (priv_bytes x) = 78 /\ bytes_ok (priv_bytes x).
Proof.
  intros C x (DX & LP & OP & CX & KX & LC & OCH). destruct (version_len (s_net x)) as (LV & _ & OV & _). destruct (cn_len (s_child x)) as [L4 O4]. destruct (sk_len (s_key x)) as [L32 O32]. unfold sk_bytes in *.
  unfold priv_bytes. split; [rewrite !lenN_app, LV, LP, L4, LC, L32; reflexivity|]. repeat (apply bytes_ok_app; split; [solve [auto|repeat constructor; auto]|]). auto.
Qed.
Lemma pub_bytes_ok : forall C x, ecurve_ok C -> xpub_ok C x -> lenN (pub_bytes C x) = 78 /\ bytes_ok (pub_bytes C x).
Proof.
  intros C x OKC (DX & LP & OP & CX & LC & OCH). destruct (version_len (p_net C x)) as (_ & LV & _ & OV). destruct (cn_len (p_child C x)) as [L4 O4]. destruct (ser_33 C OKC (p_key C x)) as [L33 O33].
  unfold pub_bytes. split; [rewrite !lenN_app, LV, LP, L4, LC, L33; reflexivity|]. repeat (apply bytes_ok_app; split; [solve [auto|repeat constructor; auto]|]). auto.
Qed.

(** * Decoding *)
Definition raw_layout (b : bytes) (m : common) : Prop :=
  b = cm_net m ++ [cm_depth m] ++ cm_parent m ++ be_bytes 4 (cm_child m) ++ cm_chain m ++ cm_key m /\
  lenN (cm_net m) = 4 /\ lenN (cm_parent m) = 4 /\ lenN (cm_chain m) = 32 /\ lenN (cm_key m) = 33 /\ cn_ok (cm_child m).
Lemma cn_val : forall b, bytes_ok b -> lenN b = 4 -> be_bytes 4 (be_val b) = b /\ cn_ok (be_val b).
Proof.
  intros b O L. split; [apply be_bytes_of_val; auto; now apply length_lenN|]. unfold cn_ok. pose proof (LTaproot.be_val_lt b O) as B. rewrite L in B. exact B.
Qed.
Lemma hd_split : forall (l : bytes), 1 <= lenN l -> l = hd 0 l :: dropN 1 l.
Proof. intros [|x l] L; [rewrite lenN_nil in L; lia|reflexivity]. Qed.
Lemma layout_ex : forall b, bytes_ok b -> lenN b = 78 -> exists m, raw_layout b m /\
  common_decode b = if (cm_depth m =? 0) && negb (str_eqb (cm_parent m) (repeat 0 4)) then Err NonZeroParent
    else if (cm_depth m =? 0) && negb (str_eqb (be_bytes 4 (cm_child m)) (repeat 0 4)) then Err NonZeroChild else Ok m.
Proof.
  intros b O L. unfold common_decode. rewrite (proj2 (N.eqb_eq _ _) L). cbv zeta.
  set (b1 := dropN 4 b). set (b2 := dropN 1 b1). set (b3 := dropN 4 b2). set (b4 := dropN 4 b3).
  assert (L1 : lenN b1 = 74) by (unfold b1; rewrite lenN_dropN; lia). assert (L2 : lenN b2 = 73) by (unfold b2; rewrite lenN_dropN; lia).
  assert (L3 : lenN b3 = 69) by (unfold b3; rewrite lenN_dropN; lia). assert (L4 : lenN b4 = 65) by (unfold b4; rewrite lenN_dropN; lia).
  assert (O1 : bytes_ok b1) by now apply dropN_ok'. assert (O2 : bytes_ok b2) by now apply dropN_ok'. assert (O3 : bytes_ok b3) by now apply dropN_ok'.
  assert (LC : lenN (takeN 4 b3) = 4) by (rewrite lenN_takeN; lia). destruct (cn_val (takeN 4 b3) (takeN_ok' 4 b3 O3) LC) as [EC OC].
  exists (mk_common (takeN 4 b) (hd 0 b1) (takeN 4 b2) (be_val (takeN 4 b3)) (takeN 32 b4) (dropN 32 b4)). unfold raw_layout. cbn [cm_net cm_depth cm_parent cm_child cm_chain cm_key].
  rewrite EC. split; [|reflexivity]. split.
  - rewrite takeN_dropN. unfold b4. rewrite (takeN_dropN 4 b3). unfold b3. rewrite (takeN_dropN 4 b2). unfold b2. cbn [app]. rewrite <- hd_split by lia. unfold b1. now rewrite takeN_dropN.
  - rewrite !lenN_takeN, lenN_dropN, L4, L2, L. auto.
Qed.
Lemma app_inj_N : forall (a b c d : bytes), a ++ b = c ++ d -> lenN a = lenN c -> a = c /\ b = d.
Proof. intros a b c d E L. apply LScript.app_inj_lenN; auto. Qed.
Lemma layout_fun : forall b m m', raw_layout b m -> raw_layout b m' -> m = m'.
Proof.
  intros b m m' (E & A1 & A2 & A3 & A4 & A5) (E' & B1 & B2 & B3 & B4 & B5). rewrite E in E'. clear E.
  apply app_inj_N in E' as [E1 E']; [|congruence]. apply app_inj_N in E' as [E2 E']; [|reflexivity]. apply app_inj_N in E' as [E3 E']; [|congruence].
  apply app_inj_N in E' as [E4 E']; [|now rewrite !be_bytes_len]. apply app_inj_N in E' as [E5 E6]; [|congruence].
  apply (f_equal be_val) in E4. rewrite !be_val_of_bytes in E4 by (unfold cn_ok in *; assumption). inv E2. destruct m, m'; cbn in *; congruence.
Qed.
Lemma zero_child : forall c, cn_ok c -> (be_bytes 4 c = repeat 0 4 <-> c = 0).
Proof.
  intros c L. split; [|intros ->; reflexivity]. intro E. apply (f_equal be_val) in E. rewrite be_val_of_bytes in E by (unfold cn_ok in L; exact L). exact E.
Qed.
Lemma common_decode_eq : forall b m, raw_layout b m -> bytes_ok b ->
  common_decode b = if (cm_depth m =? 0) && negb (str_eqb (cm_parent m) (repeat 0 4)) then Err NonZeroParent
    else if (cm_depth m =? 0) && negb (str_eqb (be_bytes 4 (cm_child m)) (repeat 0 4)) then Err NonZeroChild else Ok m.
Proof.
  intros b m RL O. assert (L : lenN b = 78).
  { destruct RL as (-> & A1 & A2 & A3 & A4 & A5). rewrite !lenN_app, A1, A2, A3, A4. destruct (cn_len (cm_child m)) as [-> _]. reflexivity. }
  destruct (layout_ex b O L) as (m' & R' & E). now rewrite (layout_fun b m m' RL R').
Qed.
Lemma common_decode_ok : forall b m, bytes_ok b -> (common_decode b = Ok m <-> raw_layout b m /\ (cm_depth m = 0 -> cm_parent m = repeat 0 4 /\ cm_child m = 0)).
Proof.
  intros b m O. split.
  - intro E. destruct (N.eqb_spec (lenN b) 78) as [L|NL]; [|unfold common_decode in E; rewrite (proj2 (N.eqb_neq _ _) NL) in E; discriminate].
    destruct (layout_ex b O L) as (m' & R & E'). rewrite E' in E. destruct ((cm_depth m' =? 0) && negb (str_eqb (cm_parent m') (repeat 0 4))) eqn:C1; [discriminate|].
    destruct ((cm_depth m' =? 0) && negb (str_eqb (be_bytes 4 (cm_child m')) (repeat 0 4))) eqn:C2; [discriminate|]. assert (m' = m) as -> by congruence. split; [exact R|].
    intro D. rewrite D in C1, C2. cbn [N.eqb andb] in C1, C2. apply negb_false_iff, str_eqb_eq in C1. apply negb_false_iff, str_eqb_eq in C2. split; [exact C1|].
    apply zero_child; [apply R|exact C2].
  - intros [R M]. rewrite (common_decode_eq b m R O). destruct (N.eqb_spec (cm_depth m) 0) as [D|]; [|reflexivity]. destruct (M D) as [-> ->]. reflexivity.
Qed.
Lemma version_kind_ok : forall f v n, f NMain <> f NTest -> (version_kind f v = Some n <-> v = f n).
Proof.
  intros f v n NE. unfold version_kind. destruct (str_eqb v (f NMain)) eqn:E1; [apply str_eqb_eq in E1; subst|].
  - destruct n; split; intro H; try reflexivity; try discriminate. congruence.
  - destruct (str_eqb v (f NTest)) eqn:E2; [apply str_eqb_eq in E2; subst|].
    + destruct n; split; intro H; try reflexivity; try discriminate. congruence.
    + split; [discriminate|]. intros ->. destruct n; [rewrite (proj2 (str_eqb_eq _ _) eq_refl) in E1|rewrite (proj2 (str_eqb_eq _ _) eq_refl) in E2]; discriminate.
Qed.
Lemma private_ne : version_private NMain <> version_private NTest. Proof. discriminate. Qed.
Lemma public_ne : version_public NMain <> version_public NTest. Proof. discriminate. Qed.
Section Codec.
  Variable C : ecurve.
  Hypothesis OKC : ecurve_ok C.
  Lemma sk_from_bytes_ok : forall b k, bytes_ok b -> lenN b = 32 -> (sk_from_bytes C b = Some k <-> b = be_bytes 32 k /\ 0 < k < ec_order C).
  Proof.
    intros b k O L. unfold sk_from_bytes. pose proof (order_256 C OKC) as O256. split.
    - destruct (N.ltb_spec 0 (be_val b)); [|discriminate]. destruct (N.ltb_spec (be_val b) (ec_order C)); [|discriminate]. cbn [andb]. intro E. assert (k = be_val b) as -> by congruence.
      split; [|lia]. symmetry. apply be_bytes_of_val; auto. now apply length_lenN.
    - intros [-> K]. rewrite be_val_of_bytes by (change (256 ^ N.of_nat 32) with (2 ^ 256); lia). rewrite (proj2 (N.ltb_lt _ _)), (proj2 (N.ltb_lt _ _)) by lia. reflexivity.
  Qed.
  Lemma priv_layout : forall x, xpriv_ok C x -> raw_layout (priv_bytes x) (mk_common (version_private (s_net x)) (s_depth x) (s_parent x) (s_child x) (s_chain x) (0 :: be_bytes 32 (s_key x))).
  Proof.
    intros x (DX & LP & OP & CX & KX & LC & OCH). unfold raw_layout. cbn [cm_net cm_depth cm_parent cm_child cm_chain cm_key]. destruct (version_len (s_net x)) as (LV & _).
    destruct (sk_len (s_key x)) as [L32 _]. unfold sk_bytes in L32. rewrite lenN_cons, L32. repeat split; auto.
  Qed.
  Lemma pub_layout : forall x, xpub_ok C x -> raw_layout (pub_bytes C x) (mk_common (version_public (p_net C x)) (p_depth C x) (p_parent C x) (p_child C x) (p_chain C x) (ec_ser C (p_key C x))).
  Proof.
    intros x (DX & LP & OP & CX & LC & OCH). unfold raw_layout. cbn [cm_net cm_depth cm_parent cm_child cm_chain cm_key]. destruct (version_len (p_net C x)) as (_ & LV & _).
    destruct (ser_33 C OKC (p_key C x)) as [L33 _]. rewrite L33. repeat split; auto.
  Qed.
  Lemma layout_bytes : forall b m, bytes_ok b -> raw_layout b m -> bytes_ok (cm_parent m) /\ bytes_ok (cm_chain m) /\ bytes_ok (cm_key m) /\ cm_depth m < 256.
  Proof.
    intros b m O (E & A1 & A2 & A3 & A4 & A5). rewrite E in O. apply bytes_ok_app in O as [_ O]. apply bytes_ok_app in O as [OD O]. apply bytes_ok_app in O as [OP O]. apply bytes_ok_app in O as [_ O].
    apply bytes_ok_app in O as [OC OK]. inv OD. auto.
  Qed.
  Lemma priv_decode_ok : forall b x, bytes_ok b -> (xpriv_decode C b = Ok x <-> b = priv_bytes x /\ xpriv_ok C x /\ priv_master_rule x).
  Proof.
    intros b x O. unfold xpriv_decode. split.
    - destruct (common_decode b) as [m|] eqn:E; [|discriminate]. apply (common_decode_ok b m O) in E as [R M]. destruct (version_kind version_private (cm_net m)) as [n|] eqn:V; [|discriminate].
      apply (version_kind_ok _ _ _ private_ne) in V. destruct (layout_bytes b m O R) as (OP & OC & OK & D). destruct R as (EB & A1 & A2 & A3 & A4 & A5).
      pose proof (hd_split (cm_key m) ltac:(lia)) as HK. destruct (N.eqb_spec (hd 0 (cm_key m)) 0) as [Z|]; [|discriminate]. cbn [negb].
      destruct (sk_from_bytes C (dropN 1 (cm_key m))) as [k|] eqn:K; [|discriminate]. apply sk_from_bytes_ok in K as [K KR]; [|now apply dropN_ok'|rewrite lenN_dropN, A4; reflexivity].
      intro X. assert (x = mk_xpriv n (cm_depth m) (cm_parent m) (cm_child m) k (cm_chain m)) as -> by congruence. split; [|split].
      + rewrite EB. unfold priv_bytes. cbn [s_net s_depth s_parent s_child s_key s_chain]. rewrite HK, Z, K, V. reflexivity.
      + unfold xpriv_ok. cbn [s_net s_depth s_parent s_child s_key s_chain]. auto 10.
      + unfold priv_master_rule. cbn [s_depth s_parent s_child]. exact M.
    - intros (-> & OX & MX). rewrite (proj2 (common_decode_ok _ _ O) (conj (priv_layout x OX) MX)). cbn [cm_net cm_depth cm_parent cm_child cm_chain cm_key hd].
      rewrite (proj2 (version_kind_ok version_private _ (s_net x) private_ne) eq_refl). cbn [N.eqb negb].
      change (dropN 1 (0 :: be_bytes 32 (s_key x))) with (be_bytes 32 (s_key x)). rewrite (proj2 (sk_from_bytes_ok (be_bytes 32 (s_key x)) (s_key x) (be_bytes_ok _ _) (be_bytes_len _ _))).
      + destruct x; reflexivity.
      + split; [reflexivity|]. apply OX.
  Qed.
  Lemma pub_decode_ok : forall b x, bytes_ok b -> (xpub_decode C b = Ok x <-> b = pub_bytes C x /\ xpub_ok C x /\ pub_master_rule C x).
  Proof.
    intros b x O. unfold xpub_decode. split.
    - destruct (common_decode b) as [m|] eqn:E; [|discriminate]. apply (common_decode_ok b m O) in E as [R M]. destruct (version_kind version_public (cm_net m)) as [n|] eqn:V; [|discriminate].
      apply (version_kind_ok _ _ _ public_ne) in V. destruct (layout_bytes b m O R) as (OP & OC & OK & D). destruct R as (EB & A1 & A2 & A3 & A4 & A5).
      destruct (ec_parse C (cm_key m)) as [k|] eqn:K; [|discriminate]. apply (parse_ser C OKC) in K; [|exact A4].
      intro X. assert (x = mk_xpub C n (cm_depth m) (cm_parent m) (cm_child m) k (cm_chain m)) as -> by congruence. split; [|split].
      + rewrite EB. unfold pub_bytes. cbn [p_net p_depth p_parent p_child p_key p_chain]. rewrite K, V. reflexivity.
      + unfold xpub_ok. cbn [p_net p_depth p_parent p_child p_key p_chain]. auto 10.
      + unfold pub_master_rule. cbn [p_depth p_parent p_child]. exact M.
    - intros (-> & OX & MX). rewrite (proj2 (common_decode_ok _ _ O) (conj (pub_layout x OX) MX)). cbn [cm_net cm_depth cm_parent cm_child cm_chain cm_key].
      rewrite (proj2 (version_kind_ok version_public _ (p_net C x) public_ne) eq_refl). rewrite (proj2 (parse_ser C OKC _ (p_key C x) (proj1 (ser_33 C OKC _))) eq_refl). destruct x; reflexivity.
  Qed.
End Codec.

(** * The text *)
Lemma number_app : forall b l m, number b (l ++ m) = number b l * b ^ lenN m + number b m.
Proof. intros b l m. rewrite !number_dval, rev_app_distr, dval_app. unfold lenN. rewrite rev_length. lia. Qed.
Lemma number_lt : forall b l, small b l -> number b l < b ^ lenN l.
Proof. intros b l S1. rewrite number_dval. replace (lenN l) with (lenN (rev l)) by (unfold lenN; now rewrite rev_length). apply dval_lt. now apply small_rev. Qed.
Lemma number_ge : forall l, no_leading_zero l -> l <> [] -> 58 ^ (lenN l - 1) <= number 58 l.
Proof.
  intros [|d l] NZ NE; [congruence|]. unfold no_leading_zero in NZ. cbn [hd] in NZ. change (d :: l) with ([d] ++ l). rewrite number_app, lenN_app. change (lenN [d]) with 1. replace (1 + lenN l - 1) with (lenN l) by lia.
  change (number 58 [d]) with (0 * 58 + d). assert (1 * 58 ^ lenN l <= (0 * 58 + d) * 58 ^ lenN l) by (apply N.mul_le_mono_r; lia). lia.
Qed.
Lemma firstn4 : forall (l : list N), (4 <= length l)%nat -> exists a b c d m, l = [a; b; c; d] ++ m.
Proof. intros [|a [|b [|c [|d m]]]] L; cbn in L; try lia. exists a, b, c, d, m. reflexivity. Qed.
Lemma div_bounds : forall V K P Q, P <= V -> V < Q -> 0 < K -> P / K = (Q - 1) / K -> V / K = P / K.
Proof. intros V K P Q A B C E. assert (P / K <= V / K) by (apply N.div_le_mono; lia). assert (V / K <= (Q - 1) / K) by (apply N.div_le_mono; lia). lia. Qed.
Lemma text_prefix : forall v rest s k, bytes_ok (v ++ rest) -> lenN v = 4 -> lenN rest = 78 -> hd 0 v <> 0 ->
  58 ^ 110 <= be_val v * 256 ^ 78 -> (be_val v + 1) * 256 ^ 78 <= 58 ^ 111 ->
  be_val v * 256 ^ 78 / 58 ^ 107 = k -> ((be_val v + 1) * 256 ^ 78 - 1) / 58 ^ 107 = k ->
  base58 (v ++ rest) s -> lenN s = 111 /\ exists a b c d t, [a; b; c; d] ++ t = s /\ exists da db dc dd,
    digit58 a da /\ digit58 b db /\ digit58 c dc /\ digit58 d dd /\ da * 58 ^ 3 + db * 58 ^ 2 + dc * 58 + dd = k.
Proof.
  intros v rest s k OB LV LR NZ LO HI K1 K2 (z & r & ds & cs & E & OR & NR & -> & F & ND & V).
  assert (z = O) as ->. { destruct z; [reflexivity|]. destruct v; [discriminate LV|]. cbn in E. inv E. cbn in NZ. congruence. }
  cbn [repeat app] in *. subst r. assert (NV : number 256 (v ++ rest) = be_val v * 256 ^ 78 + number 256 rest).
  { rewrite number_app, LR. f_equal. f_equal. rewrite number_dval. unfold be_val. clear. induction (rev v) as [|x l IH]; [reflexivity|]. cbn [le_val dval]. rewrite IH. lia. }
  assert (BR : number 256 rest < 256 ^ 78) by (rewrite <- LR; apply number_lt, small_bytes; now apply bytes_ok_app in OB).
  rewrite NV in V. clear NV NR OR. set (W := number 58 ds) in *.
  assert (W1 : be_val v * 256 ^ 78 <= W) by lia. assert (W2 : W < (be_val v + 1) * 256 ^ 78) by lia. clear V BR.
  assert (DW : W / 58 ^ 107 = k).
  { rewrite <- K1. apply (div_bounds W (58 ^ 107) (be_val v * 256 ^ 78) ((be_val v + 1) * 256 ^ 78)); auto; [reflexivity|]. now rewrite K1, K2. }
  pose proof (forall2_small _ _ F) as SM. assert (LD : lenN ds = 111).
  { pose proof (number_lt 58 ds SM) as L1. fold W in L1. assert (ds <> []) by (intros ->; change W with 0 in W1; lia). pose proof (number_ge ds ND H) as L2. fold W in L2.
    assert (A : 58 ^ (lenN ds - 1) < 58 ^ 111) by lia. assert (B : 58 ^ 110 < 58 ^ lenN ds) by lia.
    apply N.pow_lt_mono_r_iff in A; [|reflexivity]. apply N.pow_lt_mono_r_iff in B; [|reflexivity]. lia. }
  assert (LS : lenN cs = 111) by (rewrite <- LD; apply same_len; now apply forall2_len in F). split; [exact LS|].
  destruct (firstn4 cs) as (a & b & c & d & t & ->). { unfold lenN in LS. lia. }
  exists a, b, c, d, t. split; [reflexivity|]. apply forall2_app_inv in F as (l1 & l2 & -> & F1 & F2).
  clear K1 K2. inversion F1 as [|? da ? l1' Da F1']; subst. inversion F1' as [|? db ? l2' Db F2']; subst. inversion F2' as [|? dc ? l3' Dc F3']; subst. inversion F3' as [|? dd ? l4' Dd F4']; subst. inversion F4'; subst.
  exists da, db, dc, dd. repeat (split; [assumption|]). pose proof (number_app 58 [da; db; dc; dd] l2) as EW. assert (L2 : lenN l2 = 107) by (rewrite lenN_app in LD; change (lenN [da; db; dc; dd]) with 4 in LD; lia).
  assert (S2 : small 58 l2) by now apply forall2_small in F2. pose proof (number_lt 58 l2 S2) as B2. rewrite L2 in *.
  match goal with |- ?g = ?r => assert (r = number 58 ([da; db; dc; dd] ++ l2) / 58 ^ 107) as -> by reflexivity end. rewrite EW.
  rewrite N.div_add_l by discriminate. rewrite (N.div_small (number 58 l2)) by exact B2. change (number 58 [da; db; dc; dd]) with ((((0 * 58 + da) * 58 + db) * 58 + dc) * 58 + dd).
  change (58 ^ 3) with 195112. change (58 ^ 2) with 3364. lia.
Qed.
