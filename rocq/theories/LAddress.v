(** Lemmas about the texts of addresses. *)
From Coq Require Import String.
From Verif Require Import Base MDec LDec MWitness MText LText LPoly MP2p LP2p2 MBip32 LBip32c MBase58 SBase58 LBase58 PBase58 SBech32 MBech32 LBech32 LBech32b MScript SScript LScript MPow MAddress SAddress LAmountText LWire.
Local Open Scope N_scope.

Lemma number_cons : forall b d l, number b (d :: l) = d * b ^ lenN l + number b l.
Proof.
  intros b d l. rewrite !number_dval. cbn [rev]. rewrite dval_app. assert (lenN (rev l) = lenN l) as -> by (apply same_len, rev_length). cbn [dval]. rewrite N.mul_0_r, N.add_0_r. lia.
Qed.
Lemma number_lt : forall b l, LBase58.small b l -> number b l < b ^ lenN l.
Proof. intros b l H. rewrite number_dval. assert (lenN l = lenN (rev l)) as -> by (symmetry; apply same_len, rev_length). apply dval_lt, small_rev, H. Qed.
(** the length and first digit of a number in a known range *)
Lemma digits_range : forall n ds lo hi X, LBase58.small 58 ds -> no_leading_zero ds -> number 58 ds = X -> 1 <= lo -> hi <= 58 -> lo * 58 ^ n <= X -> X < hi * 58 ^ n ->
  exists d ds', ds = d :: ds' /\ lo <= d < hi /\ lenN ds = n + 1.
Proof.
  intros n ds lo hi X S ND V L1 H58 LO HI. destruct ds as [|d ds'].
  { cbn in V. subst X. assert (1 <= 58 ^ n) by (apply N.lt_pred_le, N.neq_0_lt_0, N.pow_nonzero; lia). exfalso. nia. }
  exists d, ds'. split; [reflexivity|]. pose proof (number_lt 58 _ S) as UP. unfold no_leading_zero in ND. cbn [hd] in ND. inversion S as [|? ? D S']; subst. pose proof (number_lt 58 ds' S') as UP'.
  rewrite number_cons in *. rewrite lenN_cons in *.
  assert (E : lenN ds' = n).
  { destruct (N.lt_trichotomy (lenN ds') n) as [C|[C|C]]; [exfalso|exact C|exfalso].
    - assert (58 ^ (1 + lenN ds') <= 58 ^ n) by (apply N.pow_le_mono_r; lia). nia.
    - assert (P : 58 ^ (1 + n) <= 58 ^ lenN ds') by (apply N.pow_le_mono_r; lia). rewrite N.pow_add_r, N.pow_1_r in P. nia. }
  rewrite E in *. split; [|lia]. assert (0 < 58 ^ n) by (apply N.neq_0_lt_0, N.pow_nonzero; lia). set (P := 58 ^ n) in *. clearbody P. nia.
Qed.
Lemma base58_range : forall n x d s lo hi, base58 (x :: d) s -> x <> 0 -> 1 <= lo -> hi <= 58 -> lo * 58 ^ n <= x * 256 ^ lenN d -> (x + 1) * 256 ^ lenN d <= hi * 58 ^ n ->
  exists c v s', s = c :: s' /\ digit58 c v /\ lo <= v < hi /\ lenN s = n + 1.
Proof.
  intros n x d s lo hi B NZ L1 H58 LO HI. pose proof (base58_bytes _ _ B) as OK. destruct B as (z & r & ds & cs & E & OR & NR & -> & F & ND & V). destruct z as [|z]; [|cbn [repeat app] in E; congruence].
  cbn [repeat app] in *. subst r. assert (UP : number 256 d < 256 ^ lenN d) by (apply number_lt, small_bytes; inversion OK; assumption).
  rewrite number_cons in V. destruct (digits_range n ds lo hi _ (forall2_small _ _ F) ND (eq_sym V) L1 H58) as (v & ds' & -> & R & L); [lia|lia|].
  inversion F as [|c ? cs' ? C F']; subst. exists c, v, cs'. split; [reflexivity|]. split; [exact C|]. split; [exact R|]. rewrite <- L. apply same_len. apply (forall2_len _ _ _ _ _ F).
Qed.
Lemma base58_zero : forall d s, base58 (0 :: d) s -> exists s', s = 49 :: s' /\ base58 d s'.
Proof.
  intros d s (z & r & ds & cs & E & OR & NR & -> & F & ND & V). destruct z as [|z].
  - cbn [repeat app] in E. subst r. unfold no_leading_zero in NR. cbn [hd] in NR. congruence.
  - cbn [repeat app] in *. injection E as E. exists (repeat 49 z ++ cs). split; [reflexivity|]. exists z, r, ds, cs. auto 8.
Qed.
Lemma base58_ascii : forall d s, base58 d s -> Forall (fun c => c < 128) s.
Proof.
  intros d s B. apply base58_good in B. apply first_bad_none_inv in B. eapply Forall_impl; [|exact B]. intros c I.
  assert (A : forallb (fun c => c <? 128) alphabet = true) by reflexivity. rewrite forallb_forall in A. specialize (A c I). lia.
Qed.
(** a text whose bytes are ASCII is its bytes *)
Lemma utf8_high : forall c, Forall (fun b => b < 128) (char_utf8 c) -> c < 128.
Proof.
  intros c F. unfold char_utf8 in F. destruct (c <? 128) eqn:E; [lia|exfalso].
  destruct (c <? 2048); [|destruct (c <? 65536)]; apply Forall_inv in F; cbv beta in F; revert F; apply N.le_ngt; lia.
Qed.
Lemma bytes_ascii : forall s, Forall (fun b => b < 128) (as_bytes s) -> as_bytes s = s.
Proof.
  intros s F. apply ascii_bytes. unfold as_bytes in F. induction s as [|c s IH]; [constructor|]. cbn [flat_map] in F. apply Forall_app in F. destruct F as [A B]. constructor; [apply utf8_high; exact A|exact (IH B)].
Qed.
Lemma base58_as_bytes : forall d s, base58 d (as_bytes s) -> as_bytes s = s.
Proof. intros d s B. apply bytes_ascii, (base58_ascii d _ B). Qed.

Section Texts.
  Variable sha : bytes -> bytes.
  Hypothesis SHA : forall m, SWire.hash_ok (sha m).
  Lemma ck4 : forall m, lenN (firstn 4 (sha m)) = 4.
  Proof. intro m. destruct (SHA m) as [L _]. unfold lenN in *. rewrite firstn_length. lia. Qed.
  Lemma legacy_text_spec : forall v h, v < 256 -> bytes_ok h -> lenN h = 20 -> exists s, legacy_text sha v h = Ret s /\ check_text sha v h s.
  Proof.
    intros v h V OK L. unfold legacy_text. change (v :: repeat 0 20) with ([v] ++ repeat 0 (N.to_nat 20)). rewrite copy_range_last by (auto; lia). cbn [rbind]. apply C26_encode; auto.
    - constructor; auto.
    - cbn [app]. rewrite lenN_cons. lia.
    - cbn [app]. rewrite lenN_cons. lia.
  Qed.
  Lemma check_len : forall v h, lenN h = 20 -> lenN (h ++ firstn 4 (sha (v :: h))) = 24.
  Proof. intros v h L. rewrite lenN_app, L, ck4. reflexivity. Qed.
  (** the first characters *)
  Lemma check_first : forall v h s, lenN h = 20 -> check_text sha v h s ->
    (v = 0 -> exists t, s = 49 :: t) /\ (v = 5 -> lenN s = 34 /\ exists t, s = 51 :: t) /\
    (v = 111 -> lenN s = 34 /\ exists t, s = 109 :: t \/ s = 110 :: t) /\ (v = 196 -> lenN s = 35 /\ exists t, s = 50 :: t).
  Proof.
    intros v h s L B. unfold check_text in B. cbn [app] in B. pose proof (check_len v h L) as L24. split; [|split; [|split]]; intros ->.
    - apply base58_zero in B. destruct B as (t & -> & _). eauto.
    - destruct (base58_range 33 _ _ _ 2 3 B) as (c & x & t & -> & D & R & LN); try rewrite L24; try (vm_compute; discriminate). split; [exact LN|]. exists t. assert (x = 2) as -> by lia. cbv in D. congruence.
    - destruct (base58_range 33 _ _ _ 44 46 B) as (c & x & t & -> & D & R & LN); try rewrite L24; try (vm_compute; discriminate). split; [exact LN|]. exists t. assert (x = 44 \/ x = 45) as [-> | ->] by lia; cbv in D; [left|right]; congruence.
    - destruct (base58_range 34 _ _ _ 1 2 B) as (c & x & t & -> & D & R & LN); try rewrite L24; try (vm_compute; discriminate). split; [exact LN|]. exists t. assert (x = 1) as -> by lia. cbv in D. congruence.
  Qed.
  Lemma zero_len : forall d s, base58 (0 :: d) s -> lenN d = 24 -> lenN s <= 34.
  Proof.
    intros d s B L. destruct B as (z & r & ds & cs & E & OR & NR & -> & F & ND & V).
    assert (LZ : N.of_nat z + lenN r = 25) by (apply (f_equal lenN) in E; rewrite lenN_app, repeat_lenN, lenN_cons, L in E; lia).
    assert (Z1 : (1 <= z)%nat). { destruct z; [|lia]. cbn [repeat app] in E. subst r. unfold no_leading_zero in NR. cbn [hd] in NR. congruence. }
    rewrite lenN_app, repeat_lenN. assert (lenN cs = lenN ds) as -> by (apply same_len, (forall2_len _ _ _ _ _ F)).
    destruct ds as [|d0 ds']; [change (lenN (@nil N)) with 0; lia|]. pose proof (number_lt 256 r (proj1 (small_bytes r) OR)) as UP. rewrite V, number_cons in UP. unfold no_leading_zero in ND. cbn [hd] in ND.
    apply N.nlt_ge. intro X. rewrite lenN_cons in *. assert (P1 : 58 ^ lenN ds' < 256 ^ lenN r) by nia.
    assert (LR : lenN r <= 24) by lia.
    assert (T : 256 ^ lenN r <= 58 ^ (lenN r + 9)).
    { clear - LR. assert (C : forallb (fun n => 256 ^ n <=? 58 ^ (n + 9)) (map N.of_nat (seq 0 25)) = true) by (vm_compute; reflexivity).
      rewrite forallb_forall in C. apply N.leb_le, C. apply in_map_iff. exists (N.to_nat (lenN r)). split; [lia|]. apply in_seq. lia. }
    assert (58 ^ (lenN r + 9) <= 58 ^ lenN ds') by (apply N.pow_le_mono_r; lia). lia.
  Qed.
  Lemma check_50 : forall v h s, lenN h = 20 -> check_text sha v h s -> In v [0; 5; 111; 196] -> lenN s <= 35.
  Proof.
    intros v h s L B I. destruct (check_first v h s L B) as (A0 & A5 & A111 & A196). destruct I as [<-|[<-|[<-|[<-|[]]]]].
    - unfold check_text in B. cbn [app] in *. pose proof (zero_len _ s B (check_len 0 h L)). lia.
    - destruct (A5 eq_refl). lia.
    - destruct (A111 eq_refl). lia.
    - destruct (A196 eq_refl). lia.
  Qed.
  (** Base58Check addresses *)
  Definition version_of (a : address) : N := match a with AP2pkh _ NMain => 0 | AP2sh _ NMain => 5 | AP2pkh _ NTest => 111 | AP2sh _ NTest => 196 | _ => 0 end.
  Lemma legacy_text_iff : forall a s, ~ is_segwit a -> (address_text sha a s <-> check_text sha (version_of a) (payload a) s).
  Proof. intros [h []|h []|p k] s NS; cbn [address_text version_of payload]; try reflexivity. destruct NS. exact I. Qed.
  Lemma from_base58_spec : forall s, from_base58_str sha s <> Panic /\ forall a, from_base58_str sha s = Ret (Ok a) <-> address_ok a /\ ~ is_segwit a /\ address_text sha a s.
  Proof.
    intro s. assert (CASE : from_base58_str sha s = Ret (Err (TooLongAddress (lenN (as_bytes s)))) /\ 50 < lenN (as_bytes s) \/
      lenN (as_bytes s) <= 50 /\ ((exists e, from_base58_str sha s = Ret (Err (B58Decode e)) /\ forall p, decode_check_to_array sha 21 (as_bytes s) <> Ret (Ok p)) \/
      exists v h, lenN h = 20 /\ decode_check_to_array sha 21 (as_bytes s) = Ret (Ok (v :: h)) /\ from_base58_str sha s =
        Ret (if v =? 0 then Ok (AP2pkh h NMain) else if v =? 111 then Ok (AP2pkh h NTest) else if v =? 5 then Ok (AP2sh h NMain) else if v =? 196 then Ok (AP2sh h NTest) else Err (InvalidLegacyPrefix v)))).
    { unfold from_base58_str. destruct (50 <? lenN (as_bytes s)) eqn:L; [left; split; [reflexivity|lia]|right; split; [lia|]].
      destruct (C26_array sha 21 (as_bytes s) SHA) as [NP A]. destruct (decode_check_to_array sha 21 (as_bytes s)) as [[p|e]|] eqn:D; [|left; exists e; split; [reflexivity|discriminate]|congruence].
      right. destruct (proj1 (A p) eq_refl) as (_ & LP & _). destruct p as [|v h]; [discriminate|]. exists v, h. rewrite lenN_cons in LP. split; [lia|]. split; reflexivity. }
    assert (DEC : forall p, decode_check_to_array sha 21 (as_bytes s) = Ret (Ok p) <-> lenN p = 21 /\ base58 (p ++ firstn 4 (sha p)) s).
    { intro p. destruct (C26_array sha 21 (as_bytes s) SHA) as [_ A]. rewrite (A p), C26_decode by exact SHA. split.
      - intros (_ & L & B). split; [exact L|]. rewrite <- (base58_as_bytes _ _ B) . exact B.
      - intros [L B]. rewrite (ascii_bytes s) by (apply (base58_ascii _ _ B)). split; [lia|]. split; [exact L|exact B]. }
    assert (BACK : forall a, address_ok a -> ~ is_segwit a -> address_text sha a s -> lenN (as_bytes s) <= 35 /\ decode_check_to_array sha 21 (as_bytes s) = Ret (Ok (version_of a :: payload a))).
    { intros a OK NS T. apply legacy_text_iff in T; [|exact NS]. assert (L20 : lenN (payload a) = 20) by (destruct a; [apply OK|apply OK|destruct NS; exact I]). split.
      - rewrite (ascii_bytes s) by (apply (base58_ascii _ _ T)). apply (check_50 _ _ _ L20 T). destruct a as [h []|h []|p k]; cbn; auto; auto 6; destruct NS; exact I.
      - apply DEC. split; [rewrite lenN_cons; lia|exact T]. }
    destruct CASE as [[E LL]|[LL [(e & E & ND)|(v & h & L20 & D & E)]]].
    - rewrite E. split; [discriminate|]. intro a. split; [discriminate|]. intros (OK & NS & T). destruct (BACK a OK NS T) as [L _]. lia.
    - rewrite E. split; [discriminate|]. intro a. split; [discriminate|]. intros (OK & NS & T). destruct (BACK a OK NS T) as [_ D]. destruct (ND _ D).
    - rewrite E. split; [discriminate|]. pose proof (proj1 (DEC _) D) as [_ B]. assert (OKH : bytes_ok h) by (apply base58_bytes in B; cbn [app] in B; inversion B; subst; match goal with H : bytes_ok (h ++ _) |- _ => apply bytes_ok_app in H; apply H | H : Forall _ (h ++ _) |- _ => apply bytes_ok_app in H; apply H end).
      intro a. split.
      + destruct (N.eqb_spec v 0) as [->|N0]; [intro H; injection H as <-; cbn [address_ok is_segwit address_text]; auto|].
        destruct (N.eqb_spec v 111) as [->|N1]; [intro H; injection H as <-; cbn [address_ok is_segwit address_text]; auto|].
        destruct (N.eqb_spec v 5) as [->|N2]; [intro H; injection H as <-; cbn [address_ok is_segwit address_text]; auto|].
        destruct (N.eqb_spec v 196) as [->|N3]; [intro H; injection H as <-; cbn [address_ok is_segwit address_text]; auto|discriminate].
      + intros (OK & NS & T). destruct (BACK a OK NS T) as [_ D2]. rewrite D in D2. assert (v = version_of a /\ h = payload a) as [-> ->] by (split; congruence).
        destruct a as [h' []|h' []|p k]; try reflexivity. destruct NS. exact I.
  Qed.
End Texts.
