(** Lemmas for the serde forms of text types, keys, numbers and amounts. *)
From Verif Require Import Base MText SText LText MBip32 SBip32 SBase58 LBase58 SBech32 MAddress SAddress LAddress SAmountText MSerde SSerde LSerde LSerde2 MSerde2.
From Coq Require Import String Lia.
From Verif Require SSerde2 LBip158 LAmountText MAmountText MBase58 LBip32 LP2p2 MScript SScript.
Local Open Scope N_scope.
Notation flat := MSerde.flat.

Lemma r_ok_some : forall A E (r : rust (result A E)) a, r_ok r = Ret (Some a) <-> r = Ret (Ok a).
Proof. intros A E [[x|e]|] a; cbn; split; intro H; try discriminate; congruence. Qed.
Lemma text_restores : forall A E (f : str -> rust (result A E)) s a, ascii s -> lenN s < 2 ^ 64 -> f s = Ret (Ok a) -> restores (de_text f) (ser_text s) a.
Proof. intros A E f s a As L F. apply str_restores; [exact As|exact L|]. now apply r_ok_some. Qed.
Lemma text_offers : forall A E (f : str -> rust (result A E)) t v a, self t (de_text f) v = Ret (Some a) <-> exists s, v = SvStr s /\ f s = Ret (Ok a).
Proof.
  intros. unfold de_text. rewrite str_offers. split.
  - intros (s & [->|[X _]] & K); [|discriminate]. exists s. split; [reflexivity|]. now apply r_ok_some.
  - intros (s & -> & K). exists s. split; [now left|]. now apply r_ok_some.
Qed.
Lemma text_safe : forall A E (f : str -> rust (result A E)), (forall s, f s <> Panic) -> safe (de_text f).
Proof. intros A E f F. apply str_safe. intro s. now apply r_ok_safe. Qed.

(** ** Texts are ASCII *)
Lemma ascii_of : forall s, is_ascii s = true <-> ascii s.
Proof. intro s. unfold is_ascii, ascii. rewrite forallb_forall, Forall_forall. split; intros H x I; specialize (H x I); apply N.ltb_lt; exact H. Qed.
Lemma ascii_app : forall a b, ascii (a ++ b) <-> ascii a /\ ascii b.
Proof. intros. unfold ascii. apply Forall_app. Qed.
Lemma ascii_upper : forall s, ascii s -> ascii (upper s) .
Proof. intros s A. unfold upper, ascii in *. apply Forall_map. eapply Forall_impl; [|exact A]. intros c L. cbn beta. destruct ((97 <=? c) && (c <=? 122)) eqn:E; [|exact L]. lia. Qed.
Lemma upper_len : forall s, lenN (upper s) = lenN s.
Proof. intro s. unfold upper, lenN. now rewrite map_length. Qed.
Lemma flat_bits_len : forall k (l : list N), List.length (flat_map (SBip158.bits_of k) l) = (k * List.length l)%nat.
Proof. intros k l. induction l as [|x l IH]; [cbn; lia|]. cbn [flat_map List.length]. rewrite app_length, LBip158.bits_len, IH. lia. Qed.
Lemma segwit_text_ascii : forall hrp v p s, ascii hrp -> lenN hrp <= 4 -> lenN p <= 40 -> segwit_text hrp v p s -> ascii s /\ lenN s <= 90.
Proof.
  intros hrp v p s Ah Lh Lp (g & check & chars & V & [G (pad & Pd & E)] & Lc & Fc & _ & F & ->). split.
  - apply ascii_app. split; [exact Ah|]. apply ascii_app. split; [repeat constructor|].
    clear - F. induction F as [|c w cs ws [_ S] F IH]; constructor; [|exact IH].
    assert (A : forallb (fun c => c <? 128) SBech32.charset = true) by reflexivity. rewrite forallb_forall in A. apply N.ltb_lt. apply A. eapply nth_error_In. exact S.
  - apply (f_equal (@List.length bool)) in E. rewrite app_length, !flat_bits_len, repeat_length in E.
    apply LText.Forall2_lenN in F. rewrite !lenN_app. unfold str in *. rewrite F, lenN_cons, lenN_app. change (lenN (lit "1")) with 1. unfold lenN in *. lia.
Qed.
Lemma address_text_ascii : forall sha256d a s, (forall m, SWire.hash_ok (sha256d m)) -> address_ok a -> address_text sha256d a s -> ascii s /\ lenN s <= 128.
Proof.
  intros sha a s SHA OK T.
  assert (CK : forall v h, lenN h = 20 -> check_text sha v h s -> ascii s /\ lenN s <= 128).
  { intros v h L B. split; [exact (base58_ascii _ _ B)|]. apply (base58_len _ _ B). rewrite lenN_app, lenN_cons, L. pose proof (firstn_le_length 4 (sha (v :: h))). unfold lenN. lia. }
  destruct a as [h []|h []|p k]; cbn [address_text address_ok] in *; try (destruct OK as [_ L]; exact (CK _ _ L T)).
  destruct OK as [_ P]. unfold SScript.program_valid, SScript.program_ok in P.
  assert (Hh : ascii (prefix_text k) /\ lenN (prefix_text k) <= 4) by (destruct k; (split; [repeat constructor|vm_compute; discriminate])).
  destruct (segwit_text_ascii _ _ _ _ (proj1 Hh) (proj2 Hh) (proj2 (proj2 (proj1 P))) T) as [X Y]. split; [exact X|lia].
Qed.
Lemma digits_ascii : forall s n, numeral digit10 10 s n -> ascii s.
Proof. intros s n H. apply ascii_of. now apply (LText.numeral10_ascii s n). Qed.
Lemma without_ascii : forall s, ascii (without_underscores s) -> ascii s.
Proof.
  unfold without_underscores. induction s as [|c s IH]; intro A; [constructor|]. cbn [filter] in A. destruct (N.eqb_spec c 95) as [->|N95]; cbn [negb] in A.
  - constructor; [reflexivity|now apply IH].
  - inversion A; subst. constructor; [assumption|now apply IH].
Qed.
Lemma decimal_ascii : forall p s v, decimal_text p s v -> ascii s.
Proof.
  intros p s v (_ & _ & ip & fp & n & m & H & D1 & D2 & _). apply without_ascii.
  assert (X : forall t k, digits_or_empty t k -> ascii t) by (intros t k [[-> _]|K]; [constructor|now apply (digits_ascii t k)]).
  destruct H as [->|[-> _]]; [|now apply (X ip n)]. apply ascii_app. split; [now apply (X ip n)|]. constructor; [reflexivity|now apply (X fp m)].
Qed.
Lemma btc_text_ascii : forall s a, signed_text MAmountText.Bitcoin s a -> ascii s.
Proof. intros s a [(v & T & _)|(t & v & -> & T & _)]; cbn [amount_text] in T; [exact (decimal_ascii _ s v T)|]. constructor; [reflexivity|exact (decimal_ascii _ t v T)]. Qed.

(** ** Paths *)
Lemma cn_text : forall c, c < 2 ^ 32 -> ascii (cn_display false c) /\ lenN (cn_display false c) <= 11.
Proof.
  intros c L. unfold cn_display. assert (I : cn_index c < 2 ^ 31) by (rewrite LBip32.cn_index_mod; apply N.mod_lt; discriminate).
  split.
  - apply ascii_app. split; [destruct (fmt_u_canonical (cn_index c)) as [T _]; now apply (digits_ascii _ (cn_index c))|]. destruct (is_hardened c); repeat constructor.
  - rewrite lenN_app. pose proof (fmt_u_len (cn_index c) 10 ltac:(change (10 ^ 10) with 10000000000; change (2 ^ 31) with 2147483648 in I; lia) ltac:(lia)) as F. destruct (is_hardened c); [change (lenN (lit "'")) with 1|change (lenN []) with 0]; lia.
Qed.

Lemma rel_fold : forall p acc, Forall (fun c => c < 2 ^ 32) p -> ascii acc ->
  ascii (fold_left (fun out c => out ++ lit "/" ++ cn_display false c) p acc) /\ lenN (fold_left (fun out c => out ++ lit "/" ++ cn_display false c) p acc) <= lenN acc + 12 * lenN p.
Proof.
  induction p as [|c p IH]; intros acc F A; cbn [fold_left]; [rewrite lenN_nil; split; [exact A|lia]|].
  destruct (cn_text c (Forall_inv F)) as [CA CL].
  destruct (IH (acc ++ lit "/" ++ cn_display false c) (Forall_inv_tail F)) as [X Y].
  - apply ascii_app. split; [exact A|]. apply ascii_app. split; [repeat constructor|exact CA].
  - split; [exact X|]. rewrite !lenN_app in Y. change (lenN (lit "/")) with 1 in Y. rewrite lenN_cons. unfold str in *. lia.
Qed.
Lemma paths_ascii : forall p, Forall (fun c => c < 2 ^ 32) p ->
  (ascii (rel_display false p) /\ lenN (rel_display false p) <= 12 * lenN p) /\ (ascii (abs_display false p) /\ lenN (abs_display false p) <= 2 + 12 * lenN p).
Proof.
  intros p F. assert (R : ascii (rel_display false p) /\ lenN (rel_display false p) <= 12 * lenN p).
  { destruct p as [|c p]; [split; [constructor|cbn; lia]|]. cbn [rel_display]. destruct (cn_text c (Forall_inv F)) as [CA CL]. destruct (rel_fold p _ (Forall_inv_tail F) CA) as [X Y].
    split; [exact X|]. rewrite lenN_cons. lia. }
  split; [exact R|]. destruct R as [R1 R2]. unfold abs_display. destruct p as [|c p]; [split; [repeat constructor|vm_compute; discriminate]|]. split.
  - apply ascii_app. split; [repeat constructor|]. apply ascii_app. split; [repeat constructor|exact R1].
  - rewrite !lenN_app. change (lenN (lit "m")) with 1. change (lenN (lit "/")) with 1. unfold str in *. lia.
Qed.
Lemma arr_offers : forall A n (k : bytes -> outcome A) t v a, self t (RArr n k) v = Ret (Some a) <-> exists b, SSerde2.offers_array v b /\ lenN b = n /\ k b = Ret (Some a).
Proof.
  intros A n k t v a.
  assert (L : forall l, obind (read_all as_u8 l) (fun b => if lenN b =? n then k b else none) = Ret (Some a) <->
    exists b, Forall2 (fun x m => SSerde2.offers_uint x m /\ m < 256) l b /\ lenN b = n /\ k b = Ret (Some a)).
  { intro l. split.
    - destruct (read_all as_u8 l) as [[b|]|] eqn:E; try discriminate. cbn [obind]. intro H. destruct (N.eqb_spec (lenN b) n); [|discriminate]. exists b. split; [|auto].
      apply read_all_inv in E. eapply Forall2_impl'; [|exact E]. intros x m K. cbn beta in K. destruct x; try discriminate. cbn [as_u8] in K. destruct (N.ltb_spec n0 256); [|discriminate].
      assert (n0 = m) as -> by (unfold some in K; congruence). split; [now exists bits|assumption].
    - intros (b & F & LB & K). rewrite (read_all_back _ _ l b).
      + cbn [obind some]. rewrite LB, N.eqb_refl. exact K.
      + eapply Forall2_impl'; [|exact F]. intros x m [[w ->] M]. cbn [as_u8]. destruct (N.ltb_spec m 256); [reflexivity|lia]. }
  split.
  - intro H. assert (V : exists l, v = SvSeq l \/ v = SvTuple l) by (destruct v; try discriminate H; eauto).
    destruct V as [l V]. assert (X : obind (read_all as_u8 l) (fun b => if lenN b =? n then k b else none) = Ret (Some a)) by (destruct V; subst v; exact H).
    apply L in X as (b & F & X). exists b. split; [|exact X]. exists l. auto.
  - intros (b & (l & V & F) & X). assert (Y : exists b, Forall2 (fun x m => SSerde2.offers_uint x m /\ m < 256) l b /\ lenN b = n /\ k b = Ret (Some a)) by eauto.
    apply L in Y. destruct V; subst v; exact Y.
Qed.
Lemma int_offers : forall A (k : Z -> outcome A) t v a, self t (RInt 64 k) v = Ret (Some a) <-> exists z, SSerde2.offers_int v z /\ (- 2 ^ 63 <= z < 2 ^ 63)%Z /\ k z = Ret (Some a).
Proof.
  intros A k t v a. cbn [self]. change (2 ^ (64 - 1)) with (2 ^ 63). change (Z.of_N 64 - 1)%Z with 63%Z. split.
  - destruct v as [w n|w z| | | | | | | | ]; try discriminate.
    + destruct (N.ltb_spec n (2 ^ 63)); [|discriminate]. intro K. exists (Z.of_N n). split; [|split; [|exact K]].
      * exists w. right. eauto.
      * change (2 ^ 63) with 9223372036854775808 in *. change (2 ^ 63)%Z with 9223372036854775808%Z. lia.
    + destruct (Z.leb_spec (- 2 ^ 63) z); [|discriminate]. destruct (Z.ltb_spec z (2 ^ 63)); [|discriminate]. cbn [andb]. intro K. exists z. split; [|auto]. exists w. now left.
  - intros (z & (w & [->|(n & -> & ->)]) & R & K).
    + destruct (Z.leb_spec (- 2 ^ 63) z); [|lia]. destruct (Z.ltb_spec z (2 ^ 63)); [|lia]. exact K.
    + change (2 ^ 63) with 9223372036854775808 in *. change (2 ^ 63)%Z with 9223372036854775808%Z in *. destruct (N.ltb_spec n 9223372036854775808); [exact K|lia].
Qed.
Lemma int32_offers : forall A (k : Z -> outcome A) t v a, self t (RInt 32 k) v = Ret (Some a) <-> exists z, SSerde2.offers_int v z /\ (- 2 ^ 31 <= z < 2 ^ 31)%Z /\ k z = Ret (Some a).
Proof.
  intros A k t v a. cbn [self]. change (2 ^ (32 - 1)) with (2 ^ 31). change (Z.of_N 32 - 1)%Z with 31%Z. split.
  - destruct v as [w n|w z| | | | | | | | ]; try discriminate.
    + destruct (N.ltb_spec n (2 ^ 31)); [|discriminate]. intro K. exists (Z.of_N n). split; [|split; [|exact K]].
      * exists w. right. eauto.
      * change (2 ^ 31) with 2147483648 in *. change (2 ^ 31)%Z with 2147483648%Z. lia.
    + destruct (Z.leb_spec (- 2 ^ 31) z); [|discriminate]. destruct (Z.ltb_spec z (2 ^ 31)); [|discriminate]. cbn [andb]. intro K. exists z. split; [|auto]. exists w. now left.
  - intros (z & (w & [->|(n & -> & ->)]) & R & K).
    + destruct (Z.leb_spec (- 2 ^ 31) z); [|lia]. destruct (Z.ltb_spec z (2 ^ 31)); [|lia]. exact K.
    + change (2 ^ 31) with 2147483648 in *. change (2 ^ 31)%Z with 2147483648%Z in *. destruct (N.ltb_spec n 2147483648); [exact K|lia].
Qed.
Lemma decimal_chars : forall p s v, decimal_text p s v -> s <> [] /\ Forall (fun c => 45 <= c < 128) s.
Proof.
  intros p s v (NE & _ & ip & fp & n & m & H & D1 & D2 & _). split; [exact NE|].
  assert (W : Forall (fun c => 45 <= c < 128) (without_underscores s) -> Forall (fun c => 45 <= c < 128) s).
  { clear. unfold without_underscores. induction s as [|c s IH]; intro A; [constructor|]. cbn [filter] in A. destruct (N.eqb_spec c 95) as [->|N95]; cbn [negb] in A.
    - constructor; [split; [discriminate|reflexivity]|now apply IH].
    - inversion A; subst. constructor; [assumption|now apply IH]. }
  apply W. assert (X : forall t k, digits_or_empty t k -> Forall (fun c => 45 <= c < 128) t).
  { intros t k [[-> _]|K]; [constructor|]. apply Forall_forall. intros c I. destruct (LText.numeral_in _ _ _ _ c K I) as [d D]. unfold digit10 in D. lia. }
  destruct H as [->|[-> _]]; [|now apply (X ip n)]. apply Forall_app. split; [now apply (X ip n)|]. constructor; [split; [discriminate|reflexivity]|now apply (X fp m)].
Qed.
Lemma btc_text_chars : forall s a, signed_text MAmountText.Bitcoin s a -> s <> [] /\ Forall (fun c => 45 <= c < 128) s.
Proof.
  intros s a [(v & T & _)|(t & v & -> & T & _)]; cbn [amount_text] in T; [exact (decimal_chars _ s v T)|]. split; [discriminate|]. constructor; [split; [discriminate|reflexivity]|]. apply (decimal_chars _ t v T).
Qed.
Lemma rd_tag : forall x l, rd_uint 8 (x :: l) = some (x, l).
Proof. intros x l. unfold rd_uint. change (8 / 8) with 1. change (x :: l) with ([x] ++ l). rewrite take_exact by reflexivity. cbn [obind some le_val]. now rewrite N.mul_0_r, N.add_0_r. Qed.
