(** Lemmas for C30: Golomb-Rice codes, writing and matching filters. *)
From Coq Require Import Permutation Sorting.Sorted.
From Verif Require Import Base MDec MWitness MTx MSip MScript MBip152 SWire SSip LDec LCompact LCodec LWire PSip LBip152 MBip158 SBip158 LBip158.
Local Open Scope N_scope.

Lemma write_ones_spec : forall fuel w q wrote, w_ok w -> q <= N.of_nat fuel ->
  exists w' k, write_ones fuel w q wrote = Ok (w', wrote + k) /\ w_ok w' /\ wbits w' = wbits w ++ repeat true (N.to_nat q) /\ lenN (bw_out w') = lenN (bw_out w) + k.
Proof.
  induction fuel; intros w q wrote W F.
  - assert (q = 0) as -> by lia. exists w, 0. cbn [write_ones N.eqb N.to_nat repeat]. rewrite app_nil_r, !N.add_0_r. auto.
  - cbn [write_ones]. destruct (N.eqb_spec q 0) as [->|Nz]; [exists w, 0; cbn [N.to_nat repeat]; rewrite app_nil_r, !N.add_0_r; auto|].
    destruct (bw_write_spec w (U64 - 1) (N.min q 64) W ltac:(lia)) as (w1 & k1 & -> & W1 & X1 & L1). rewrite bits_ones in X1 by lia.
    destruct (IHfuel w1 (q - N.min q 64) (wrote + k1) W1 ltac:(lia)) as (w2 & k2 & -> & W2 & X2 & L2). exists w2, (k1 + k2). rewrite X2, X1, <- app_assoc, <- repeat_app, L2, L1.
    split; [do 2 f_equal; lia|]. split; [exact W2|]. split; [do 2 f_equal; lia|lia].
Qed.
Lemma golomb_encode_spec : forall p w n, w_ok w -> p < 64 ->
  exists w' k, golomb_rice_encode p w n = Ret (Ok (w', k)) /\ w_ok w' /\ wbits w' = wbits w ++ golomb p n /\ lenN (bw_out w') = lenN (bw_out w) + k.
Proof.
  intros p w n W P. unfold golomb_rice_encode. replace (64 <=? p) with false by lia.
  destruct (write_ones_spec (N.to_nat (N.shiftr n p)) w (N.shiftr n p) 0 W ltac:(lia)) as (w1 & k1 & -> & W1 & X1 & L1).
  destruct (bw_write_spec w1 0 1 W1 ltac:(lia)) as (w2 & k2 & -> & W2 & X2 & L2). destruct (bw_write_spec w2 n p W2 ltac:(lia)) as (w3 & k3 & -> & W3 & X3 & L3).
  exists w3, (0 + k1 + k2 + k3). split; [reflexivity|]. split; [exact W3|]. split; [|lia]. rewrite X3, X2, X1, <- !app_assoc. unfold golomb. rewrite N.shiftr_div_pow2. reflexivity.
Qed.

Lemma ones_or : forall l, (exists q y, l = repeat true q ++ false :: y) \/ l = repeat true (length l).
Proof.
  induction l as [|b l IH]; [right; reflexivity|]. destruct b; [|left; exists 0%nat, l; reflexivity]. destruct IH as [(q & y & ->)|IH]; [left; exists (S q), y; reflexivity|right; cbn [length repeat]; congruence].
Qed.
Lemma read_one : forall r b y, r_ok r -> rbits r = b :: y -> exists r', br_read r 1 = Ok (if (b : bool) then 1 else 0, r') /\ r_ok r' /\ rbits r' = y.
Proof.
  intros r b y R E. destruct (proj1 (br_read_spec r 1 R ltac:(lia)) [b] y E eq_refl) as (v & r' & -> & R' & V & B & Y). exists r'. split; [|auto].
  assert (v = if b then 1 else 0) as ->; [|reflexivity]. change (N.to_nat 1) with 1%nat in B. cbn [bits_of] in B. injection B as B. change (N.of_nat 0) with 0 in B. rewrite N.bit0_odd in B.
  assert (v = 0 \/ v = 1) as [-> | ->] by lia; cbn in B; subst b; reflexivity.
Qed.
Lemma read_ones_spec : forall q fuel r q0 y, r_ok r -> rbits r = repeat true q ++ false :: y -> (q < fuel)%nat -> q0 + N.of_nat q < 2 ^ 64 ->
  exists r', read_ones fuel r q0 = Ret (Ok (q0 + N.of_nat q, r')) /\ r_ok r' /\ rbits r' = y.
Proof.
  induction q; intros fuel r q0 y R E F Q; (destruct fuel as [|fuel]; [lia|]); cbn [read_ones repeat app] in *.
  - destruct (read_one r false y R E) as (r' & -> & R' & Y). exists r'. cbn [N.eqb]. rewrite N.add_0_r. auto.
  - destruct (read_one r true _ R E) as (r' & -> & R' & Y). cbn [N.eqb Pos.eqb]. replace (U64 <=? q0 + 1) with false by (unfold U64; lia).
    destruct (IHq fuel r' (q0 + 1) y R' Y ltac:(lia) ltac:(lia)) as (r2 & -> & R2 & Y2). exists r2. split; [do 3 f_equal; lia|auto].
Qed.
Lemma read_ones_eof : forall q fuel r q0, r_ok r -> rbits r = repeat true q -> (q < fuel)%nat -> q0 + N.of_nat q < 2 ^ 64 -> read_ones fuel r q0 = Ret (Err UnexpectedEof).
Proof.
  induction q; intros fuel r q0 R E F Q; (destruct fuel as [|fuel]; [lia|]); cbn [read_ones repeat app] in *.
  - rewrite (proj2 (br_read_spec r 1 R ltac:(lia))); [reflexivity|]. rewrite E. cbn. lia.
  - destruct (read_one r true _ R E) as (r' & -> & R' & Y). cbn [N.eqb Pos.eqb]. replace (U64 <=? q0 + 1) with false by (unfold U64; lia). apply IHq; auto; lia.
Qed.
Lemma low_part : forall n p v, v < 2 ^ p -> bits_of (N.to_nat p) v = bits_of (N.to_nat p) n -> v = n mod 2 ^ p.
Proof.
  intros n p v V B. assert (M : n mod 2 ^ p < 2 ^ p) by (apply N.mod_lt, N.pow_nonzero; lia). apply (bits_unique (N.to_nat p)); rewrite ?N2Nat.id; auto.
  rewrite B. apply bits_ext. intros i I. rewrite N.mod_pow2_bits_low by lia. reflexivity.
Qed.
Lemma golomb_decode_spec : forall p r n y, r_ok r -> p < 64 -> n < 2 ^ 64 -> rbits r = golomb p n ++ y ->
  exists r', golomb_rice_decode p r = Ret (Ok (n, r')) /\ r_ok r' /\ rbits r' = y.
Proof.
  intros p r n y R P L E. unfold golomb_rice_decode. unfold golomb in E. rewrite <- app_assoc in E. cbn [app] in E. set (q := N.to_nat (n / 2 ^ p)) in *.
  assert (Z : 2 ^ p <> 0) by (apply N.pow_nonzero; lia). assert (QL : n / 2 ^ p <= n) by (apply N.div_le_upper_bound; [exact Z|]; nia).
  assert (F : (q < S (bits_left r))%nat). { rewrite <- rbits_len, E, app_length, repeat_length. cbn [length]. lia. }
  destruct (read_ones_spec q (S (bits_left r)) r 0 _ R E F ltac:(lia)) as (r1 & -> & R1 & Y1). cbn [rbind].
  destruct (proj1 (br_read_spec r1 p R1 ltac:(lia)) _ _ Y1 ltac:(apply bits_len)) as (v & r2 & -> & R2 & V & B & Y2). replace (64 <=? p) with false by lia.
  apply low_part in B; [|exact V]. subst v. replace (0 + N.of_nat q) with (n / 2 ^ p) by lia. rewrite N.shiftl_mul_pow2.
  assert (DM : n = 2 ^ p * (n / 2 ^ p) + n mod 2 ^ p) by (apply N.div_mod; exact Z).
  assert (n / 2 ^ p * 2 ^ p mod U64 = n / 2 ^ p * 2 ^ p) as ->. { apply N.mod_small. change U64 with (2 ^ 64). lia. }
  replace (n / 2 ^ p * 2 ^ p + n mod 2 ^ p) with n by lia. replace (U64 <=? n) with false by (unfold U64; lia). exists r2. auto.
Qed.
(** On any data: the end of the data, or a value bounded by the bits used. *)
Lemma golomb_decode_total : forall p r, r_ok r -> p < 64 -> N.of_nat (bits_left r) < 2 ^ 64 ->
  golomb_rice_decode p r = Ret (Err UnexpectedEof) \/
  exists d r', golomb_rice_decode p r = Ret (Ok (d, r')) /\ r_ok r' /\ d < 2 ^ 64 /\ (bits_left r' < bits_left r)%nat /\ d + 2 ^ p * N.of_nat (bits_left r') <= 2 ^ p * N.of_nat (bits_left r).
Proof.
  intros p r R P L. unfold golomb_rice_decode. destruct (ones_or (rbits r)) as [(q & y & E)|E].
  - assert (LB : bits_left r = (q + S (length y))%nat) by (rewrite <- rbits_len, E, app_length, repeat_length; reflexivity).
    destruct (read_ones_spec q (S (bits_left r)) r 0 _ R E ltac:(lia) ltac:(lia)) as (r1 & -> & R1 & Y1). cbn [rbind].
    destruct (Nat.lt_ge_cases (length y) (N.to_nat p)) as [S1|S1].
    + rewrite (proj2 (br_read_spec r1 p R1 ltac:(lia))) by (rewrite Y1; exact S1). left. reflexivity.
    + destruct (proj1 (br_read_spec r1 p R1 ltac:(lia)) (firstn (N.to_nat p) y) (skipn (N.to_nat p) y) ltac:(rewrite firstn_skipn; exact Y1) ltac:(rewrite firstn_length; lia)) as (v & r2 & -> & R2 & V & B & Y2).
      replace (64 <=? p) with false by lia. rewrite N.shiftl_mul_pow2. right. set (q' := N.of_nat q) in *.
      assert (Z : 2 ^ p <> 0) by (apply N.pow_nonzero; lia). assert (H1 : exists t, (0 + q') * 2 ^ p mod U64 = t * 2 ^ p /\ t * 2 ^ p + 2 ^ p <= 2 ^ 64 /\ t <= q').
      { change U64 with (2 ^ 64). replace (2 ^ 64) with (2 ^ (64 - p) * 2 ^ p) by (rewrite <- N.pow_add_r; f_equal; lia). rewrite N.mul_mod_distr_r by (auto; apply N.pow_nonzero; lia).
        exists ((0 + q') mod 2 ^ (64 - p)). split; [reflexivity|]. assert (M : (0 + q') mod 2 ^ (64 - p) < 2 ^ (64 - p)) by (apply N.mod_lt, N.pow_nonzero; lia). split; [nia|]. apply N.mod_le, N.pow_nonzero. lia. }
      destruct H1 as (t & -> & T1 & T2). replace (U64 <=? t * 2 ^ p + v) with false by (change U64 with (2 ^ 64); lia). exists (t * 2 ^ p + v), r2.
      assert (L2 : (bits_left r2 <= length y)%nat) by (rewrite <- rbits_len, Y2, skipn_length; lia).
      split; [reflexivity|]. split; [exact R2|]. split; [lia|]. split; [lia|]. assert (N.of_nat (bits_left r2) + q' + 1 <= N.of_nat (bits_left r)) by lia. set (B1 := N.of_nat (bits_left r2)) in *. set (B2 := N.of_nat (bits_left r)) in *. clearbody B1 B2. clear - H T2 V. nia.
  - left. rewrite (read_ones_eof (length (rbits r)) _ r 0 R E); [reflexivity|rewrite rbits_len; lia|rewrite rbits_len; lia].
Qed.

(** ** Writing *)
Lemma encode_deltas_spec : forall p l w last wrote, p < 64 -> w_ok w -> StronglySorted N.le (last :: l) ->
  exists w' k, encode_deltas p w last l wrote = Ret (Ok (w', wrote + k)) /\ w_ok w' /\ wbits w' = wbits w ++ flat_map (golomb p) (gaps last l) /\ lenN (bw_out w') = lenN (bw_out w) + k.
Proof.
  induction l as [|d l IH]; intros w last wrote P W Sd; cbn [encode_deltas gaps flat_map].
  - exists w, 0. rewrite app_nil_r, !N.add_0_r. auto.
  - inversion Sd as [|? ? S1 S2]; subst. pose proof (Forall_inv S2) as LE. cbn beta in LE. replace (d <? last) with false by lia.
    destruct (golomb_encode_spec p w (d - last) W P) as (w1 & k1 & -> & W1 & X1 & L1). cbn [rbind]. destruct (IH w1 d (wrote + k1) P W1 S1) as (w2 & k2 & -> & W2 & X2 & L2).
    exists w2, (k1 + k2). rewrite X2, X1, <- app_assoc, L2, L1. split; [do 3 f_equal; lia|]. split; [exact W2|]. split; [reflexivity|lia].
Qed.
Lemma bytes_prefix : forall a b rest, bytes_ok a -> bytes_ok b -> bits_of_bytes a = bits_of_bytes b ++ rest -> exists c, a = b ++ c /\ bytes_ok c /\ bits_of_bytes c = rest.
Proof.
  intros a b. revert a. induction b as [|y b IH]; intros a rest A B E; [exists a; auto|]. destruct a as [|x a]; [discriminate|].
  unfold bits_of_bytes in E. cbn [flat_map] in E. rewrite <- app_assoc in E.
  assert (E1 := f_equal (firstn 8) E). assert (E2 := f_equal (skipn 8) E). rewrite !firstn_app, !bits_len in E1. change (8 - 8)%nat with 0%nat in E1. rewrite !firstn_O, !app_nil_r in E1. rewrite !firstn_all2 in E1 by (rewrite bits_len; lia).
  rewrite !skipn_app, !bits_len in E2. change (8 - 8)%nat with 0%nat in E2. rewrite !skipn_O in E2. rewrite !skipn_all2 in E2 by (rewrite bits_len; lia). cbn [app] in E2.
  pose proof (Forall_inv A) as A1. pose proof (Forall_inv B) as B1. unfold byte_ok in A1, B1. apply bits_unique in E1; [|exact A1|exact B1]. subst y.
  destruct (IH a rest (Forall_inv_tail A) (Forall_inv_tail B) E2) as (c & -> & C & D). exists c. auto.
Qed.
Lemma bits_bytes_len : forall l, length (bits_of_bytes l) = (8 * length l)%nat.
Proof. induction l as [|b l IH]; [reflexivity|]. unfold bits_of_bytes in *. cbn [flat_map length]. rewrite app_length, bits_len, IH. lia. Qed.
Lemma sorted_zero : forall l, StronglySorted N.le l -> StronglySorted N.le (0 :: l).
Proof. intros l L. constructor; [exact L|]. apply Forall_forall. intros. lia. Qed.

Definition gcs_ok (g : gcs) : Prop := g_k0 g < 2 ^ 64 /\ g_k1 g < 2 ^ 64 /\ g_p g < 64.
Lemma slot_lt : forall k0 k1 nm e, k0 < 2 ^ 64 -> k1 < 2 ^ 64 -> element_ok e -> nm < 2 ^ 64 -> slot k0 k1 nm e < 2 ^ 64.
Proof.
  intros k0 k1 nm e K0 K1 [B L] Nm. unfold slot. pose proof (C38_range k0 k1 e K0 K1 B L) as R. apply N.div_lt_upper_bound; [lia|]. apply N.mul_lt_mono; assumption.
Qed.
Lemma map_elements_spec : forall g nm l, g_k0 g < 2 ^ 64 -> g_k1 g < 2 ^ 64 -> nm < 2 ^ 64 -> Forall element_ok l -> map_elements g nm l = Ret (map (slot (g_k0 g) (g_k1 g) nm) l).
Proof.
  intros g nm l K0 K1 Nm F. induction F as [|e l Oe F IH]; [reflexivity|]. cbn [map_elements map]. unfold gcs_hash. rewrite (proj1 (C38_at_once _ _ e K0 K1 (proj1 Oe) (proj2 Oe))). cbn [rbind]. rewrite IH. cbn [rbind].
  do 2 f_equal. unfold map_to_range. rewrite N.shiftr_div_pow2. fold (slot (g_k0 g) (g_k1 g) nm e). apply N.mod_small. change U64 with (2 ^ 64). apply slot_lt; auto.
Qed.
Lemma finish_spec : forall g els out, gcs_ok g -> bytes_ok out -> Forall element_ok els -> lenN els < 2 ^ 64 -> lenN els * g_m g < 2 ^ 64 ->
  exists content, gcs_finish g els out = Ret (Ok (out ++ content, lenN content)) /\ is_filter (g_k0 g) (g_k1 g) (g_m g) (g_p g) els content.
Proof.
  intros g els out (K0 & K1 & P) O F Ln Nm. unfold gcs_finish. replace (U64 <=? lenN els * g_m g) with false by (change U64 with (2 ^ 64); lia). rewrite map_elements_spec by auto. cbn [rbind].
  set (mapped := map _ els). assert (LM : lenN mapped = lenN els) by (unfold mapped, lenN; now rewrite map_length). rewrite LM.
  assert (CO : bytes_ok (cs_encode (lenN els))) by (apply cs_encode_ok; exact Ln).
  destruct (writer_new_ok (out ++ cs_encode (lenN els))) as [W0 X0]; [apply Forall_app; auto|].
  destruct (encode_deltas_spec (g_p g) (sort_n mapped) (writer_new (out ++ cs_encode (lenN els))) 0 (lenN (cs_encode (lenN els))) P W0 (sorted_zero _ (sort_sorted mapped))) as (w1 & k1 & -> & W1 & X1 & L1). cbn [rbind].
  destruct W1 as (O1 & H1 & LW & B1). pose proof (flush_spec w1 ltac:(lia) H1 LW B1) as FS. destruct (bw_flush w1) as [w2 k2]. destruct FS as ((O2 & _ & _ & B2) & Z2 & X2 & L2).
  assert (Y2 : wbits w2 = bits_of_bytes (bw_out w2)) by (unfold wbits; rewrite Z2; change (N.to_nat 0) with 0%nat; cbn [bits_of]; apply app_nil_r). rewrite Y2, X1, X0, <- app_assoc in X2.
  destruct (bytes_prefix _ _ _ B2 (proj2 (Forall_app _ _ _) (conj O CO)) X2) as (body & Eb & Ob & Xb).
  exists (cs_encode (lenN els) ++ body). split.
  - do 3 f_equal; [rewrite Eb; now rewrite <- app_assoc|]. unfold writer_new in L1. cbn [bw_out] in L1. rewrite Eb, L1, !lenN_app in L2. rewrite lenN_app. lia.
  - exists (sort_n mapped), (if bw_off w1 =? 0 then 0%nat else N.to_nat (8 - bw_off w1)). split; [symmetry; apply sort_perm|]. split; [destruct (N.eqb_spec (bw_off w1) 0); lia|].
    split; [apply sort_sorted|]. split.
    + apply (Permutation_Forall (sort_perm mapped)). unfold mapped. apply Forall_forall. intros v I. apply in_map_iff in I. destruct I as (e & <- & I). apply slot_lt; auto. exact (proj1 (Forall_forall _ _) F e I).
    + exists body.
      assert (lenN (sort_n mapped) = lenN els) as -> by (rewrite <- LM; unfold lenN; now rewrite (Permutation_length (sort_perm mapped))). rewrite <- wire_compact_eq. auto.
Qed.
