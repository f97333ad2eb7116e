(** Lemmas for C63. *)
From Coq Require Import String.
From Verif Require Import Base MDec LDec LWire MText MWitness MWitness2 MTx MTxSize LTxSize SWire SWitness SWitness2 LWitness LWitness2 PWitness MScript SScript.
From Verif Require Import MSighash MBip32 MKey SKey MSig SSig LSig PSig PTx PForms MForms SForms LForms MPredict SPredict LSha2b.
Local Open Scope list_scope.
Local Open Scope N_scope.

Lemma int_len_range : forall x, x < ORDER -> 1 <= int_len x <= 33.
Proof.
  intros x H. unfold int_len. assert (N.size x <= 256).
  { destruct x as [|p]; [cbn; lia|]. rewrite N.size_log2 by discriminate. assert (N.log2 (Npos p) < 256); [|lia]. apply N.log2_lt_pow2; [reflexivity|]. apply (N.lt_trans _ ORDER); [exact H|reflexivity]. }
  lia.
Qed.
Lemma int_len_low : forall x, x < 2 ^ 255 -> int_len x <= 32.
Proof.
  intros x H. unfold int_len. assert (N.size x <= 255); [|lia].
  destruct x as [|p]; [cbn; lia|]. rewrite N.size_log2 by discriminate. assert (N.log2 (Npos p) < 255); [|lia]. apply N.log2_lt_pow2; [reflexivity|exact H].
Qed.
Lemma der_int_len : forall x, lenN (der_int x) = 2 + int_len x.
Proof. intro x. unfold der_int. rewrite !lenN_cons, be_bytes_len. lia. Qed.
Lemma der_len : forall r s, lenN (der r s) = 6 + int_len r + int_len s.
Proof. intros r s. unfold der. rewrite !lenN_cons, lenN_app, !der_int_len. lia. Qed.
Lemma der_int_ok : forall x, x < ORDER -> bytes_ok (der_int x).
Proof. intros x H. pose proof (int_len_range x H). unfold der_int. constructor; [unfold byte_ok; lia|]. constructor; [unfold byte_ok; lia|]. apply be_bytes_ok. Qed.
Lemma der_ecurve : forall E rs, der_curve E rs -> ecurve_ok E.
Proof.
  intros E rs [D B R]. split; [| |exact B]; intro s; rewrite D; destruct (R s) as [R1 R2].
  - rewrite der_len. pose proof (int_len_range _ R1). pose proof (int_len_range _ R2). lia.
  - unfold der. pose proof (int_len_range _ R1). pose proof (int_len_range _ R2). constructor; [unfold byte_ok; lia|]. constructor; [unfold byte_ok; rewrite lenN_app, !der_int_len; lia|].
    apply bytes_ok_app; split; now apply der_int_ok.
Qed.
Lemma to_vec_len : forall E rs s, der_curve E rs -> lenN (es_to_vec E s) = 7 + int_len (fst (rs (es_sig E s))) + int_len (snd (rs (es_sig E s))).
Proof. intros E rs s [D B R]. unfold es_to_vec. rewrite lenN_app, D, der_len. change (lenN [ecdsa_as_u8 (es_type E s)]) with 1. lia. Qed.
Lemma to_vec_range : forall E rs s, der_curve E rs -> 9 <= lenN (es_to_vec E s) <= 73.
Proof.
  intros E rs s D. rewrite (to_vec_len E rs s D). destruct (dc_range E rs D (es_sig E s)) as [R1 R2]. pose proof (int_len_range _ R1). pose proof (int_len_range _ R2). lia.
Qed.

(** pushes *)
Lemma push_len : forall s d, 2 <= lenN d <= 75 -> lenN (sb_push_slice s d) = lenN s + 1 + lenN d.
Proof.
  intros s d H. assert (E : sb_push_slice s d = sb_push_slice_no_opt s d).
  { unfold sb_push_slice, sb_push_slice_non_minimal. destruct d as [|b [|c d]]; [reflexivity| |reflexivity]. change (lenN [b]) with 1 in H. lia. }
  rewrite E. unfold sb_push_slice_no_opt. destruct (N.ltb_spec (lenN d) OP_PUSHDATA1) as [X|X]; [|change OP_PUSHDATA1 with 76 in X; lia].
  rewrite !lenN_app. change (lenN [as_u8 (lenN d)]) with 1. lia.
Qed.

(** predictions of short inputs *)
Lemma enc1 : forall x, x <= 252 -> iwp_encoded_size x = 1.
Proof. intros x H. unfold iwp_encoded_size. destruct (N.leb_spec x 252); [reflexivity|lia]. Qed.
Lemma sat1 : forall x, x <= 1000 -> saturate_to_u32 x = x.
Proof. intros x H. unfold saturate_to_u32, U32_MAX. destruct (N.ltb_spec 4294967295 x); lia. Qed.
Lemma sat_add1 : forall a b, a + b <= 1000 -> u32_sat_add a b = a + b.
Proof. intros a b H. unfold u32_sat_add, U32_MAX. lia. Qed.
Lemma slice0 : forall s, s <= 200 -> iwp_from_slice s [] = {| iwp_script := s + 1; iwp_witness := 0 |}.
Proof. intros s H. unfold iwp_from_slice. rewrite (enc1 s), (sat1 s), sat_add1 by lia. reflexivity. Qed.
Lemma slice1 : forall s a, s <= 200 -> a <= 200 -> iwp_from_slice s [a] = {| iwp_script := s + 1; iwp_witness := a + 2 |}.
Proof.
  intros s a H H'. unfold iwp_from_slice. cbn [iwp_total]. change (lenN [a]) with 1. rewrite (enc1 s), (sat1 s), (enc1 a), (sat1 a), (enc1 1) by lia. rewrite !sat_add1 by (rewrite ?sat_add1; rewrite ?sat_add1; lia).
  f_equal. lia.
Qed.
Lemma slice2 : forall s a b, s <= 200 -> a <= 200 -> b <= 200 -> iwp_from_slice s [a; b] = {| iwp_script := s + 1; iwp_witness := a + b + 3 |}.
Proof.
  intros s a b H H' H2. unfold iwp_from_slice. cbn [iwp_total]. change (lenN [a; b]) with 2. rewrite (enc1 s), (sat1 s), (enc1 a), (sat1 a), (enc1 b), (sat1 b), (enc1 2) by lia.
  rewrite (sat_add1 s 1), (sat_add1 a 1), (sat_add1 b 1), (sat_add1 0), (sat_add1 (0 + (a + 1))), (sat_add1 (0 + (a + 1) + (b + 1))) by lia. f_equal. lia.
Qed.

(** what one prediction says of one input *)
Definition units (p : iwp) : N := iwp_script p * 4 + iwp_witness p.
Definition short (q : iwp) : Prop := units q <= 1000.
Record matches (u : use) (n : N) (p q : iwp) : Prop := {
  mt_units : units p + byte_weight u * n = units q + byte_weight u * expected u;
  mt_witness : (0 <? iwp_witness p) = (0 <? iwp_witness q);
  mt_p : short p; mt_q : short q }.

Section Spent.
  Variable hash160 : bytes -> bytes.
  Variable K : kcurve.
  Variable E : ecurve.
  Variable rs : ec_sig E -> N * N.
  Hypothesis HK : kcurve_ok K.
  Hypothesis HE : der_curve E rs.
  Hypothesis HH : forall m, bytes_ok (hash160 m) /\ lenN (hash160 m) = 20.

  Lemma wpkh_stack : forall s k w, w_p2wpkh K E s k = Ret w -> exists sg, stack_of w [sg; kc_ser33 K k] /\ lenN sg = lenN (es_to_vec E s) /\ lenN (kc_ser33 K k) = 33.
  Proof.
    intros s k w H. pose proof (der_ecurve E rs HE) as EO. destruct (es_ser_spec E EO s) as (x & SE & SB & _). destruct (C50_ecdsa_write E s EO) as (_ & _ & _ & _ & L73 & V & _).
    destruct (k_ser33 K HK k) as (KB & KL & _).
    destruct (push_total wit_new [] (ecdsa_bytes E s) new_stack) as (w1 & W1 & S1).
    { cbn [app]. pose proof (element_len (ecdsa_bytes E s)). apply (N.le_trans _ 100); [lia|discriminate]. }
    destruct (push_total w1 _ (kc_ser33 K k) S1) as (w2 & W2 & S2).
    { cbn [app]. change [ecdsa_bytes E s; kc_ser33 K k] with ([ecdsa_bytes E s] ++ [kc_ser33 K k]). rewrite elements_app. pose proof (element_len (ecdsa_bytes E s)). pose proof (element_len (kc_ser33 K k)). apply (N.le_trans _ 200); [lia|discriminate]. }
    exists (ecdsa_bytes E s). unfold w_p2wpkh in H. rewrite SE in H. cbn [rbind] in H. rewrite SB in H. cbn [rbind] in H. rewrite W1 in H. cbn [rbind] in H.
    unfold fk_to_bytes in H. rewrite W2 in H. assert (w2 = w) as -> by congruence. split; [exact S2|]. rewrite V. auto.
  Qed.
  Lemma tap_stack : forall s w, lenN (ts_sig s) = 64 -> w_p2tr_key_spend s = Ret w -> stack_of w [tap_bytes s].
  Proof.
    intros s w L H. destruct (ts_ser_spec s L) as (x & SE & SB & SL & _). pose proof (tap_len s L) as TL.
    assert (TL65 : lenN (tap_bytes s) <= 65) by (rewrite TL; destruct (is_tdefault (ts_type s)); lia).
    destruct (push_total wit_new [] (tap_bytes s) new_stack) as (w1 & W1 & S1).
    { cbn [app]. pose proof (element_len (tap_bytes s)). apply (N.le_trans _ 100); [lia|discriminate]. }
    unfold w_p2tr_key_spend in H. rewrite SE in H. cbn [rbind] in H. rewrite SB in H. cbn [rbind] in H. rewrite W1 in H. assert (w1 = w) as -> by congruence. exact S1.
  Qed.
  Lemma nested_len : forall k i, p2sh_p2wpkh hash160 K k = Ret i -> lenN i = 23.
  Proof.
    intros k i H. unfold p2sh_p2wpkh, nested_sig in H. destruct (HH (fk_to_bytes K k)) as [B L]. unfold fk_pubkey_hash in H. cbn [sb_push_int_unchecked] in H.
    change (sb_push_int_unchecked [] 0) with (Ret [0]) in H. cbn [rbind] in H. destruct (push_bytes_ok _); [|discriminate].
    assert (i = sb_push_slice [] (sb_push_slice [0] (hash160 (fk_to_bytes K k)))) as -> by congruence.
    rewrite push_len; rewrite push_len; rewrite ?L; change (lenN [0]) with 1; change (lenN (@nil N)) with 0; lia.
  Qed.

  Lemma spent_matches : forall u i y p, spent hash160 K E u i y -> prediction u = Ret p ->
    exists ls, stack_of (ti_witness i) ls /\ matches u (lenN (sig_bytes E y)) p (iwp_from_slice (lenN (ti_script i)) (map lenN ls)) /\
      4 * lenN (wire_bytes (ti_script i)) + lenN (wire_stack ls) < 2 ^ 32.
  Proof.
    intros u i y p H P.
    assert (WC : forall x, lenN (wire_compact x) <= 9).
    { intro x. unfold wire_compact. repeat destruct (_ <=? _); repeat destruct (_ <? _); cbn [lenN length]; rewrite ?lenN_cons; unfold lenN; rewrite ?le_bytes_length; cbn; lia. }
    assert (WB : forall b, lenN (wire_bytes b) <= 9 + lenN b) by (intro b; unfold wire_bytes; rewrite lenN_app; pose proof (WC (lenN b)); lia).
    assert (W1 : forall a, lenN (wire_stack [a]) <= 18 + lenN a).
    { intro a. unfold wire_stack, wire_list. cbn [map concat]. rewrite !lenN_app, lenN_nil. pose proof (WC (lenN [a])). pose proof (WB a). lia. }
    assert (W2 : forall a b, lenN (wire_stack [a; b]) <= 27 + lenN a + lenN b).
    { intros a b. unfold wire_stack, wire_list. cbn [map concat]. rewrite !lenN_app, lenN_nil. pose proof (WC (lenN [a; b])). pose proof (WB a). pose proof (WB b). lia. }
    assert (SM : forall n, n <= 5000 -> n < 2 ^ 32) by (intros x X; apply (N.le_lt_trans _ 5000); [exact X|reflexivity]).
    assert (GR : forall g q, ground_size g = Ret q -> q = 72 - g /\ q <= 72 /\ 10 <= q).
    { intros g q. unfold ground_size. destruct (N.leb_spec g 62) as [X|X]; [|discriminate]. intro Y. assert (q = 10 + (62 - g)) by congruence. lia. }
    destruct H as [g i s k SI W|g i s k SI W|g i s k SI W|i s k NC SI W|i s SI LS TY W|i s SI LS TY W]; cbn [sig_bytes].
    - destruct (wpkh_stack s k _ W) as (sg & ST & L1 & L2). pose proof (to_vec_range E rs s HE) as R. exists [sg; kc_ser33 K k]. split; [exact ST|]. rewrite SI. change (lenN (@nil N)) with 0. cbn [map]. rewrite L1, L2.
      split; [|apply SM; change (wire_bytes []) with [0]; change (lenN [0]) with 1; pose proof (W2 sg (kc_ser33 K k)); lia]. rewrite slice2 by lia.
      assert (exists x, p = {| iwp_script := 1; iwp_witness := x + 36 |} /\ x = expected (UWpkh g)) as (x & -> & X).
      { destruct g as [g|]; cbn [prediction expected] in *; [|exists 72; split; [assert (P2WPKH_MAX = p) as <- by congruence; reflexivity|reflexivity]].
        unfold ground_p2wpkh in P. destruct (ground_size g) as [q|] eqn:G; [|discriminate]. apply GR in G as (G1 & G2 & G3). cbn [rbind] in P. rewrite slice2 in P by lia. exists q. split; [|exact G1]. assert (p = {| iwp_script := 0 + 1; iwp_witness := q + 33 + 3 |}) as -> by congruence. f_equal. lia. }
      assert (x <= 72) by (rewrite X; destruct g; cbn [expected]; lia).
      split; unfold short, units; cbn [iwp_script iwp_witness byte_weight]; rewrite <- ?X; try lia.
    - destruct (wpkh_stack s k _ W) as (sg & ST & L1 & L2). pose proof (to_vec_range E rs s HE) as R. exists [sg; kc_ser33 K k]. split; [exact ST|]. pose proof (nested_len k _ SI) as LN. cbn [map]. rewrite L1, L2, LN.
      split; [|apply SM; pose proof (WB (ti_script i)); pose proof (W2 sg (kc_ser33 K k)); lia]. rewrite slice2 by lia.
      assert (exists x, p = {| iwp_script := 24; iwp_witness := x + 36 |} /\ x = expected (UNested g)) as (x & -> & X).
      { destruct g as [g|]; cbn [prediction expected] in *; [|exists 72; split; [assert (NESTED_P2WPKH_MAX = p) as <- by congruence; reflexivity|reflexivity]].
        unfold ground_nested_p2wpkh in P. destruct (ground_size g) as [q|] eqn:G; [|discriminate]. apply GR in G as (G1 & G2 & G3). cbn [rbind] in P. rewrite slice2 in P by lia. exists q. split; [|exact G1]. assert (p = {| iwp_script := 23 + 1; iwp_witness := q + 33 + 3 |}) as -> by congruence. f_equal. lia. }
      assert (x <= 72) by (rewrite X; destruct g; cbn [expected]; lia).
      split; unfold short, units; cbn [iwp_script iwp_witness byte_weight]; rewrite <- ?X; try lia.
    - pose proof (to_vec_range E rs s HE) as R. destruct (k_ser33 K HK k) as (KB & KL & _). exists []. rewrite W. split; [exact new_stack|]. 
      assert (LS : lenN (ti_script i) = lenN (es_to_vec E s) + 35) by (rewrite SI, !push_len; unfold fk_to_bytes; rewrite ?KL; change (lenN (@nil N)) with 0; lia).
      rewrite LS. cbn [map]. split; [|apply SM; pose proof (WB (ti_script i)); change (lenN (wire_stack [])) with 1; lia]. rewrite slice0 by lia.
      assert (exists x, p = {| iwp_script := x + 36; iwp_witness := 0 |} /\ x = expected (UPkh g)) as (x & -> & X).
      { destruct g as [g|]; cbn [prediction expected] in *; [|exists 72; split; [assert (P2PKH_COMPRESSED_MAX = p) as <- by congruence; reflexivity|reflexivity]].
        unfold ground_p2pkh_compressed in P. destruct (ground_size g) as [q|] eqn:G; [|discriminate]. apply GR in G as (G1 & G2 & G3). cbn [rbind] in P. rewrite slice0 in P by lia. exists q. split; [|exact G1]. assert (p = {| iwp_script := 2 + 33 + q + 1; iwp_witness := 0 |}) as -> by congruence. f_equal. lia. }
      assert (x <= 72) by (rewrite X; destruct g; cbn [expected]; lia).
      split; unfold short, units; cbn [iwp_script iwp_witness byte_weight]; rewrite <- ?X; lia.
    - pose proof (to_vec_range E rs s HE) as R. destruct (k_ser65 K HK (lk_point K k)) as (KB & KL & _). exists []. rewrite W. split; [exact new_stack|]. 
      assert (LS : lenN (ti_script i) = lenN (es_to_vec E s) + 67) by (rewrite SI; unfold lk_serialize; rewrite NC, !push_len; rewrite ?KL; change (lenN (@nil N)) with 0; lia).
      rewrite LS. cbn [map]. split; [|apply SM; pose proof (WB (ti_script i)); change (lenN (wire_stack [])) with 1; lia]. rewrite slice0 by lia.
      cbn [prediction] in P. assert (p = {| iwp_script := 140; iwp_witness := 0 |}) as -> by (assert (P2PKH_UNCOMPRESSED_MAX = p) as <- by congruence; reflexivity).
      split; unfold short, units; cbn [iwp_script iwp_witness byte_weight expected]; lia.
    - pose proof (tap_stack s _ LS W) as ST. destruct (C50_taproot_write s LS) as (_ & _ & _ & _ & TL & TV & _). rewrite TY in TL. rewrite TV, TL. exists [tap_bytes s]. split; [exact ST|]. rewrite SI. change (lenN (@nil N)) with 0. cbn [map]. rewrite TL.
      split; [|apply SM; change (wire_bytes []) with [0]; change (lenN [0]) with 1; pose proof (W1 (tap_bytes s)); lia]. cbn [prediction] in P.
      assert (P2TR_KEY_DEFAULT_SIGHASH = p) as <- by congruence. split; try reflexivity; vm_compute; discriminate.
    - pose proof (tap_stack s _ LS W) as ST. destruct (C50_taproot_write s LS) as (_ & _ & _ & _ & TL & TV & _). assert (TL' : lenN (tap_bytes s) = 65) by (rewrite TL; destruct (ts_type s); congruence). rewrite TV, TL'. exists [tap_bytes s]. split; [exact ST|]. rewrite SI. change (lenN (@nil N)) with 0. cbn [map]. rewrite TL'.
      split; [|apply SM; change (wire_bytes []) with [0]; change (lenN [0]) with 1; pose proof (W1 (tap_bytes s)); lia]. cbn [prediction] in P.
      assert (P2TR_KEY_NON_DEFAULT_SIGHASH = p) as <- by congruence. split; try reflexivity; vm_compute; discriminate.
  Qed.
End Spent.

Local Notation sumN := MTxSize.sumN.
Definition marker (ic nw : N) : N := if nw =? 0 then 0 else ic - nw + 2.
Definition with_witness (ps : list iwp) : N := lenN (filter (fun p => 0 <? iwp_witness p) ps).
Lemma total_short : forall p, short p -> iwp_total_weight p = Ret (160 + units p).
Proof.
  intros p H. unfold short in H. unfold iwp_total_weight, iwp_witness_weight. fold (units p). unfold u32c, U32_MAX.
  destruct (N.leb_spec (units p) 4294967295); [|lia]. cbn [rbind]. apply usz_ok. unfold USIZE. lia.
Qed.
Lemma totals_short : forall ps, Forall short ps -> exists ws, rmap iwp_total_weight ps = Ret ws /\ sumN ws = 160 * lenN ps + sumN (map units ps) /\ sumN ws <= 1160 * lenN ps.
Proof.
  induction 1 as [|p ps H HS (ws & E & S & B)]; [exists []; repeat split; cbn; lia|].
  exists (160 + units p :: ws). cbn [rmap]. rewrite (total_short p H), E. cbn [rbind MTxSize.sumN map]. rewrite lenN_cons. unfold short in H. split; [reflexivity|]. lia.
Qed.
Lemma predict_short : forall ps lens, Forall short ps -> lenN ps <= MAX_LEN -> lenN lens <= MAX_LEN -> sumN (map (fun l => l + cs_encoded_size l) lens) <= 2 ^ 50 ->
  predict_weight ps lens = Ret (4 * (8 + cs_encoded_size (lenN ps) + cs_encoded_size (lenN lens) + 8 * lenN lens + sumN (map (fun l => l + cs_encoded_size l) lens))
    + 160 * lenN ps + sumN (map units ps) + marker (lenN ps) (with_witness ps)).
Proof.
  intros ps lens F L1 L2 L3. destruct (totals_short ps F) as (ws & E & S & B). unfold MAX_LEN in *. change (2 ^ 50) with 1125899906842624 in L3.
  unfold predict_weight. rewrite E. cbn [rbind]. rewrite usz_ok by (unfold USIZE; lia). cbn [rbind]. rewrite usz_ok by (unfold USIZE; lia). cbn [rbind].
  unfold predict_weight_internal, marker, with_witness. set (nw := lenN (filter _ ps)). assert (nw <= lenN ps).
  { subst nw. clear. induction ps as [|p ps IH]; [cbn; lia|]. cbn [filter]. destruct (0 <? iwp_witness p); rewrite ?lenN_cons; lia. }
  assert (C : forall x, cs_encoded_size x <= 9) by (intro x; unfold cs_encoded_size; repeat destruct (_ <? _); repeat destruct (_ <=? _); lia).
  pose proof (C (lenN ps)). pose proof (C (lenN lens)). set (c1 := cs_encoded_size (lenN ps)) in *. set (c2 := cs_encoded_size (lenN lens)) in *. clearbody c1 c2 nw.
  set (oss := sumN (map (fun l => l + cs_encoded_size l) lens)) in *. clearbody oss.
  destruct (N.eqb_spec nw 0) as [Z|Z].
  - rewrite usz_ok by (unfold USIZE; lia). f_equal. lia.
  - rewrite usz_ok by (unfold USIZE; lia). cbn [rbind]. destruct (N.ltb_spec ((4 + c1 + c2 + (8 * lenN lens + oss) + 4) * 4 + sumN ws + lenN ps) nw); [lia|]. rewrite usz_ok by (unfold USIZE; lia). f_equal. lia.
Qed.
