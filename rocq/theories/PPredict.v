(** C63: ready-made weight predictions never fall short of the signatures they are for. *)
From Coq Require Import String.
From Verif Require Import Base MDec LDec LWire MText MWitness MWitness2 MTx MTxSize LTxSize SWire SWitness SWitness2 LWitness LWitness2 PWitness MScript SScript.
From Verif Require Import MSighash MBip32 MKey SKey MSig SSig LSig PSig PTx PKey PForms MForms SForms LForms MPredict SPredict LSha2b LTaproot LPredict2 PTaproot.
Local Open Scope list_scope.
Local Open Scope N_scope.

Definition total (l : list N) : N := fold_right N.add 0 l.
Definition out_lens (tx : transaction) : list N := map (fun o => lenN (to_script o)) (tx_outputs tx).
Definition hash_20 (hash160 : bytes -> bytes) : Prop := forall m, bytes_ok (hash160 m) /\ lenN (hash160 m) = 20.

(** For every transaction whose inputs spend outputs of keys: the weight predicted from the ready-made predictions and the lengths of the output
    scripts differs from the weight of the transaction by what the lengths of the signatures differ from the expected lengths, and by nothing else. *)
Theorem C63_exact : forall hash160 K E rs, hash_20 hash160 -> kcurve_ok K -> der_curve E rs ->
  forall tx us ps, tx_shape tx -> tx_inputs tx <> [] ->
  Forall2 (fun i '(u, x) => spent hash160 K E u i x) (tx_inputs tx) us -> rmap prediction (map fst us) = Ret ps ->
  exists p w, predict_weight ps (out_lens tx) = Ret p /\ predict_weight_from_slices ps (out_lens tx) = Ret p /\ tx_weight tx = Ret w /\
    p + total (map (fun '(u, x) => byte_weight u * lenN (sig_bytes E x)) us) = w + total (map (fun '(u, x) => byte_weight u * expected u) us).
Proof.
  intros h K E rs HH HK HE tx us ps SH NE F P.
  assert (X : exists ws, Forall2 stack_of (map ti_witness (tx_inputs tx)) ws /\
    Forall2 (fun i s => 4 * lenN (wire_bytes (ti_script i)) + lenN (wire_stack s) < 2 ^ 32) (tx_inputs tx) ws /\
    let qs := map (fun '(i, s) => iwp_from_slice (lenN (ti_script i)) (map lenN s)) (combine (tx_inputs tx) ws) in
    Forall short ps /\ Forall short qs /\ lenN ps = lenN (tx_inputs tx) /\ lenN qs = lenN (tx_inputs tx) /\ with_witness ps = with_witness qs /\
    MTxSize.sumN (map units ps) + total (map (fun '(u, x) => byte_weight u * lenN (sig_bytes E x)) us) = MTxSize.sumN (map units qs) + total (map (fun '(u, x) => byte_weight u * expected u) us)).
  { clear SH NE. revert ps P. induction F as [|i [u x] ins us HS F IH]; intros ps P.
    - cbn in P. assert (ps = []) as -> by congruence. exists []. repeat split; constructor.
    - cbn [map rmap fst] in P. destruct (prediction u) as [p|] eqn:EP; [|discriminate]. cbn [rbind] in P. destruct (rmap prediction (map fst us)) as [ps'|]; [|discriminate]. cbn [rbind] in P. assert (ps = p :: ps') as -> by congruence.
      destruct (spent_matches h K E rs HK HE HH u i x p HS EP) as (ls & ST & [M1 M2 M3 M4] & B). destruct (IH ps' eq_refl) as (ws & A1 & A2 & A3 & A4 & A5 & A6 & A7 & A8).
      exists (ls :: ws). split; [constructor; assumption|]. split; [constructor; assumption|]. cbn [combine map]. cbv zeta in *.
      split; [constructor; assumption|]. split; [constructor; assumption|]. split; [rewrite !lenN_cons; lia|]. split; [rewrite !lenN_cons; lia|].
      split. { unfold with_witness in *. cbn [filter]. rewrite M2. destruct (0 <? iwp_witness (iwp_from_slice (lenN (ti_script i)) (map lenN ls))); [rewrite !lenN_cons; lia|exact A7]. }
      cbn [MTxSize.sumN total fold_right]. fold total. unfold total in A8. lia. }
  destruct X as (ws & A1 & A2 & X). cbv zeta in X. destruct X as (A3 & A4 & A5 & A6 & A7 & A8). set (qs := map (fun '(i, s) => iwp_from_slice (lenN (ti_script i)) (map lenN s)) (combine (tx_inputs tx) ws)) in *.
  destruct (C36_predict_weight tx ws SH A1 NE A2) as (qs' & _ & Q & PW & _). fold qs in Q. rewrite <- Q in PW. fold (out_lens tx) in PW.
  destruct SH as (_ & _ & [LI _] & [LO FO]).
  assert (LL : lenN (out_lens tx) = lenN (tx_outputs tx)) by (unfold out_lens, lenN; now rewrite map_length).
  assert (LS : MTxSize.sumN (map (fun l => l + cs_encoded_size l) (out_lens tx)) <= 2 ^ 50).
  { apply (N.le_trans _ (lenN (tx_outputs tx) * 4000009)); [|apply (N.le_trans _ (4000000 * 4000009)); [unfold MAX_LEN in LO; nia|discriminate]].
    unfold out_lens. clear - FO. induction FO as [|o l H F IH]; [cbn; lia|]. cbn [map MTxSize.sumN]. rewrite lenN_cons. destruct H as [_ [H _]]. unfold MAX_LEN in H. pose proof (esize_bound (lenN (to_script o))). lia. }
  rewrite predict_short in PW; [|assumption|lia|lia|exact LS]. assert (PP := predict_short ps (out_lens tx) A3 ltac:(lia) ltac:(lia) LS).
  eexists. eexists. split; [exact PP|]. split; [rewrite C36_predict_agree; exact PP|]. split; [symmetry; exact PW|]. rewrite A5, A6, A7. lia.
Qed.
Print Assumptions C63_exact.

(** The sizes of signatures with their type byte: at most 73, and at most 72 when the second number is in the lower half; one byte less when in addition the first
    number is ground to be below 2^255.  The sizes are met. *)
Theorem C63_sizes : forall E rs, der_curve E rs -> forall s, let (r, t) := rs (es_sig E s) in
  let n := lenN (es_to_vec E s) in
  9 <= n <= 73 /\ (low_s (r, t) -> n <= 72) /\ (low_s (r, t) -> r < 2 ^ 255 -> n <= 71) /\
  (2 ^ 255 <= r -> 2 ^ 247 <= t < 2 ^ 255 -> n = 72) /\ (2 ^ 255 <= r -> 2 ^ 255 <= t -> n = 73).
Proof.
  intros E rs HE s. pose proof (to_vec_range E rs s HE) as R. pose proof (to_vec_len E rs s HE) as L. destruct (dc_range E rs HE (es_sig E s)) as [R1 R2].
  destruct (rs (es_sig E s)) as [r t]. cbn [fst snd] in *. cbv zeta. pose proof (int_len_range r R1) as I1. pose proof (int_len_range t R2) as I2.
  assert (LOW : low_s (r, t) -> int_len t <= 32) by (unfold low_s; cbn [snd]; intro H; apply int_len_low; apply (N.le_lt_trans _ _ _ H); reflexivity).
  assert (BIG : forall x, 2 ^ 255 <= x -> x < ORDER -> int_len x = 33).
  { intros x H H'. pose proof (int_len_range x H'). unfold int_len in *. assert (256 <= N.size x); [|lia]. rewrite N.size_log2 by (intro Z; rewrite Z in H; now apply H). apply N.log2_le_mono in H. rewrite N.log2_pow2 in H by discriminate. lia. }
  assert (MID : 2 ^ 247 <= t -> t < 2 ^ 255 -> int_len t = 32).
  { intros H H'. apply int_len_low in H'. unfold int_len in *. assert (248 <= N.size t); [|lia]. rewrite N.size_log2 by (intro Z; rewrite Z in H; now apply H). apply N.log2_le_mono in H. rewrite N.log2_pow2 in H by discriminate. lia. }
  split; [exact R|]. split; [intro H; apply LOW in H; lia|]. split; [intros H H'; apply LOW in H; apply int_len_low in H'; lia|].
  split; [intros H [H1 H2]; rewrite L, (BIG r), MID; auto|]. intros H H1. rewrite L, (BIG r), (BIG t); auto.
Qed.
Print Assumptions C63_sizes.

(** So no weight is underestimated when every signature is as short as its prediction expects, and it always is for the predictions without grinding and
    signatures whose second number is in the lower half, and for grinding by one byte when the first number is below 2^255. *)
Definition as_expected (E : ecurve) (rs : ec_sig E -> N * N) (y : use * (esig E + tsig)) : Prop :=
  match y with
  | (UWpkh None, inl s) | (UNested None, inl s) | (UPkh None, inl s) | (UPkhUncompressed, inl s) => low_s (rs (es_sig E s))
  | (UWpkh (Some 1), inl s) | (UNested (Some 1), inl s) | (UPkh (Some 1), inl s) => low_s (rs (es_sig E s)) /\ fst (rs (es_sig E s)) < 2 ^ 255
  | (u, x) => lenN (sig_bytes E x) <= expected u
  end.
Theorem C63_never_low : forall hash160 K E rs, hash_20 hash160 -> kcurve_ok K -> der_curve E rs ->
  forall tx us ps, tx_shape tx -> tx_inputs tx <> [] ->
  Forall2 (fun i '(u, x) => spent hash160 K E u i x) (tx_inputs tx) us -> rmap prediction (map fst us) = Ret ps ->
  Forall (as_expected E rs) us ->
  exists p w, predict_weight ps (out_lens tx) = Ret p /\ tx_weight tx = Ret w /\ w <= p.
Proof.
  intros h K E rs HH HK HE tx us ps SH NE F P A. destruct (C63_exact h K E rs HH HK HE tx us ps SH NE F P) as (p & w & E1 & _ & E2 & Q). exists p, w. split; [exact E1|]. split; [exact E2|].
  assert (L : Forall (fun '(u, x) => lenN (sig_bytes E x) <= expected u) us).
  { clear - A HE. induction A as [|[u x] us H A IH]; constructor; [|exact IH].
    assert (L72 : forall s, low_s (rs (es_sig E s)) -> lenN (es_to_vec E s) <= 72) by (intros s; pose proof (C63_sizes E rs HE s) as Y; destruct (rs (es_sig E s)); apply Y).
    assert (L71 : forall s, low_s (rs (es_sig E s)) /\ fst (rs (es_sig E s)) < 2 ^ 255 -> lenN (es_to_vec E s) <= 71) by (intros s; pose proof (C63_sizes E rs HE s) as Y; destruct (rs (es_sig E s)) as [r t]; cbn [fst]; intros [Z1 Z2]; apply Y; assumption).
    destruct u as [[[|[q|q|]]|]|[[|[q|q|]]|]|[[|[q|q|]]|]| | |], x as [s|s]; try exact H; first [apply L72 in H; exact H|apply L71 in H; exact H]. }
  assert (total (map (fun '(u, x) => byte_weight u * lenN (sig_bytes E x)) us) <= total (map (fun '(u, x) => byte_weight u * expected u) us)); [|lia].
  clear - L. induction L as [|[u x] us H A IH]; [reflexivity|]. unfold total in *. cbn [map fold_right]. nia.
Qed.
Print Assumptions C63_never_low.

(** Grinding: nothing ground is the plain prediction, and more than 62 bytes is a panic. *)
Theorem C63_ground : 
  (ground_p2wpkh 0 = Ret P2WPKH_MAX /\ ground_nested_p2wpkh 0 = Ret NESTED_P2WPKH_MAX /\ ground_p2pkh_compressed 0 = Ret P2PKH_COMPRESSED_MAX) /\
  forall u, prediction u = Panic <-> exists g, 62 < g /\ (u = UWpkh (Some g) \/ u = UNested (Some g) \/ u = UPkh (Some g)).
Proof.
  split; [repeat split|]. intro u. assert (G : forall g, ground_size g = Panic <-> 62 < g) by (intro g; unfold ground_size; destruct (N.leb_spec g 62); split; intro; try discriminate; try lia; reflexivity).
  split.
  - destruct u as [[g|]|[g|]|[g|]| | |]; cbn [prediction]; try discriminate; unfold ground_p2wpkh, ground_nested_p2wpkh, ground_p2pkh_compressed; destruct (ground_size g) eqn:Q; try discriminate; apply G in Q; eauto.
  - intros (g & L & [-> | [-> | ->]]); apply G in L; cbn [prediction]; unfold ground_p2wpkh, ground_nested_p2wpkh, ground_p2pkh_compressed; now rewrite L.
Qed.
Print Assumptions C63_ground.

(** *** A library of signatures that are pairs of numbers *)
Definition der_sig : Type := { x : N * N | (fst x <? ORDER) && (snd x <? ORDER) = true }.
Definition der_parse (b : bytes) : option der_sig :=
  match b with
  | 48 :: _ :: 2 :: n :: r =>
      match dropN n r with
      | 2 :: m :: t =>
          let x := (be_val (takeN n r), be_val t) in
          match Sumbool.sumbool_of_bool ((fst x <? ORDER) && (snd x <? ORDER)) with left H => Some (exist _ x H) | right _ => None end
      | _ => None
      end
  | _ => None
  end.
Definition der_e : ecurve := mk_ecurve der_sig (fun s => der (fst (proj1_sig s)) (snd (proj1_sig s))) der_parse.
Definition der_rs (s : ec_sig der_e) : N * N := proj1_sig (s : der_sig).
Lemma int_fits : forall x, x < 256 ^ N.of_nat (N.to_nat (int_len x)).
Proof.
  intro x. rewrite N2Nat.id. change 256 with (2 ^ 8). rewrite <- N.pow_mul_r. destruct x as [|p]; [apply N.neq_0_lt_0, N.pow_nonzero; discriminate|].
  apply N.log2_lt_pow2; [reflexivity|]. unfold int_len. rewrite N.size_log2 by discriminate. lia.
Qed.
Example C63_ex_curve : der_curve der_e der_rs.
Proof.
  split.
  - reflexivity.
  - intros [[r t] H]. cbn [der_e ec_der ec_from_der proj1_sig fst snd]. unfold der, der_int. cbv zeta. cbn [app]. unfold der_parse.
    assert (L : lenN (be_bytes (N.to_nat (int_len r)) r) = int_len r) by (rewrite be_bytes_len, N2Nat.id; reflexivity).
    rewrite dropN_app_ge, takeN_app_le, takeN_all, L, N.sub_diag, dropN_0 by lia.
    rewrite !LBip32b.be_val_of_bytes by apply int_fits. pose proof H as H2. cbn [fst snd] in H2.
    destruct (Sumbool.sumbool_of_bool ((fst (r, t) <? ORDER) && (snd (r, t) <? ORDER))) as [H'|H']; [|cbn [fst snd] in H'; congruence].
    apply (f_equal Some). apply (f_equal (exist (fun x : N * N => (fst x <? ORDER) && (snd x <? ORDER) = true) (r, t))). apply Eqdep_dec.UIP_dec, Bool.bool_dec.
  - intros [[r t] H]. cbn [der_rs proj1_sig fst snd] in *. apply andb_prop in H as [A B]. split; now apply N.ltb_lt.
Qed.
Definition sig_of (r t : N) (H : (r <? ORDER) && (t <? ORDER) = true) : esig der_e := mk_esig der_e (exist _ (r, t) H : ec_sig der_e) EAll.
Definition high : esig der_e := sig_of (ORDER - 1) (ORDER - 1) eq_refl.
Definition lowest : esig der_e := sig_of (ORDER - 1) (ORDER / 2) eq_refl.
Definition ground1 : esig der_e := sig_of (2 ^ 254) (ORDER / 2) eq_refl.
Definition ex_key : full toyk := PTaproot.toy_make 7.
Definition ex_input (script : bytes) (w : witness) : txin :=
  {| ti_prevout := {| op_txid := repeat 7 32; op_vout := 1 |}; ti_script := script; ti_sequence := 4294967295; ti_witness := w |}.
Definition ex_spend (ins : list txin) : transaction := {| tx_version := 2; tx_lock_time := 0; tx_inputs := ins; tx_outputs := [{| to_amount := 5000; to_script := repeat 81 22 |}] |}.
Definition made (s : esig der_e) : witness := match w_p2wpkh toyk der_e s ex_key with Ret w => w | Panic => wit_new end.

Definition sevens (m : bytes) : bytes := repeat 7 20.
Lemma sevens_ok : hash_20 sevens.
Proof. intro m. split; [|reflexivity]. unfold sevens. repeat constructor. Qed.
Lemma made_ok : forall s, w_p2wpkh toyk der_e s ex_key = Ret (made s) /\ witness_ok (made s).
Proof.
  intro s. pose proof (der_ecurve der_e der_rs C63_ex_curve) as EO.
  destruct (C61_p2wpkh sevens SSha2.SHA256 toyk der_e PTaproot.toy (conj sevens_ok SHA256_ok) toyk_ok EO s ex_key MAddress.HMainnet NMain) as (w & _ & _ & _ & W & S & _).
  assert (M : made s = w) by (unfold made; now rewrite W). rewrite M. split; [exact W|]. exists [ecdsa_bytes der_e s; kc_ser33 toyk ex_key]. split; [exact S|].
  destruct (k_ser33 toyk toyk_ok ex_key) as (KB & KL & _). destruct (C50_ecdsa_write der_e s EO) as (_ & _ & _ & _ & L73 & _). split; [unfold MAX_LEN; rewrite !lenN_cons, lenN_nil; lia|].
  assert (MB : bytes_ok (ecdsa_bytes der_e s)) by (unfold ecdsa_bytes; apply bytes_ok_app; split; [apply (e_bytes der_e EO)|constructor; [destruct (es_type der_e s); reflexivity|constructor]]).
  constructor; [split; [unfold MAX_LEN; lia|exact MB]|]. constructor; [split; [rewrite KL; unfold MAX_LEN; lia|exact KB]|constructor].
Qed.
Lemma ex_shape : forall s, tx_shape (ex_spend [ex_input [] (made s)]).
Proof.
  intro s. split; [reflexivity|]. split; [reflexivity|]. split; (split; [discriminate|]); (constructor; [|constructor]).
  - split; [|split; [|split; [reflexivity|apply made_ok]]].
    + split; [split; [reflexivity|]|reflexivity]. cbn [ti_prevout op_txid ex_input]. repeat constructor.
    + split; [discriminate|constructor].
  - split; [discriminate|]. split; [discriminate|]. cbn [to_script]. repeat constructor.
Qed.
Lemma ex_spent : forall s g, Forall2 (fun i '(u, x) => spent sevens toyk der_e u i x) (tx_inputs (ex_spend [ex_input [] (made s)])) [(UWpkh g, inl s)].
Proof. intros s g. constructor; [|constructor]. apply (s_wpkh sevens toyk der_e g _ s ex_key); [reflexivity|apply made_ok]. Qed.

(** The largest possible signature is longer than the predictions for the largest possible signature say: with both numbers in the upper half there are 73 bytes,
    such signatures are read, and the weight is then underestimated. *)
Theorem C63_high_s_refuted : exists s tx p w, es_from_slice der_e (es_to_vec der_e s) = Ok s /\
  tx_shape tx /\ Forall2 (fun i '(u, x) => spent sevens toyk der_e u i x) (tx_inputs tx) [(UWpkh None, inl s)] /\
  predict_weight [P2WPKH_MAX] (out_lens tx) = Ret p /\ tx_weight tx = Ret w /\ w = p + 1.
Proof.
  exists high, (ex_spend [ex_input [] (made high)]).
  destruct (C63_exact sevens toyk der_e der_rs sevens_ok toyk_ok C63_ex_curve (ex_spend [ex_input [] (made high)]) [(UWpkh None, inl high)] [P2WPKH_MAX] (ex_shape high) ltac:(discriminate) (ex_spent high None) eq_refl) as (p & w & P & _ & W & Q).
  exists p, w. split; [|split; [apply ex_shape|split; [apply ex_spent|split; [exact P|split; [exact W|]]]]].
  - destruct (C50_ecdsa_write der_e high (der_ecurve der_e der_rs C63_ex_curve)) as (_ & _ & _ & _ & _ & V & _ & R). rewrite V. exact R.
  - cbn [map total fold_right byte_weight expected sig_bytes] in Q. change (lenN (es_to_vec der_e high)) with 73 in Q. lia.
Qed.
Print Assumptions C63_high_s_refuted.

Example C63_ex_low : Forall (as_expected der_e der_rs) [(UWpkh None, inl lowest); (UWpkh (Some 1), inl ground1)] /\
  lenN (es_to_vec der_e lowest) = 72 /\ lenN (es_to_vec der_e ground1) = 71 /\ lenN (es_to_vec der_e high) = 73.
Proof. split; [|repeat split]. constructor; [vm_compute; discriminate|]. constructor; [|constructor]. split; [vm_compute; discriminate|reflexivity]. Qed.
Example C63_ex_weights : predict_weight [P2WPKH_MAX] [22] = Ret 438 /\ tx_weight (ex_spend [ex_input [] (made lowest)]) = Ret 438 /\
  predict_weight [P2PKH_COMPRESSED_MAX; P2TR_KEY_DEFAULT_SIGHASH; NESTED_P2WPKH_MAX] [22; 34] = Ret 1525 /\
  ground_p2wpkh 1 = Ret (iwp_from_slice 0 [71; 33]) /\ ground_p2pkh_compressed 63 = Panic.
Proof. repeat split; vm_compute; reflexivity. Qed.
