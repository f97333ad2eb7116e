(** C39: signature hashes. *)
From Coq Require Import String.
From Verif Require Import Base MDec MWitness MTx SWire MScript SScript MText MSighash SSighash LSighash LSighash2 LSighash3 PScript SSha2 LAmountText.
Local Open Scope N_scope.

(** The transaction of the native P2WPKH example of BIP 143. *)
Definition ex_tx : transaction := {|
  tx_version := 1; tx_lock_time := 17;
  tx_inputs := [
    {| ti_prevout := {| op_txid := [255; 247; 247; 136; 26; 128; 153; 175; 166; 148; 13; 66; 209; 231; 246; 54; 43; 236; 56; 23; 30; 163; 237; 244; 51; 84; 29; 180; 228; 173; 150; 159]; op_vout := 0 |};
       ti_script := []; ti_sequence := 0xffffffee; ti_witness := wit_new |};
    {| ti_prevout := {| op_txid := [239; 81; 225; 184; 4; 204; 137; 209; 130; 210; 121; 101; 92; 58; 168; 158; 129; 91; 27; 48; 159; 226; 135; 217; 178; 181; 93; 87; 185; 14; 198; 138]; op_vout := 1 |};
       ti_script := []; ti_sequence := 0xffffffff; ti_witness := wit_new |}];
  tx_outputs := [
    {| to_amount := 112340000; to_script := [118; 169; 20; 130; 128; 179; 125; 243; 120; 219; 153; 246; 111; 133; 201; 90; 120; 58; 118; 172; 122; 109; 89; 136; 172] |};
    {| to_amount := 223450000; to_script := [118; 169; 20; 59; 222; 66; 219; 238; 126; 77; 190; 106; 33; 178; 213; 12; 226; 240; 22; 127; 170; 129; 89; 136; 172] |}] |}.
Definition ex_hash : bytes := [29; 15; 23; 42; 14; 203; 72; 174; 225; 190; 31; 38; 135; 210; 150; 58; 227; 63; 113; 161].
Definition ex_digest : bytes := [195; 122; 243; 17; 22; 209; 178; 124; 175; 104; 170; 233; 227; 172; 130; 241; 71; 121; 41; 1; 77; 91; 145; 118; 87; 208; 235; 73; 71; 140; 182; 112].

(** * The digests are those of the BIPs, for any hash function [H] (SHA-256 in the code) *)
(** Taproot: refused exactly in the cases of [tap_outcome], otherwise the hash of BIP 341 and 342. *)
Theorem C39_taproot : forall H tx i p annex leaf ty,
  snd (tap_hash H (cache_new tx) i p annex leaf ty) = match tap_outcome tx i p annex leaf ty with Ok a => Ok (bip341_hash H a) | Err e => Err e end.
Proof.
  intros. destruct (tap_hash_eq H tx (match p with PAll os => os | _ => [] end) (cache_new tx) i p annex leaf ty) as (c & _ & ->); [apply new_good|destruct p; [exact I|now right; right]|]. reflexivity.
Qed.
(** The two shorthands. *)
Theorem C39_taproot_paths : forall H c i p ty leaf,
  tap_key_hash H c i p ty = tap_hash H c i p None None ty /\ tap_script_hash H c i p leaf ty = tap_hash H c i p None (Some (leaf, 2 ^ 32 - 1)) ty.
Proof. intros. split; reflexivity. Qed.
Theorem C39_leaf_hash : forall H version script, leaf_hash H version script = tagged H (lit "TapLeaf") (version :: wire_bytes script).
Proof. intros. unfold leaf_hash. rewrite LWire.wire_bytes_eq. reflexivity. Qed.
Theorem C39_annex : forall a r, annex_new a = Ok r <-> r = a /\ exists a', a = 0x50 :: a'.
Proof.
  intros a r. unfold annex_new. destruct a as [|b a]; [split; [easy|intros (_ & a' & E); discriminate]|]. destruct (N.eqb_spec b 0x50) as [->|NE].
  - split; [intro E; split; [congruence|eauto]|intros [-> _]; reflexivity].
  - split; [easy|]. intros (_ & a' & E). exfalso. apply NE. congruence.
Qed.
(** Segwit v0: only an index without input is refused. *)
Theorem C39_segwit : forall H tx i code amount ty,
  snd (p2wsh_hash H (cache_new tx) i code amount ty) =
  if lenN (tx_inputs tx) <=? i then Err (i, lenN (tx_inputs tx))
  else Ok (double H (bip143_msg H {| va_ty := ecdsa_u32 ty; va_tx := tx; va_i := i; va_code := code; va_amount := amount |})).
Proof. intros. destruct (p2wsh_hash_eq H tx [] (cache_new tx) i code amount ty) as (c & _ & ->); [apply new_good|]. reflexivity. Qed.
(** P2WPKH: the script code is the P2PKH script of the hash, and other scripts are refused. *)
Theorem C39_p2wpkh : forall H tx i amount ty,
  (forall h, lenN h = 20 -> exists c, p2wpkh_hash H (cache_new tx) i (t_witness 0 h) amount ty =
     Ret (c, match snd (p2wsh_hash H (cache_new tx) i (t_p2pkh h) amount ty) with Ok d => Ok d | Err e => Err (Some e) end)) /\
  (forall spk, (~ exists h, lenN h = 20 /\ spk = t_witness 0 h) -> p2wpkh_hash H (cache_new tx) i spk amount ty = Ret (cache_new tx, Err None)).
Proof.
  intros H tx i amount ty. split.
  - intros h L. rewrite C39_segwit. destruct (C16_p2wpkh_script_code (t_witness 0 h)) as [P _]. specialize (P h L eq_refl).
    destruct (p2wpkh_hash_eq H tx [] (cache_new tx) i (t_witness 0 h) amount ty (new_good H tx []) (ex_intro _ _ P)) as (c & r & _ & A & ->). exists c.
    unfold p2wpkh_answer in A. rewrite P in A. cbn [rbind] in A. unfold v0_answer in A. do 2 f_equal. destruct (lenN (tx_inputs tx) <=? i); congruence.
  - intros spk N. destruct (C16_p2wpkh_script_code spk) as [_ P]. unfold p2wpkh_hash. rewrite (P N). reflexivity.
Qed.
(** Legacy: the hash of the changed copy of the transaction, except for SINGLE without the output, which gives the
    number one; never a panic. *)
Theorem C39_legacy : forall H tx i code ty,
  legacy_hash H (cache_new tx) i code ty =
  Ret (if lenN (tx_inputs tx) <=? i then Err (i, lenN (tx_inputs tx))
       else Ok (if (N.land ty 0x1f =? 3) && (lenN (tx_outputs tx) <=? i) then 1 :: repeat 0 31 else double H (legacy_msg ty i code tx))).
Proof. intros. rewrite (legacy_hash_eq H tx []) by apply new_good. reflexivity. Qed.

(** * The cache *)
(** In any history of calls on one cache, changes of witnesses included, every answer is that of a new cache for the
    original transaction, provided the calls that need all spent outputs agree on them; and nothing panics. *)
Lemma script_code_total : forall s, exists code, p2wpkh_script_code s = Ret code.
Proof.
  intro s. destruct (is_p2wpkh s) eqn:E.
  - apply LScript4.is_p2wpkh_iff in E as (h & L & ->). exists (Some (t_p2pkh h)). now apply (proj1 (C16_p2wpkh_script_code _)).
  - exists None. unfold p2wpkh_script_code. now rewrite E.
Qed.
Theorem C39_cache : forall H tx ps ks, Forall (same_spent tx ps) ks ->
  exists c answers, do_calls H (cache_new tx) ks = Ret (c, answers) /\ Forall2 (fun k a => exists c', do_call H (cache_new tx) k = Ret (c', a)) ks answers.
Proof.
  intros H tx ps ks F. destruct (do_calls_eq H script_code_total tx ps ks (cache_new tx) (new_good H tx ps) F) as (c & l & _ & A & D). exists c, l. split; [exact D|].
  clear c D. revert l A. induction ks as [|k ks IH]; intros l A; cbn [call_answers] in A; [injection A as <-; constructor|]. inversion F; subst.
  destruct (do_call_eq H script_code_total tx ps (cache_new tx) k (new_good H tx ps)) as (c & a & _ & AA & DD); [assumption|]. rewrite AA in A. cbn [rbind] in A.
  destruct (call_answers H tx ks) as [l'|]; [|discriminate]. cbn [rbind] in A. injection A as <-. constructor; [eauto|]. now apply IH.
Qed.
(** Without that proviso it is false: the amounts and scripts given first are used for all later calls. *)
Theorem C39_stale : forall H tx i i' ps ps' annex annex' leaf leaf' ty ty' c1 d1, anyone (tap_u8 ty) = false -> anyone (tap_u8 ty') = false -> lenN ps' = lenN ps ->
  tap_hash H (cache_new tx) i (PAll ps) annex leaf ty = (c1, Ok d1) ->
  snd (tap_hash H c1 i' (PAll ps') annex' leaf' ty') = snd (tap_hash H (cache_new tx) i' (PAll ps) annex' leaf' ty').
Proof.
  intros H tx i i' ps ps' annex annex' leaf leaf' ty ty' c1 d1 NA NA' LE E1.
  destruct (tap_hash_eq H tx ps (cache_new tx) i (PAll ps) annex leaf ty) as (c & G & E); [apply new_good|now right; right|].
  assert (c = c1) as <- by congruence. assert (T : sc_taproot c <> None).
  { unfold tap_hash in E1. destruct (tap_encode H i (PAll ps) annex leaf ty (cache_new tx)) as [[c2 w] r] eqn:Q. destruct r as [[]|]; [|discriminate]. assert (c2 = c) as -> by congruence.
    exact (tap_fills H tx i ps annex leaf ty (cache_new tx) _ _ NA eq_refl Q). }
  unfold tap_hash at 1. rewrite (tap_same H i' ps' ps annex' leaf' ty' c NA' LE T). fold (tap_hash H c i' (PAll ps) annex' leaf' ty').
  destruct (tap_hash_eq H tx ps c i' (PAll ps) annex' leaf' ty' G) as (c2 & _ & ->); [now right; right|].
  destruct (tap_hash_eq H tx ps (cache_new tx) i' (PAll ps) annex' leaf' ty') as (c3 & _ & ->); [apply new_good|now right; right|]. reflexivity.
Qed.
Definition ex_spent : list txout := [{| to_amount := 625000000; to_script := t_witness 1 (repeat 2 32) |}; {| to_amount := 600000000; to_script := t_witness 0 ex_hash |}].
Definition ex_spent' : list txout := [{| to_amount := 625000001; to_script := t_witness 1 (repeat 2 32) |}; {| to_amount := 600000000; to_script := t_witness 0 ex_hash |}].
Theorem C39_cache_refuted : ~ (forall ks, exists c answers, do_calls SHA256 (cache_new ex_tx) ks = Ret (c, answers) /\
  Forall2 (fun k a => exists c', do_call SHA256 (cache_new ex_tx) k = Ret (c', a)) ks answers).
Proof.
  intro A. destruct (A [CTap 0 (PAll ex_spent) None None TAll; CTap 0 (PAll ex_spent') None None TAll]) as (c & l & D & F). cbn [do_calls do_call] in D.
  destruct (tap_hash SHA256 (cache_new ex_tx) 0 (PAll ex_spent) None None TAll) as [c1 r1] eqn:E1. cbn [rbind] in D. pose proof (C39_taproot SHA256 ex_tx 0 (PAll ex_spent) None None TAll) as T1. rewrite E1 in T1. cbn [snd] in T1.
  pose proof (C39_taproot SHA256 ex_tx 0 (PAll ex_spent') None None TAll) as T2.
  set (a1 := {| ta_ty := 1; ta_tx := ex_tx; ta_i := 0; ta_spent := ex_spent; ta_prev := {| to_amount := 625000000; to_script := t_witness 1 (repeat 2 32) |}; ta_annex := None; ta_leaf := None |}).
  set (a2 := {| ta_ty := 1; ta_tx := ex_tx; ta_i := 0; ta_spent := ex_spent'; ta_prev := {| to_amount := 625000001; to_script := t_witness 1 (repeat 2 32) |}; ta_annex := None; ta_leaf := None |}).
  change (tap_outcome ex_tx 0 (PAll ex_spent) None None TAll) with (@Ok tap_args tap_err a1) in T1. change (tap_outcome ex_tx 0 (PAll ex_spent') None None TAll) with (@Ok tap_args tap_err a2) in T2. cbv beta iota in T1, T2. subst r1.
  pose proof (C39_stale SHA256 ex_tx 0 0 ex_spent ex_spent' None None None None TAll TAll c1 _ eq_refl eq_refl eq_refl E1) as ST. rewrite C39_taproot in ST.
  change (tap_outcome ex_tx 0 (PAll ex_spent) None None TAll) with (@Ok tap_args tap_err a1) in ST. cbv beta iota in ST.
  destruct (tap_hash SHA256 c1 0 (PAll ex_spent') None None TAll) as [c2 r2]. cbn [snd] in ST. subst r2. cbn [rbind] in D. assert (l = [ATap (Ok (bip341_hash SHA256 a1)); ATap (Ok (bip341_hash SHA256 a1))]) as -> by congruence.
  inversion F as [|k a ks as_ _ F2]. subst. inversion F2 as [|k a ks as_ (c' & DC) _]. subst. cbn [do_call] in DC. destruct (tap_hash SHA256 (cache_new ex_tx) 0 (PAll ex_spent') None None TAll) as [c3 r3]. cbn [snd] in T2. subst r3.
  assert (Q : bip341_hash SHA256 a1 = bip341_hash SHA256 a2) by congruence. revert Q. vm_compute. discriminate.
Qed.

(** * What the digests commit to *)
(** Two taproot digests of requests for existing inputs are equal only if the requests agree on all that the sighash type
    covers, or two different messages hashed on the way have the same hash. *)
Theorem C39_taproot_commits : forall H, (forall m, lenN (H m) = 32) -> forall tx tx' i i' p p' annex annex' leaf leaf' ty ty' a b,
  tap_outcome tx i p annex leaf ty = Ok a -> tap_outcome tx' i' p' annex' leaf' ty' = Ok b -> tap_repr a -> tap_repr b ->
  i < lenN (tx_inputs tx) -> i' < lenN (tx_inputs tx') ->
  snd (tap_hash H (cache_new tx) i p annex leaf ty) = snd (tap_hash H (cache_new tx') i' p' annex' leaf' ty') ->
  tap_agree a b \/ exists x y, In x (tap_messages H a) /\ In y (tap_messages H b) /\ x <> y /\ H x = H y.
Proof.
  intros H H32 tx tx' i i' p p' annex annex' leaf leaf' ty ty' a b OA OB RA RB LA LB E. rewrite !C39_taproot, OA, OB in E. assert (E' : bip341_hash H a = bip341_hash H b) by congruence.
  assert (V : forall tx i p annex leaf ty a, tap_outcome tx i p annex leaf ty = Ok a -> i < lenN (tx_inputs tx) -> tap_valid a).
  { clear. intros tx i p annex leaf ty a O L. unfold tap_outcome in O. cbv zeta in O.
    assert (Q : forall spent prev, (if (N.land (tap_u8 ty) 3 =? 3) && (lenN (tx_outputs tx) <=? i) then Err (ESingleMissing i (lenN (tx_outputs tx)))
      else Ok {| ta_ty := tap_u8 ty; ta_tx := tx; ta_i := i; ta_spent := spent; ta_prev := prev; ta_annex := annex; ta_leaf := leaf |}) = Ok a -> tap_valid a).
    { intros spent prev Q. destruct (_ && _) eqn:B; [discriminate|]. injection Q as <-. split; cbn [ta_i ta_tx ta_ty]; [exact L|]. intro S3. rewrite S3 in B. change (3 =? 3) with true in B. cbn [andb] in B. now apply N.leb_gt in B. }
    destruct p as [j o|os].
    - destruct (negb _); [discriminate|]. destruct (_ <=? i); [discriminate|]. destruct (i =? j); [eapply Q; exact O|discriminate].
    - destruct (negb _); [discriminate|]. destruct (_ && _); [discriminate|]. eapply Q; exact O. }
  apply (tap_commits H H32); eauto.
Qed.
(** Requests that agree on what the type covers have the same digest. *)
Theorem C39_taproot_ignores : forall H tx tx' i i' p p' annex annex' leaf leaf' ty ty' a b,
  tap_outcome tx i p annex leaf ty = Ok a -> tap_outcome tx' i' p' annex' leaf' ty' = Ok b -> tap_agree a b ->
  snd (tap_hash H (cache_new tx) i p annex leaf ty) = snd (tap_hash H (cache_new tx') i' p' annex' leaf' ty').
Proof. intros H tx tx' i i' p p' annex annex' leaf leaf' ty ty' a b OA OB AG. rewrite !C39_taproot, OA, OB. f_equal. now apply tap_ignores. Qed.
(** Without ANYONECANPAY the index is not checked, and only its low 32 bits are signed: two indices, neither of them of an
    input, can have the same digest. *)
Theorem C39_taproot_index_refuted : forall H tx ps i annex leaf ty, lenN ps = lenN (tx_inputs tx) -> anyone (tap_u8 ty) = false -> N.land (tap_u8 ty) 3 <> 3 ->
  exists d, snd (tap_hash H (cache_new tx) i (PAll ps) annex leaf ty) = Ok d /\ snd (tap_hash H (cache_new tx) (i + 2 ^ 32) (PAll ps) annex leaf ty) = Ok d.
Proof.
  intros H tx ps i annex leaf ty LE NA N3. rewrite !C39_taproot. unfold tap_outcome. cbv zeta. rewrite LE, N.eqb_refl, NA. apply N.eqb_neq in N3. rewrite N3. cbn [negb andb].
  eexists. split; [reflexivity|]. f_equal. unfold bip341_hash. f_equal. f_equal. unfold sig_msg. cbn [ta_ty ta_tx ta_i ta_annex ta_leaf]. rewrite NA. f_equal. f_equal. f_equal.
  unfold bip341_hashed, bip341_hashed2. cbn [ta_ty ta_tx ta_spent ta_annex fst snd]. rewrite N3. f_equal. f_equal. f_equal.
  rewrite <- (le_bytes_mod (i + 2 ^ 32)), <- (le_bytes_mod i). f_equal. replace (i + 2 ^ 32) with (i + 1 * 2 ^ 32) by lia. now rewrite N.mod_add by discriminate.
Qed.
(** Segwit v0. *)
Theorem C39_segwit_commits : forall H, (forall m, lenN (H m) = 32) -> forall tx tx' i i' code code' amount amount' ty ty' d,
  let a := {| va_ty := ecdsa_u32 ty; va_tx := tx; va_i := i; va_code := code; va_amount := amount |} in
  let b := {| va_ty := ecdsa_u32 ty'; va_tx := tx'; va_i := i'; va_code := code'; va_amount := amount' |} in
  v0_repr a -> v0_repr b ->
  snd (p2wsh_hash H (cache_new tx) i code amount ty) = Ok d -> snd (p2wsh_hash H (cache_new tx') i' code' amount' ty') = Ok d ->
  v0_agree a b \/ (exists x y, In x (v0_messages H a) /\ In y (v0_messages H b) /\ x <> y /\ H x = H y) \/
  exists m, (In m (v0_messages H a) \/ In m (v0_messages H b)) /\ H m = repeat 0 32.
Proof.
  intros H H32 tx tx' i i' code code' amount amount' ty ty' d a b RA RB EA EB. rewrite C39_segwit in EA, EB.
  destruct (N.leb_spec (lenN (tx_inputs tx)) i) as [|LA]; [discriminate|]. destruct (N.leb_spec (lenN (tx_inputs tx')) i') as [|LB]; [discriminate|].
  apply (v0_commits H H32 a b RA RB LA LB). fold a in EA. fold b in EB. congruence.
Qed.
Theorem C39_segwit_ignores : forall H tx tx' i i' code code' amount amount' ty ty', i < lenN (tx_inputs tx) -> i' < lenN (tx_inputs tx') ->
  v0_agree {| va_ty := ecdsa_u32 ty; va_tx := tx; va_i := i; va_code := code; va_amount := amount |}
           {| va_ty := ecdsa_u32 ty'; va_tx := tx'; va_i := i'; va_code := code'; va_amount := amount' |} ->
  snd (p2wsh_hash H (cache_new tx) i code amount ty) = snd (p2wsh_hash H (cache_new tx') i' code' amount' ty').
Proof.
  intros H tx tx' i i' code code' amount amount' ty ty' LA LB AG. rewrite !C39_segwit. destruct (N.leb_spec (lenN (tx_inputs tx)) i); [lia|]. destruct (N.leb_spec (lenN (tx_inputs tx')) i'); [lia|].
  now rewrite (v0_ignores H _ _ AG).
Qed.
(** Legacy. *)
Theorem C39_legacy_commits : forall H tx tx' i code code' ty ty' d, tx_repr tx -> tx_repr tx' -> is_u32 ty -> is_u32 ty' -> is_u64 (lenN code) -> is_u64 (lenN code') ->
  (N.land ty 0x1f = 3 -> i < lenN (tx_outputs tx)) -> (N.land ty' 0x1f = 3 -> i < lenN (tx_outputs tx')) ->
  legacy_hash H (cache_new tx) i code ty = Ret (Ok d) -> legacy_hash H (cache_new tx') i code' ty' = Ret (Ok d) ->
  (ty = ty' /\ code = code' /\ legacy_agree ty i tx tx') \/
  (let m := legacy_msg ty i code tx in let m' := legacy_msg ty' i code' tx' in (m <> m' /\ H m = H m') \/ (H m <> H m' /\ H (H m) = H (H m'))).
Proof.
  intros H tx tx' i code code' ty ty' d R R' T T' U U' S S' E E'. rewrite C39_legacy in E, E'.
  destruct (N.leb_spec (lenN (tx_inputs tx)) i) as [|L]; [discriminate|]. destruct (N.leb_spec (lenN (tx_inputs tx')) i) as [|L']; [discriminate|].
  assert (NB : forall tx ty, (N.land ty 0x1f = 3 -> i < lenN (tx_outputs tx)) -> single_bug tx i ty = false).
  { clear. intros tx ty S. unfold single_bug. destruct (N.eqb_spec (N.land ty 0x1f) 3) as [Q|]; [|reflexivity]. cbn [andb]. now apply N.leb_gt, S. }
  pose proof (NB _ _ S) as B. pose proof (NB _ _ S') as B'. unfold single_bug in B, B'. rewrite B in E. rewrite B' in E'.
  assert (Q : H (H (legacy_msg ty i code tx)) = H (H (legacy_msg ty' i code' tx'))) by (unfold double in E, E'; congruence). cbv zeta.
  destruct (bytes_dec (legacy_msg ty i code tx) (legacy_msg ty' i code' tx')) as [EM|NM].
  - left. now apply legacy_commits.
  - right. destruct (bytes_dec (H (legacy_msg ty i code tx)) (H (legacy_msg ty' i code' tx'))); auto.
Qed.
Theorem C39_legacy_ignores : forall H tx tx' i code ty, legacy_agree ty i tx tx' -> lenN (tx_inputs tx) = lenN (tx_inputs tx') ->
  (N.land ty 0x1f = 3 -> lenN (tx_outputs tx) = lenN (tx_outputs tx')) ->
  legacy_hash H (cache_new tx) i code ty = legacy_hash H (cache_new tx') i code ty.
Proof.
  intros H tx tx' i code ty AG LI LO. rewrite !C39_legacy, LI, (legacy_agree_msg ty i code _ _ AG). destruct (N.eqb_spec (N.land ty 0x1f) 3) as [S3|]; [|reflexivity]. now rewrite (LO S3).
Qed.

(** * Sighash types as text and numbers *)
Theorem C39_type_text : (forall t, tap_from_str (tap_display t) = Ok t) /\ (forall t, ecdsa_from_str (ecdsa_display t) = Ok t) /\
  (forall s t, tap_from_str s = Ok t -> s = tap_display t) /\ (forall s t, ecdsa_from_str s = Ok t -> s = ecdsa_display t) /\
  (forall s e, tap_from_str s = Err e -> e = s) /\ (forall s e, ecdsa_from_str s = Err e -> e = s).
Proof.
  split; [intros []; reflexivity|]. split; [intros []; reflexivity|].
  assert (SE : forall a b, str_eqb a b = true -> a = b) by (intros a b; apply LAmountText.str_eqb_eq).
  repeat split; intros s t E; unfold tap_from_str, ecdsa_from_str in E;
    repeat match type of E with (if str_eqb ?a ?b then _ else _) = _ => let Q := fresh in destruct (str_eqb a b) eqn:Q; [try discriminate E; apply SE in Q; subst s; injection E as <-; reflexivity|] end;
    first [discriminate E | congruence].
Qed.
Theorem C39_type_numbers : (forall t n, tap_from_consensus_u8 n = Ok t <-> n = tap_u8 t) /\ (forall t n, from_standard n = Ok t <-> n = ecdsa_u32 t) /\
  (forall t, from_consensus (ecdsa_u32 t) = t) /\ (forall t, tap_u8 (tap_of_ecdsa t) = ecdsa_u32 t) /\
  (forall n, anyone (ecdsa_u32 (from_consensus n)) = anyone n /\
    N.land (ecdsa_u32 (from_consensus n)) 0x1f = (if N.land n 0x1f =? 2 then 2 else if N.land n 0x1f =? 3 then 3 else 1)).
Proof.
  split; [|split; [|split; [|split]]].
  - intros t n. unfold tap_from_consensus_u8. split; [|intros ->; destruct t; reflexivity]. intro E.
    repeat match type of E with (if ?a =? ?b then _ else _) = _ => destruct (N.eqb_spec a b) as [Q|_]; [cbv iota in E; subst n; inversion E; subst t; reflexivity|cbv iota in E] end. discriminate E.
  - intros t n. unfold from_standard. split; [|intros ->; destruct t; reflexivity]. intro E.
    repeat match type of E with (if ?a =? ?b then _ else _) = _ => destruct (N.eqb_spec a b) as [Q|_]; [cbv iota in E; subst n; inversion E; subst t; reflexivity|cbv iota in E] end. discriminate E.
  - intros []; reflexivity.
  - intros []; reflexivity.
  - intro n. pose proof (consensus_bits n) as CB. destruct (from_consensus n) eqn:F; cbn [ecdsa_split] in CB; destruct CB as (B1 & _ & B3 & B4 & _); rewrite B1, B3, B4; split; reflexivity.
Qed.

(** * Examples *)
Example C39_ex_bip143 : exists c, p2wpkh_hash SHA256 (cache_new ex_tx) 1 (t_witness 0 ex_hash) 600000000 EAll = Ret (c, Ok ex_digest).
Proof. destruct (proj1 (C39_p2wpkh SHA256 ex_tx 1 600000000 EAll) ex_hash eq_refl) as [c E]. exists c. rewrite E, C39_segwit. vm_compute. reflexivity. Qed.
Lemma ex_repr : tx_repr ex_tx. Proof. repeat split; try reflexivity; repeat constructor. Qed.
Example C39_ex_hash : forall m, lenN (SHA256 m) = 32. Proof. exact SHA256_32. Qed.
Example C39_ex_taproot : exists a, tap_outcome ex_tx 1 (PAll ex_spent) (Some [0x50; 7]) (Some (repeat 3 32, 2 ^ 32 - 1)) TSingle = Ok a /\ tap_repr a /\ tap_valid a.
Proof.
  eexists. split; [reflexivity|]. split; [|split; [reflexivity|intros _; reflexivity]]. split; [exact ex_repr|]. split; [repeat constructor|]. split; [split; reflexivity|]. split; [reflexivity|].
  split; [intros x E; injection E as <-; reflexivity|intros h p E; injection E as <- <-; split; reflexivity].
Qed.
Example C39_ex_v0 : v0_repr {| va_ty := ecdsa_u32 ESingleAcp; va_tx := ex_tx; va_i := 1; va_code := t_p2pkh ex_hash; va_amount := 600000000 |}.
Proof. split; [exact ex_repr|]. repeat split; reflexivity. Qed.
Example C39_ex_history : Forall (same_spent ex_tx ex_spent)
  [CTap 0 (PAll ex_spent) None None TDefault; CWitness 0 wit_new; CLegacy 0 [1; 2] 0x42; CTap 1 (POne 1 blank) None None TSingleAcp; CTap 1 (PAll ex_spent') None None TNoneAcp; CTap 1 (PAll ex_spent) None None TSingle].
Proof. repeat constructor; try exact I; try (now right; right); now left. Qed.
Example C39_ex_legacy : tx_repr ex_tx /\ is_u32 0x83 /\ is_u64 (lenN [118; 169]) /\ 1 < lenN (tx_outputs ex_tx) /\ legacy_agree 0x82 1 ex_tx
  {| tx_version := 1; tx_lock_time := 17; tx_inputs := match tx_inputs ex_tx with [_; x] => [x; x] | l => l end; tx_outputs := [] |}.
Proof. split; [exact ex_repr|]. repeat split; try reflexivity; try (now intros); discriminate. Qed.

Print Assumptions C39_taproot.
Print Assumptions C39_taproot_paths.
Print Assumptions C39_leaf_hash.
Print Assumptions C39_annex.
Print Assumptions C39_segwit.
Print Assumptions C39_p2wpkh.
Print Assumptions C39_legacy.
Print Assumptions C39_cache.
Print Assumptions C39_stale.
Print Assumptions C39_cache_refuted.
Print Assumptions C39_taproot_commits.
Print Assumptions C39_taproot_ignores.
Print Assumptions C39_taproot_index_refuted.
Print Assumptions C39_segwit_commits.
Print Assumptions C39_segwit_ignores.
Print Assumptions C39_legacy_commits.
Print Assumptions C39_legacy_ignores.
Print Assumptions C39_type_text.
Print Assumptions C39_type_numbers.
