(** C57: what serde writes for text types, keys, numbers, lock times, amounts and fee rates is read back as the same value; what is
    accepted; no panic.  Specification: SSerde.v, SSerde2.v. *)
From Verif Require Import Base MText SText LText MBip32 SBip32 MAddress SAddress MKey SKey MU256 SU256 MLock SLock SAmount SAmountText SHex LHex MSerde SSerde LSerde LSerde2 MSerde2 SSerde2 LSerde3.
From Coq Require Import String Lia.
From Verif Require PText SBase58 PSighash PNetwork SNetwork PBip32 PAddress PKey PU256 LU256 LU256P LU256T PLock PAmount PAmountText LKey LAmountText LAddress LBase58 PBase58 MTaproot STaproot PTaproot MP2p SP2p SWire MSighash MNetwork MPow MAmount MAmountText.
Local Open Scope N_scope.
Notation flat := MSerde.flat.

(** *** Names: signature hash types, networks.  Only their own texts are read. *)
Lemma names : forall A E (f : str -> result A E) (show : A -> str), (forall a, is_ascii (show a) = true /\ (lenN (show a) <? 100) = true) ->
  (forall s a, f s = Ok a <-> s = show a) ->
  (forall a, restores (de_text (fun s => Ret (f s))) (ser_text (show a)) a) /\
  (forall tagged v a, self tagged (de_text (fun s => Ret (f s))) v = Ret (Some a) <-> v = SvStr (show a)) /\ safe (de_text (fun s => Ret (f s))).
Proof.
  intros A E f show S F. split; [|split].
  - intro a. destruct (S a) as [S1 S2]. apply text_restores; [now apply ascii_of|apply N.ltb_lt in S2; apply (N.lt_trans _ 100); [exact S2|reflexivity]|]. f_equal. now apply F.
  - intros t v a. rewrite text_offers. split.
    + intros (s & -> & K). f_equal. apply F. congruence.
    + intros ->. exists (show a). split; [reflexivity|]. f_equal. now apply F.
  - apply text_safe. discriminate.
Qed.
Theorem C57_hash_types :
  (forall t, restores de_tap_type (ser_tap_type t) t) /\ (forall tagged v t, self tagged de_tap_type v = Ret (Some t) <-> v = SvStr (MSighash.tap_display t)) /\ safe de_tap_type /\
  (forall t, restores de_ecdsa_type (ser_ecdsa_type t) t) /\ (forall tagged v t, self tagged de_ecdsa_type v = Ret (Some t) <-> v = SvStr (MSighash.ecdsa_display t)) /\ safe de_ecdsa_type.
Proof.
  destruct PSighash.C39_type_text as (T1 & T2 & T3 & T4 & _).
  destruct (names _ _ MSighash.tap_from_str MSighash.tap_display) as (A1 & A2 & A3).
  { intros []; split; reflexivity. } { intros s a. split; [apply T3|intros ->; apply T1]. }
  destruct (names _ _ MSighash.ecdsa_from_str MSighash.ecdsa_display) as (B1 & B2 & B3).
  { intros []; split; reflexivity. } { intros s a. split; [apply T4|intros ->; apply T2]. }
  exact (conj A1 (conj A2 (conj A3 (conj B1 (conj B2 B3))))).
Qed.
Theorem C57_network :
  (forall n, restores de_network (ser_network n) n) /\ (forall tagged v n, self tagged de_network v = Ret (Some n) <-> v = SvStr (SNetwork.own_name n)) /\ safe de_network /\
  (forall n, restores de_core_arg (ser_core_arg n) n) /\ (forall tagged v n, self tagged de_core_arg v = Ret (Some n) <-> v = SvStr (SNetwork.core_name n)) /\ safe de_core_arg.
Proof.
  destruct (names _ _ MNetwork.net_from_str MNetwork.net_display) as (A1 & A2 & A3).
  { intros []; split; reflexivity. } { intros s a. destruct (PNetwork.C51_display s a) as (-> & X & _). exact X. }
  destruct (names _ _ MNetwork.from_core_arg MNetwork.to_core_arg) as (B1 & B2 & B3).
  { intros []; split; reflexivity. } { intros s a. destruct (PNetwork.C51_core_arg s a) as (-> & X & _). exact X. }
  exact (conj A1 (conj A2 (conj A3 (conj B1 (conj B2 B3))))).
Qed.

(** *** Derivation paths: the text; any text of the grammar is read *)
Theorem C57_path : forall p, Forall cn_ok p -> lenN p < 2 ^ 60 -> restores de_rel_path (ser_rel_path p) p /\ restores de_abs_path (ser_abs_path p) p.
Proof.
  intros p F L. destruct (PBip32.C35_path_round_trip false p F) as [R A]. destruct (paths_ascii p F) as [[R1 R2] [A1 A2]].
  change (2 ^ 60) with 1152921504606846976 in L. split; (apply text_restores; [assumption|change (2 ^ 64) with 18446744073709551616; unfold path, child_number, str in *; lia|f_equal; assumption]).
Qed.
Theorem C57_path_accepts : forall tagged v p,
  (self tagged de_rel_path v = Ret (Some p) <-> exists s, v = SvStr s /\ rel_text s p) /\ (self tagged de_abs_path v = Ret (Some p) <-> exists s, v = SvStr s /\ abs_text s p) /\
  safe de_rel_path /\ safe de_abs_path.
Proof.
  intros t v p. unfold de_rel_path, de_abs_path. rewrite !text_offers. split; [|split; [|split; apply text_safe; discriminate]].
  - split; intros (s & -> & K); exists s; (split; [reflexivity|]); [apply PBip32.C35_relative_parse; congruence|]. f_equal. now apply PBip32.C35_relative_parse.
  - split; intros (s & -> & K); exists s; (split; [reflexivity|]); [apply PBip32.C35_absolute_parse; congruence|]. f_equal. now apply PBip32.C35_absolute_parse.
Qed.

(** *** Extended keys: the base58 text, and nothing else, is read *)
Theorem C57_extended : forall C, ecurve_ok C ->
  (forall x, xpriv_ok C x -> priv_master_rule x -> exists v, ser_xpriv x = Ret v /\ restores (de_xpriv C) v x) /\
  (forall x, xpub_ok C x -> pub_master_rule C x -> exists v, ser_xpub C x = Ret v /\ restores (de_xpub C) v x).
Proof.
  intros C OK. destruct (PBip32.C35_text C OK) as [P Q]. split; intros x X M.
  - destruct (P x X M) as (s & E & B & L & _ & R). exists (SvStr s). unfold ser_xpriv. rewrite E. split; [reflexivity|]. apply text_restores; [exact (LAddress.base58_ascii _ _ B)|rewrite L; reflexivity|exact R].
  - destruct (Q x X M) as (s & E & B & L & _ & R). exists (SvStr s). unfold ser_xpub. rewrite E. split; [reflexivity|]. apply text_restores; [exact (LAddress.base58_ascii _ _ B)|rewrite L; reflexivity|exact R].
Qed.
Theorem C57_extended_accepts : forall C tagged v, ecurve_ok C ->
  (forall x, self tagged (de_xpriv C) v = Ret (Some x) <-> xpriv_ok C x /\ priv_master_rule x /\ ser_xpriv x = Ret v) /\
  (forall x, self tagged (de_xpub C) v = Ret (Some x) <-> xpub_ok C x /\ pub_master_rule C x /\ ser_xpub C x = Ret v) /\
  safe (de_xpriv C) /\ safe (de_xpub C).
Proof.
  intros C t v OK. unfold de_xpriv, de_xpub, ser_xpriv, ser_xpub. split; [|split; [|split; apply text_safe; intro s; apply PBip32.C35_text_total]]; intro x; rewrite text_offers; split.
  - intros (s & -> & K). apply (PBip32.C35_text_parse C s OK) in K as (K1 & K2 & K3). rewrite K3. auto.
  - intros (K1 & K2 & K3). destruct (xpriv_display x) as [s|] eqn:E; [|discriminate]. exists s. cbn [rbind] in K3. split; [unfold ser_text in K3; congruence|]. apply (PBip32.C35_text_parse C s OK). auto.
  - intros (s & -> & K). apply (PBip32.C35_text_parse C s OK) in K as (K1 & K2 & K3). rewrite K3. auto.
  - intros (K1 & K2 & K3). destruct (xpub_display C x) as [s|] eqn:E; [|discriminate]. exists s. cbn [rbind] in K3. split; [unfold ser_text in K3; congruence|]. apply (PBip32.C35_text_parse C s OK). auto.
Qed.

(** *** Addresses *)
Theorem C57_address : forall sha256d a, (forall m, SWire.hash_ok (sha256d m)) -> address_ok a ->
  exists s, ser_address sha256d a = Ret (SvStr s) /\ address_text sha256d a s /\ restores (de_address sha256d) (SvStr s) a.
Proof.
  intros sha a SHA OK. destruct (PAddress.C47_display sha a SHA OK) as (s & E & T & _). exists s. unfold ser_address. rewrite E. split; [reflexivity|]. split; [exact T|].
  destruct (address_text_ascii sha a s SHA OK T) as [As L]. apply text_restores; [exact As|apply (N.le_lt_trans _ 128); [exact L|reflexivity]|].
  apply (proj2 (PAddress.C47_parse sha s SHA)). split; [exact OK|]. exists s. auto.
Qed.
Theorem C57_address_accepts : forall sha256d tagged v a, (forall m, SWire.hash_ok (sha256d m)) ->
  (self tagged (de_address sha256d) v = Ret (Some a) <-> address_ok a /\ exists t, address_text sha256d a t /\ (v = SvStr t \/ (is_segwit a /\ v = SvStr (SBech32.upper t)))) /\ safe (de_address sha256d).
Proof.
  intros sha t v a SHA. unfold de_address. split; [|apply text_safe; intro s; apply (PAddress.C47_parse sha s SHA)]. rewrite text_offers. split.
  - intros (s & -> & K). apply (proj2 (PAddress.C47_parse sha s SHA)) in K as (O & u & T & [->|[G ->]]); split; auto; exists u; auto.
  - intros (O & u & T & [->|[G ->]]); eexists; (split; [reflexivity|]); apply (PAddress.C47_parse sha _ SHA); split; auto; exists u; auto.
Qed.

(** *** Private keys in wallet import format: the text in every format; bytes that are the text are read too *)
Theorem C57_wif : forall sha256d C k, (forall m, SWire.hash_ok (sha256d m)) -> kcurve_ok C -> secret_valid C (pk_key (wk_private k)) ->
  exists s, ser_wif sha256d k = Ret (SvStr s) /\ wif_text sha256d k s /\ restores (de_wif sha256d C) (SvStr s) k.
Proof.
  intros sha C k SHA OKC V. destruct (PKey.C49_wif_write sha C k SHA OKC V) as (s & E & T). exists s. unfold ser_wif. rewrite E. split; [reflexivity|]. split; [exact T|].
  apply str_restores; [exact (LAddress.base58_ascii _ _ T)| |].
  - apply (N.le_lt_trans _ 128); [|reflexivity]. apply (LBase58.base58_len _ _ T). rewrite lenN_app. unfold wif_payload. rewrite lenN_cons, lenN_app, LSha2b.be_bytes_len.
    assert (F : forall m, lenN (firstn 4 (sha m)) <= 4) by (intro m; unfold lenN; pose proof (firstn_le_length 4 (sha m)); lia). match goal with |- context [sha ?m] => specialize (F m); set (x := lenN (firstn 4 (sha m))) in * end. clearbody x. destruct (pk_compressed (wk_private k)); [change (lenN [1]) with 1|change (lenN []) with 0]; lia.
  - apply r_ok_some. apply (PKey.C49_wif_read sha C s k SHA OKC). auto.
Qed.
Theorem C57_wif_accepts : forall sha256d C tagged v k, (forall m, SWire.hash_ok (sha256d m)) -> kcurve_ok C ->
  (self tagged (de_wif sha256d C) v = Ret (Some k) <-> exists s, offers true v s /\ secret_valid C (pk_key (wk_private k)) /\ wif_text sha256d k s) /\ safe (de_wif sha256d C).
Proof.
  intros sha C t v k SHA OKC. unfold de_wif. split; [|apply str_safe; intro s; apply r_ok_safe; apply (PKey.C49_wif_read sha C s k SHA OKC)].
  rewrite str_offers. split; intros (s & O & K); exists s; (split; [exact O|]); [apply (PKey.C49_wif_read sha C s k SHA OKC); now apply r_ok_some|]. apply r_ok_some. now apply (PKey.C49_wif_read sha C s k SHA OKC).
Qed.

(** *** Public keys: lower case hexadecimal of the serialised key, or its bytes *)
Theorem C57_legacy : forall C human k, kcurve_ok C ->
  (exists s, ser_legacy C true k = SvStr s /\ spells false s (pub_bytes C k)) /\ ser_legacy C false k = SvBytes (pub_bytes C k) /\
  restores (de_legacy C human) (ser_legacy C human k) k.
Proof.
  intros C human k OKC. destruct (PKey.C49_public_bytes C (pub_bytes C k) k OKC) as (_ & B & S & L). destruct (PKey.C49_public_text C (lk_display C k) k OKC) as (_ & _ & H & _ & R).
  assert (OK : bytes_ok (pub_bytes C k)) by (unfold pub_bytes; destruct (lk_compressed C k); [apply (k_ser33 C OKC)|apply (k_ser65 C OKC)]).
  assert (LL : lenN (pub_bytes C k) <= 65) by (rewrite L; destruct (lk_compressed C k); lia). clear L.
  assert (D : lk_display C k = hex_bytes false (pub_bytes C k)).
  { transitivity (map lower (lk_display C k)); [symmetry; apply (PKey.C49_public_text C (lk_display C k) k OKC)|]. now apply lower_hex. }
  split; [exists (lk_display C k); split; [reflexivity|rewrite D; now apply hex_spells]|]. split; [cbn [ser_legacy]; now rewrite S|].
  destruct human; cbn [ser_legacy de_legacy].
  - rewrite D in *. apply str_restores; [now apply hex_ascii|rewrite hex_bytes_len; apply (N.le_lt_trans _ 130); [lia|reflexivity]|]. now apply r_ok_some.
  - rewrite S. apply bytes_restores; [apply (N.le_lt_trans _ 65); [exact LL|reflexivity]|]. apply r_ok_some. now apply B.
Qed.
Theorem C57_legacy_accepts : forall C tagged v k, kcurve_ok C ->
  (self tagged (de_legacy C true) v = Ret (Some k) <-> exists s, offers true v s /\ hex_of s (pub_bytes C k)) /\
  (self tagged (de_legacy C false) v = Ret (Some k) <-> v = SvBytes (pub_bytes C k)) /\ safe (de_legacy C true) /\ safe (de_legacy C false).
Proof.
  intros C t v k OKC. cbn [de_legacy]. split; [|split; [|split]].
  - rewrite str_offers. split; intros (s & O & K); exists s; (split; [exact O|]); [apply (PKey.C49_public_text C s k OKC); now apply r_ok_some|]. apply r_ok_some. now apply (PKey.C49_public_text C s k OKC).
  - rewrite bytes_offers. split.
    + intros (b & -> & K). f_equal. apply (PKey.C49_public_bytes C b k OKC). now apply r_ok_some.
    + intros ->. eexists. split; [reflexivity|]. apply r_ok_some. now apply (PKey.C49_public_bytes C _ k OKC).
  - apply str_safe. intro s. apply r_ok_safe. apply (PKey.C49_public_text C s k OKC).
  - apply bytes_safe. intro s. apply r_ok_safe. apply (PKey.C49_public_bytes C s k OKC).
Qed.
Theorem C57_full : forall C human k, kcurve_ok C ->
  (exists s, ser_full C true k = SvStr s /\ spells false s (kc_ser33 C k)) /\ ser_full C false k = SvBytes (kc_ser33 C k) /\
  restores (de_full C human) (ser_full C human k) k.
Proof.
  intros C human k OKC. destruct (k_ser33 C OKC k) as (OK & L & _). destruct (PKey.C49_full C (kc_ser33 C k) (fk_display C k) k OKC L) as (B & S & _ & H & LW & R).
  assert (D : fk_display C k = hex_bytes false (kc_ser33 C k)) by (transitivity (map lower (fk_display C k)); [now symmetry|now apply lower_hex]).
  split; [exists (fk_display C k); split; [reflexivity|rewrite D; now apply hex_spells]|]. split; [cbn [ser_full]; now rewrite S|].
  destruct human; cbn [ser_full de_full].
  - rewrite D in *. apply str_restores; [now apply hex_ascii|rewrite hex_bytes_len, L; reflexivity|]. now rewrite R.
  - rewrite S. apply bytes_restores; [rewrite L; reflexivity|]. rewrite L, N.eqb_refl. unfold some. f_equal. now apply B.
Qed.
Theorem C57_full_accepts : forall C tagged v k, kcurve_ok C ->
  (self tagged (de_full C true) v = Ret (Some k) <-> exists s, offers true v s /\ hex_of s (kc_ser33 C k)) /\
  (self tagged (de_full C false) v = Ret (Some k) <-> v = SvBytes (kc_ser33 C k)) /\ safe (de_full C true) /\ safe (de_full C false).
Proof.
  intros C t v k OKC. destruct (k_ser33 C OKC k) as (OK & L & _). cbn [de_full].
  assert (I : forall s, Ret (ok_only (fk_from_str C s)) = Ret (Some k) <-> hex_of s (kc_ser33 C k)).
  { intro s. rewrite <- (proj1 (proj2 (proj2 (PKey.C49_full C (kc_ser33 C k) s k OKC L)))). destruct (fk_from_str C s); cbn [ok_only]; split; intro; try discriminate; congruence. }
  split; [|split; [|split]].
  - rewrite str_offers. split; intros (s & O & K); exists s; (split; [exact O|]); now apply I.
  - rewrite bytes_offers. split.
    + intros (b & -> & K). destruct (N.eqb_spec (lenN b) 33) as [LB|]; [|discriminate]. f_equal. apply (PKey.C49_full C b [] k OKC LB). congruence.
    + intros ->. eexists. split; [reflexivity|]. rewrite L, N.eqb_refl. f_equal. now apply (PKey.C49_full C (kc_ser33 C k) [] k OKC L).
  - apply str_safe. discriminate.
  - apply bytes_safe. intro s. destruct (_ =? _); discriminate.
Qed.

(** *** X-only public keys: the 32 bytes, without the parity, which is always read as even *)
Theorem C57_xonly : forall (C : MTaproot.curve) human k, STaproot.curve_ok C ->
  (exists s, ser_xonly C true k = SvStr s /\ spells false s (MTaproot.c_ser C (MTaproot.xo_key k))) /\
  ser_xonly C false k = SvTuple (map (SvU 8) (MTaproot.c_ser C (MTaproot.xo_key k))) /\
  restores (de_xonly C human) (ser_xonly C human k) (MTaproot.mk_xonly (MTaproot.xo_key k) false).
Proof.
  intros C human [k o] OKC. unfold ser_xonly, de_xonly, MTaproot.xonly_ser, MTaproot.xonly_parse. cbn [MTaproot.xo_key]. destruct (STaproot.ser_32 C OKC k) as [L B]. pose proof (STaproot.parse_ser C OKC k) as P.
  split; [eexists; split; [reflexivity|now apply hex_spells]|]. split; [reflexivity|]. destruct human.
  - apply str_restores; [now apply hex_ascii|rewrite hex_bytes_len, L; reflexivity|]. assert (X : decode_to_array 32 (hex_bytes false (MTaproot.c_ser C k)) = Ok (MTaproot.c_ser C k)) by (apply LKey.array_spec; split; [now apply hex_bytes_of|exact L]).
    rewrite X, P. reflexivity.
  - apply (arr_self_seq _ 32); [exact B|exact L|]. now rewrite P.
Qed.
Theorem C57_xonly_accepts : forall (C : MTaproot.curve) tagged v k, STaproot.curve_ok C ->
  (self tagged (de_xonly C true) v = Ret (Some k) <-> MTaproot.xo_odd k = false /\ exists s, v = SvStr s /\ hex_of s (MTaproot.c_ser C (MTaproot.xo_key k))) /\
  (self tagged (de_xonly C false) v = Ret (Some k) <-> MTaproot.xo_odd k = false /\ offers_array v (MTaproot.c_ser C (MTaproot.xo_key k))) /\
  safe (de_xonly C true) /\ safe (de_xonly C false).
Proof.
  intros C t v [k o] OKC. cbn [MTaproot.xo_odd MTaproot.xo_key]. unfold de_xonly. destruct (STaproot.ser_32 C OKC k) as [L B]. pose proof (STaproot.parse_ser C OKC k) as P.
  assert (I : forall b, bytes_ok b -> lenN b = 32 -> (MTaproot.xonly_parse (C := C) b = Some (MTaproot.mk_xonly k o) <-> o = false /\ b = MTaproot.c_ser C k)).
  { intros b Bb Lb. unfold MTaproot.xonly_parse. split.
    - destruct (MTaproot.c_parse C b) as [k'|] eqn:E; [|discriminate]. intro H. inversion H; subst. split; [reflexivity|]. symmetry. apply (STaproot.ser_parse C OKC b k); [split; assumption|exact E].
    - intros [-> ->]. now rewrite P. }
  split; [|split; [|split]].
  - rewrite str_offers. split.
    + intros (s & [->|[X _]] & K); [|discriminate]. destruct (decode_to_array 32 s) as [b|] eqn:D; [|discriminate]. apply LKey.array_spec in D as [D Lb]. apply (f_equal (fun r => match r with Ret x => x | Panic => None end)) in K.
      apply I in K as [-> ->]; [|exact (hex_of_bytes _ _ D)|exact Lb]. split; [reflexivity|]. eauto.
    + intros [-> (s & -> & K)]. exists s. split; [now left|]. assert (X : decode_to_array 32 s = Ok (MTaproot.c_ser C k)) by (apply LKey.array_spec; auto). rewrite X. f_equal. apply I; auto.
  - rewrite arr_offers. split.
    + intros (b & O & Lb & K). assert (Bb : bytes_ok b) by (destruct O as (l & _ & F); clear - F; induction F as [|x y l b [_ H] F IH]; constructor; assumption).
      apply (f_equal (fun r => match r with Ret x => x | Panic => None end)) in K. apply I in K as [-> ->]; auto.
    + intros [-> O]. eexists. split; [exact O|]. split; [exact L|]. f_equal. apply I; auto.
  - apply str_safe. intro s. destruct (decode_to_array 32 s); discriminate.
  - apply arr_safe. discriminate.
Qed.
Theorem C57_xonly_parity_refuted : forall (C : MTaproot.curve) human key, STaproot.curve_ok C ->
  ~ reads_self (de_xonly C human) (ser_xonly C human (MTaproot.mk_xonly key true)) (MTaproot.mk_xonly key true).
Proof.
  intros C human key OKC H. destruct (C57_xonly C human (MTaproot.mk_xonly key true) OKC) as (_ & _ & R & _). cbn [MTaproot.xo_key] in R.
  specialize (H true). specialize (R true). rewrite H in R. discriminate R.
Qed.

(** *** 256-bit numbers (Target, Work): 64 lower case hexadecimal digits, or 32 big-endian bytes *)
Theorem C57_u256 : forall human u, u256_ok u ->
  (exists s, ser_u256 true u = SvStr s /\ spells false s (rev (le_bytes 32 (value u)))) /\ ser_u256 false u = SvBytes (rev (le_bytes 32 (value u))) /\
  restores (de_u256 human) (ser_u256 human u) u.
Proof.
  intros human u U. destruct (PU256.C22_bytes u U) as (_ & E & _ & B). pose proof (proj1 (LU256P.ok_wf u) U) as W. destruct (LU256P.to_be_ok u W) as [OK LN].
  destruct (PU256.C22_hex false u U) as (_ & L & _ & H & _). unfold u_hex in L, H. cbn [app] in L, H.
  split; [eexists; split; [reflexivity|rewrite <- E; now apply hex_spells]|]. split; [cbn [ser_u256]; now rewrite E|]. destruct human; cbn [ser_u256 de_u256].
  - assert (LL : lenN (hex_bytes false (to_be_bytes u)) = 64) by (unfold lenN; rewrite L; reflexivity). pose proof (hex_ascii false _ OK) as A.
    apply str_restores; [exact A|rewrite LL; reflexivity|]. rewrite (ascii_len _ (proj2 (ascii_of _) A)), LL. cbn [N.eqb Pos.eqb]. rewrite H. unfold some. do 2 f_equal.
    rewrite LU256P.value_val. exact (LU256.of_val_val u W).
  - apply bytes_restores; [unfold lenN; rewrite LN; reflexivity|]. unfold lenN. rewrite LN. change (N.of_nat 32 =? 32) with true. cbn iota. unfold some. now rewrite B.
Qed.
Theorem C57_u256_accepts : forall tagged u,
  (forall s, ~ In 43 s -> (self tagged (de_u256 true) (SvStr s) = Ret (Some u) <-> u256_ok u /\ lenN s = 64 /\ numeral digit16 16 s (value u))) /\
  (forall b, bytes_ok b -> (self tagged (de_u256 false) (SvBytes b) = Ret (Some u) <-> u256_ok u /\ b = rev (le_bytes 32 (value u)))) /\
  (forall v, self tagged (de_u256 true) v = Ret (Some u) -> exists s, v = SvStr s) /\ (forall v, self tagged (de_u256 false) v = Ret (Some u) -> exists b, v = SvBytes b) /\
  safe (de_u256 true) /\ safe (de_u256 false).
Proof.
  intros t u. cbn [de_u256]. split; [|split; [|split; [|split; [|split]]]].
  - intros s NP. cbn [self]. split.
    + destruct (N.eqb_spec (str_len s) 64) as [L|]; [|discriminate]. destruct (hex_u256_unprefixed s) as [n|] eqn:E; [|discriminate]. intro H.
      apply (PText.C37_hex256 s n NP) in E as (_ & Nm & Lt). assert (u = u256_of n) as -> by (unfold some in H; congruence). clear H. change (2 ^ 256) with (LU256.W256) in Lt.
      change (u256_of n) with (LU256.of_val n). split; [apply LU256P.ok_wf; now apply LU256.wf_of|]. split; [rewrite <- L; symmetry; apply ascii_len; now apply (numeral_ascii s n)|]. rewrite LU256P.value_val, LU256.val_of. exact Nm.
    + intros (U & L & Nm). rewrite (ascii_len s (numeral_ascii s _ Nm)), L. cbn [N.eqb Pos.eqb].
      assert (E : hex_u256_unprefixed s = Ok (value u)).
      { apply (PText.C37_hex256 s _ NP). split; [|split; [exact Nm|rewrite LU256P.value_val; apply (LU256.val_lt u); now apply LU256P.ok_wf]].
        intros p r P ->. destruct (numeral_in _ _ _ _ (nth 1 p 0) Nm) as [d D].
        - apply in_or_app. left. destruct P as [-> | ->]; right; left; reflexivity.
        - destruct P as [-> | ->]; cbn [nth] in D; unfold digit16, digit10 in D; lia. }
      rewrite E. unfold some. do 2 f_equal. rewrite LU256P.value_val. apply LU256.of_val_val. now apply LU256P.ok_wf.
  - intros b B. cbn [self]. split.
    + destruct (N.eqb_spec (lenN b) 32) as [L|]; [|discriminate]. intro H. assert (u = from_be_bytes b) as -> by (unfold some in H; congruence). clear H.
      assert (L' : List.length b = 32%nat) by (unfold lenN in L; lia). destruct (PU256.C22_from_bytes b B L') as (_ & [U V] & _ & W). split; [exact U|]. rewrite V.
      assert (X : rev (le_bytes 32 (value (from_be_bytes b))) = b) by (rewrite <- W at 2; symmetry; apply (PU256.C22_bytes _ U)). rewrite V in X. now symmetry.
    + intros [U ->]. destruct (PU256.C22_bytes u U) as (_ & E & _ & F). rewrite <- E. destruct (LU256P.to_be_ok u (proj1 (LU256P.ok_wf u) U)) as [_ LN]. unfold lenN. rewrite LN. change (N.of_nat 32 =? 32) with true. cbn iota. unfold some. now rewrite F.
  - intros v. cbn [self]. destruct v; try discriminate. eauto.
  - intros v. cbn [self]. destruct v; try discriminate. eauto.
  - apply str_safe. intro s. destruct (_ =? _); [|discriminate]. destruct (hex_u256_unprefixed s); discriminate.
  - apply bytes_safe. intro s. destruct (_ =? _); discriminate.
Qed.
Theorem C57_u256_plus_refuted : exists s u, (forall tagged, self tagged (de_u256 true) (SvStr s) = Ret (Some u)) /\ forall b, ~ hex_of s b.
Proof.
  exists (43 :: repeat 48 30 ++ [49] ++ repeat 48 32), (U 1 0). split; [intro t; vm_compute; reflexivity|].
  intros b H. destruct (hex_of_in _ _ 43 H) as [d D]; [now left|]. unfold digit16, digit10 in D. lia.
Qed.

(** *** Plain numbers *)
Theorem C57_numbers : forall bits n, width bits -> n < 2 ^ bits -> restores (de_uint bits) (ser_uint bits n) n.
Proof. intros bits n W L. unfold restores. apply uint_restores; [exact W|exact L|reflexivity]. Qed.
Theorem C57_numbers_accept : forall bits tagged v n, (self tagged (de_uint bits) v = Ret (Some n) <-> offers_uint v n /\ n < 2 ^ bits) /\ safe (de_uint bits).
Proof.
  intros bits t v n. split; [|apply uint_safe; discriminate]. unfold de_uint. rewrite uint_offers. split.
  - intros (w & m & -> & L & K). assert (m = n) as -> by (unfold some in K; congruence). split; [now exists w|exact L].
  - intros [[w ->] L]. exists w, n. auto.
Qed.
Theorem C57_block_version : forall z, SP2p.is_i 32 z -> restores de_block_version (ser_block_version z) z /\
  (forall tagged v, self tagged de_block_version v = Ret (Some z) <-> offers_int v z) /\ safe de_block_version.
Proof.
  intros z Z. split; [|split; [|apply int_safe; discriminate]].
  - unfold restores. apply int_restores; [now left|exact Z|reflexivity].
  - intros t v. unfold de_block_version. rewrite int32_offers. split.
    + intros (x & O & _ & K). assert (x = z) as -> by (unfold some in K; congruence). exact O.
    + intro O. exists z. split; [exact O|]. split; [exact Z|reflexivity].
Qed.
Theorem C57_witness_version : (forall n, n <= 16 -> restores de_witness_version (ser_witness_version n) n) /\
  (forall tagged v n, self tagged de_witness_version v = Ret (Some n) <-> offers_uint v n /\ n <= 16) /\ safe de_witness_version.
Proof.
  split; [|split; [|apply uint_safe; intro n; destruct (n <=? 16); discriminate]].
  - intros n L. unfold restores. apply uint_restores; [now left|apply (N.le_lt_trans _ 16); [exact L|reflexivity]|]. destruct (N.leb_spec n 16); [reflexivity|lia].
  - intros t v n. unfold de_witness_version. rewrite uint_offers. split.
    + intros (w & m & -> & L & K). destruct (N.leb_spec m 16); [|discriminate]. assert (m = n) as -> by (unfold some in K; congruence). split; [now exists w|assumption].
    + intros [[w ->] L]. exists w, n. split; [reflexivity|]. split; [apply (N.le_lt_trans _ 16); [exact L|reflexivity]|]. destruct (N.leb_spec n 16); [reflexivity|lia].
Qed.

(** *** Lock times: the consensus number.  An absolute one is read from every 32-bit number; a relative one from those without bit 31,
    of which only bit 22 and the low 16 bits are kept *)
Theorem C57_absolute : forall l, abs_ok l -> restores de_abs_lock (ser_abs_lock l) l /\
  (forall tagged v, self tagged de_abs_lock v = Ret (Some l) <-> offers_uint v (abs_to_consensus l)) /\
  (forall tagged n, n < 2 ^ 32 -> exists l', self tagged de_abs_lock (SvU 32 n) = Ret (Some l') /\ abs_ok l' /\ abs_to_consensus l' = n) /\ safe de_abs_lock.
Proof.
  intros l A. destruct PLock.C20_bijection as [B1 B2]. destruct (B2 l A) as [U R]. split; [|split; [|split]].
  - unfold restores. apply uint_restores; [right; right; now left|exact U|]. rewrite R. reflexivity.
  - intros t v. unfold de_abs_lock. rewrite uint_offers. split.
    + intros (w & n & -> & L & K). destruct (B1 n L) as (l' & E & _ & V & _). rewrite E in K. cbn [rbind] in K. assert (l' = l) as -> by (unfold some in K; congruence). exists w. now rewrite V.
    + intros [w ->]. exists w, (abs_to_consensus l). split; [reflexivity|]. split; [exact U|]. rewrite R. reflexivity.
  - intros t n L. destruct (B1 n L) as (l' & E & A' & V & _). exists l'. split; [|auto]. unfold de_abs_lock. apply uint_offers. exists 32, n. split; [reflexivity|]. split; [exact L|]. rewrite E. reflexivity.
  - apply uint_safe. intro n. unfold abs_from_consensus, height_from_u32, mtp_from_u32, is_block_height, is_block_time, LOCK_TIME_THRESHOLD.
    destruct (N.ltb_spec n 500000000); [discriminate|]. destruct (N.leb_spec 500000000 n); [discriminate|lia].
Qed.
Theorem C57_heights : (forall h, height_ok h -> restores de_height (ser_height h) h) /\ (forall t, mtp_ok t -> restores de_mtp (ser_mtp t) t) /\
  (forall tagged v h, self tagged de_height v = Ret (Some h) <-> offers_uint v h /\ height_ok h) /\ (forall tagged v t, self tagged de_mtp v = Ret (Some t) <-> offers_uint v t /\ mtp_ok t) /\
  safe de_height /\ safe de_mtp.
Proof.
  unfold de_height, de_mtp, height_from_u32, mtp_from_u32, is_block_height, is_block_time, LOCK_TIME_THRESHOLD, height_ok, mtp_ok.
  split; [|split; [|split; [|split; [|split; apply uint_safe; discriminate]]]].
  - intros h H. unfold restores. apply uint_restores; [right; right; now left|apply (N.lt_trans _ 500000000); [exact H|reflexivity]|]. destruct (N.ltb_spec h 500000000); [reflexivity|lia].
  - intros h [H L]. unfold restores. apply uint_restores; [right; right; now left|exact L|]. destruct (N.leb_spec 500000000 h); [reflexivity|lia].
  - intros t v h. rewrite uint_offers. split.
    + intros (w & n & -> & L & K). destruct (N.ltb_spec n 500000000); [|discriminate]. cbn [ok_only] in K. assert (n = h) as -> by congruence. split; [now exists w|assumption].
    + intros [[w ->] H]. exists w, h. split; [reflexivity|]. split; [apply (N.lt_trans _ 500000000); [exact H|reflexivity]|]. destruct (N.ltb_spec h 500000000); [reflexivity|lia].
  - intros t v h. rewrite uint_offers. split.
    + intros (w & n & -> & L & K). destruct (N.leb_spec 500000000 n); [|discriminate]. cbn [ok_only] in K. assert (n = h) as -> by congruence. split; [now exists w|auto].
    + intros [[w ->] [H L]]. exists w, h. split; [reflexivity|]. split; [exact L|]. destruct (N.leb_spec 500000000 h); [reflexivity|lia].
Qed.
Theorem C57_relative : (forall l, rel_ok l -> restores de_rel_lock (ser_rel_lock l) l) /\
  (forall tagged v l, self tagged de_rel_lock v = Ret (Some l) <->
     exists n, offers_uint v n /\ n < 2 ^ 31 /\ l = if N.testbit n 22 then RTime (n mod 2 ^ 16) else RBlocks (n mod 2 ^ 16)) /\ safe de_rel_lock.
Proof.
  destruct PLock.C21_encode as [E _]. split; [|split; [|apply uint_safe; discriminate]].
  - intros l R. destruct (E l R) as (F & _ & U). unfold restores. apply uint_restores; [right; right; now left|exact U|]. rewrite F. reflexivity.
  - intros t v l. unfold de_rel_lock. rewrite uint_offers.
    assert (D : forall n, n < 2 ^ 32 -> (Ret (ok_only (rel_from_consensus n)) = Ret (Some l) <-> n < 2 ^ 31 /\ l = if N.testbit n 22 then RTime (n mod 2 ^ 16) else RBlocks (n mod 2 ^ 16))).
    { intros n L. destruct (PLock.C21_decode n) as (D1 & D2 & _). rewrite D2, D1.
      assert (T : N.testbit n 31 = (2 ^ 31 <=? n)).
      { destruct (N.leb_spec (2 ^ 31) n) as [G|G].
        - apply N.testbit_true. change (2 ^ 31) with 2147483648 in *. change (2 ^ 32) with 4294967296 in *. assert (n / 2147483648 = 1) as -> by (symmetry; apply (N.div_unique n 2147483648 1 (n - 2147483648)); lia). reflexivity.
        - apply N.testbit_false. rewrite N.div_small by exact G. reflexivity. }
      rewrite T. destruct (N.leb_spec (2 ^ 31) n); cbn [ok_only]; split; intro H0; try discriminate; [lia|split; [assumption|congruence]|]. destruct H0 as [_ ->]. reflexivity. }
    split.
    + intros (w & n & -> & L & K). apply D in K; [|exact L]. exists n. split; [now exists w|exact K].
    + intros (n & [w ->] & L & K). assert (L' : n < 2 ^ 32) by (apply (N.lt_trans _ (2 ^ 31)); [exact L|reflexivity]). exists w, n. split; [reflexivity|]. split; [exact L'|]. apply D; auto.
Qed.

(** *** Amounts in satoshi: a signed 64-bit number *)
Lemma into_ok : forall sg a, valid sg a -> into_signed sg a = Ret a /\ valid_signed a.
Proof.
  intros [] a V; cbn [into_signed valid] in *; [auto|]. destruct (PAmount.C17_conversions_total a V) as (E & _). split; [exact E|]. unfold valid_amount, valid_signed, SUPPLY in *. lia.
Qed.
Lemma try_ok : forall sg a, valid_signed a -> try_from_signed sg a <> Panic /\ forall b, try_from_signed sg a = Ret (Some b) <-> b = a /\ valid sg a.
Proof.
  intros [] a V; cbn [try_from_signed valid].
  - split; [discriminate|]. intro b. unfold some. split; [intro H; split; [congruence|exact V]|intros [-> _]; reflexivity].
  - unfold MAmount.signed_to_unsigned, MAmount.amount_from_sat. unfold valid_signed, valid_amount, SUPPLY in *. change MAmount.AMOUNT_MAX with 2100000000000000%Z.
    destruct (Z.ltb_spec a 0); [split; [discriminate|]; intro b; split; [discriminate|lia]|]. destruct (Z.ltb_spec 2100000000000000 a); [lia|].
    split; [discriminate|]. intro b. cbn. split; [intro X; split; [congruence|lia]|intros [-> _]; reflexivity].
Qed.
Lemma sat_ok : forall z, (exists e, MAmount.signed_from_sat z = Err e /\ ~ valid_signed z) \/ (MAmount.signed_from_sat z = Ok z /\ valid_signed z).
Proof.
  intro z. unfold MAmount.signed_from_sat, valid_signed, SUPPLY. change MAmount.SIGNED_MIN with (-2100000000000000)%Z. change MAmount.AMOUNT_MAX with 2100000000000000%Z.
  destruct (Z.ltb_spec z (-2100000000000000)); [left; eexists; split; [reflexivity|lia]|]. destruct (Z.ltb_spec 2100000000000000 z); [left; eexists; split; [reflexivity|lia]|]. right. split; [reflexivity|lia].
Qed.
Lemma read_sat : forall sg z, obind (Ret (ok_only (MAmount.signed_from_sat z))) (try_from_signed sg) <> Panic /\
  forall a, obind (Ret (ok_only (MAmount.signed_from_sat z))) (try_from_signed sg) = Ret (Some a) <-> a = z /\ valid sg z.
Proof.
  intros sg z. destruct (sat_ok z) as [(e & -> & NV)|[-> V]]; cbn [ok_only obind]; [|now apply try_ok].
  split; [discriminate|]. intro a. split; [discriminate|]. intros [_ X]. exfalso. apply NV. destruct (into_ok sg z X) as [_ Y]. exact Y.
Qed.
Lemma sat_restores : forall sg a, valid sg a -> ser_sat sg a = Ret (SvI 64 a) /\ restores (de_sat sg) (SvI 64 a) a.
Proof.
  intros sg a V. destruct (into_ok sg a V) as [E VS]. unfold ser_sat. rewrite E. split; [reflexivity|]. unfold restores. apply int_restores; [now right| |apply read_sat; auto].
  unfold SP2p.is_i, valid_signed, SUPPLY in *. change (2 ^ (Z.of_N 64 - 1))%Z with 9223372036854775808%Z. lia.
Qed.
Lemma sat_safe : forall sg, safe (de_sat sg).
Proof. intro sg. apply int_safe. intro z. apply read_sat. Qed.
Lemma each_map : forall A (f : A -> rust sval) g l, Forall (fun a => f a = Ret (g a)) l -> ser_each f l = Ret (map g l).
Proof. intros A f g l F. induction F as [|a l E F IH]; [reflexivity|]. cbn [ser_each map]. rewrite E. cbn [rbind]. rewrite IH. reflexivity. Qed.
Theorem C57_amount_sat : forall signed a, valid signed a ->
  ser_sat signed a = Ret (SvI 64 a) /\ restores (de_sat signed) (SvI 64 a) a /\ ser_sat_opt signed (Some a) = Ret (SvSome (SvI 64 a)) /\
  restores (de_sat_opt signed) (SvSome (SvI 64 a)) (Some a) /\ ser_sat_opt signed None = Ret SvNone /\ restores (de_sat_opt signed) SvNone None.
Proof.
  intros sg a V. destruct (sat_restores sg a V) as [E R]. split; [exact E|]. split; [exact R|]. split; [cbn [ser_sat_opt]; now rewrite E|]. split; [now apply opt_restores_some|]. split; [reflexivity|apply opt_restores_none].
Qed.
Theorem C57_amount_sat_vec : forall signed l, Forall (valid signed) l -> lenN l < 2 ^ 64 ->
  ser_sat_vec signed l = Ret (SvSeq (map (SvI 64) l)) /\ restores (de_sat_vec signed) (SvSeq (map (SvI 64) l)) l.
Proof.
  intros sg l F L. split.
  - unfold ser_sat_vec. rewrite (each_map _ _ (SvI 64)); [reflexivity|]. eapply Forall_impl; [|exact F]. intros a V. apply (sat_restores sg a V).
  - apply (seq_restores _ _ _ _ _ l); [|unfold lenN in *; now rewrite map_length|reflexivity]. clear L. induction F as [|a l V F IH]; [constructor|]. cbn [map]. constructor; [apply (sat_restores sg a V)|exact IH].
Qed.
Theorem C57_amount_sat_accepts : forall signed tagged v a, (self tagged (de_sat signed) v = Ret (Some a) <-> offers_int v a /\ valid signed a) /\
  safe (de_sat signed) /\ safe (de_sat_opt signed) /\ safe (de_sat_vec signed).
Proof.
  intros sg t v a. split; [|split; [apply sat_safe|split; [apply opt_safe; apply sat_safe|apply seq_safe; [apply sat_safe|discriminate]]]]. unfold de_sat. rewrite int_offers. split.
  - intros (z & O & _ & K). apply read_sat in K as [-> V]. auto.
  - intros [O V]. exists a. split; [exact O|]. split; [|apply read_sat; auto]. destruct (into_ok sg a V) as [_ X]. unfold valid_signed, SUPPLY in X. change (2 ^ 63)%Z with 9223372036854775808%Z. lia.
Qed.

(** *** Amounts as text in bitcoin *)
Lemma btc_parse : forall sg s, obind (r_ok (MAmountText.signed_from_str_in s MAmountText.Bitcoin)) (try_from_signed sg) <> Panic /\
  forall a, obind (r_ok (MAmountText.signed_from_str_in s MAmountText.Bitcoin)) (try_from_signed sg) = Ret (Some a) <-> str_len s <= 50 /\ signed_text MAmountText.Bitcoin s a /\ valid sg a.
Proof.
  intros sg s. destruct (PAmountText.C18_total s MAmountText.Bitcoin) as (_ & [r E] & _). pose proof (PAmountText.C18_parse_signed s MAmountText.Bitcoin) as P. rewrite E in *. unfold r_ok. cbn [rbind].
  destruct r as [x|e]; cbn [ok_only obind].
  - destruct (proj1 (P x) eq_refl) as (L & T & B). assert (VS : valid_signed x) by (unfold valid_signed, SUPPLY; lia). destruct (try_ok sg x VS) as [T1 T2]. split; [exact T1|]. intro a. rewrite T2. split.
    + intros [-> V]. auto.
    + intros (L' & T' & V). destruct (into_ok sg a V) as [_ VS']. assert (X : Ret (Ok x) = Ret (Ok a) :> rust (result Z MAmountText.parse_amount_err)).
      { apply P. split; [exact L'|]. split; [exact T'|]. unfold valid_signed, SUPPLY in VS'. lia. }
      assert (x = a) by congruence. subst. auto.
  - split; [discriminate|]. intro a. split; [discriminate|]. intros (L' & T' & V). destruct (into_ok sg a V) as [_ VS'].
    assert (X : Ret (Err e) = Ret (Ok a) :> rust (result Z MAmountText.parse_amount_err)) by (apply P; split; [exact L'|]; split; [exact T'|]; unfold valid_signed, SUPPLY in VS'; lia). discriminate.
Qed.
Lemma btc_restores : forall sg a, valid sg a -> exists s, ser_btc_str sg a = Ret (SvStr s) /\ str_len s <= 50 /\ signed_text MAmountText.Bitcoin s a /\ restores (de_btc_str sg) (SvStr s) a.
Proof.
  intros sg a V. destruct (into_ok sg a V) as [E VS]. assert (B : (Z.abs a <= 2100000000000000)%Z) by (unfold valid_signed, SUPPLY in VS; lia).
  destruct (PAmountText.C18_round_trip_signed a MAmountText.Bitcoin B) as (s & D & R). apply PAmountText.C18_parse_signed in R as (L & T & _). exists s. unfold ser_btc_str. rewrite E. cbn [rbind]. rewrite D. split; [reflexivity|].
  split; [exact L|]. split; [exact T|]. pose proof (btc_text_ascii s a T) as A. apply str_restores; [exact A| |apply btc_parse; auto].
  rewrite <- (ascii_len s (proj2 (ascii_of s) A)). apply (N.le_lt_trans _ 50); [exact L|reflexivity].
Qed.
Lemma btc_safe : forall sg, safe (de_btc_str sg).
Proof. intro sg. apply str_safe. intro s. apply btc_parse. Qed.
Theorem C57_amount_str : forall signed a, valid signed a -> exists s, ser_btc_str signed a = Ret (SvStr s) /\ signed_text MAmountText.Bitcoin s a /\ restores (de_btc_str signed) (SvStr s) a.
Proof. intros sg a V. destruct (btc_restores sg a V) as (s & E & _ & T & R). eauto. Qed.
Theorem C57_amount_str_vec : forall signed l, Forall (valid signed) l -> lenN l < 2 ^ 64 ->
  exists texts, ser_btc_str_vec signed l = Ret (SvSeq (map SvStr texts)) /\ Forall2 (signed_text MAmountText.Bitcoin) texts l /\ restores (de_btc_str_vec signed) (SvSeq (map SvStr texts)) l.
Proof.
  intros sg l F L. assert (X : exists texts, ser_each (ser_btc_str sg) l = Ret (map SvStr texts) /\ Forall2 (signed_text MAmountText.Bitcoin) texts l /\ Forall2 (restores (de_btc_str sg)) (map SvStr texts) l).
  { clear L. induction F as [|a l V F IH]; [exists []; repeat split; constructor|]. destruct (btc_restores sg a V) as (s & E & _ & T & R). destruct IH as (ts & E' & T' & R'). exists (s :: ts).
    split; [cbn [ser_each map]; rewrite E; cbn [rbind]; rewrite E'; reflexivity|]. split; constructor; assumption. }
  destruct X as (ts & E & T & R). exists ts. unfold ser_btc_str_vec. rewrite E. split; [reflexivity|]. split; [exact T|]. apply (seq_restores _ _ _ _ _ l); [exact R| |reflexivity].
  apply LText.Forall2_lenN in R. now rewrite R.
Qed.
Theorem C57_amount_str_accepts : forall signed tagged v a,
  (self tagged (de_btc_str signed) v = Ret (Some a) <-> exists s, offers true v s /\ str_len s <= 50 /\ signed_text MAmountText.Bitcoin s a /\ valid signed a) /\
  safe (de_btc_str signed) /\ safe (de_btc_str_opt signed) /\ safe (de_btc_str_vec signed).
Proof.
  intros sg t v a. split; [|split; [apply btc_safe|split; [apply opt_safe; apply btc_safe|apply seq_safe; [apply btc_safe|discriminate]]]].
  unfold de_btc_str. rewrite str_offers. split; intros (s & O & K); exists s; (split; [exact O|]); apply btc_parse; exact K.
Qed.
(** optional texts are read back by formats that do not mark the presence of optional values (JSON) ... *)
Theorem C57_amount_str_opt : forall signed a, valid signed a -> exists v, ser_btc_str_opt signed (Some a) = Ret v /\ self false (de_btc_str_opt signed) v = Ret (Some (Some a)) /\
  ser_btc_str_opt signed None = Ret SvNone /\ restores (de_btc_str_opt signed) SvNone None.
Proof.
  intros sg a V. destruct (btc_restores sg a V) as (s & E & _ & _ & R & _). exists (SvStr s). cbn [ser_btc_str_opt]. rewrite E. split; [reflexivity|]. split; [|split; [reflexivity|apply opt_restores_none]].
  unfold de_btc_str_opt. cbn [self]. specialize (R false). cbn [self] in R. unfold de_btc_str in *. cbn [self] in *. rewrite R. reflexivity.
Qed.
(** ... but no amount is by formats that do *)
Theorem C57_amount_str_opt_refuted : forall signed a, valid signed a -> exists v, ser_btc_str_opt signed (Some a) = Ret v /\
  self true (de_btc_str_opt signed) v = Ret None /\ compact (de_btc_str_opt signed) (flat v) = Ret None.
Proof.
  intros sg a V. destruct (btc_restores sg a V) as (s & E & L & T & R). exists (SvStr s). cbn [ser_btc_str_opt]. split; [exact E|]. split; [reflexivity|].
  pose proof (btc_text_chars s a T) as [NE C]. assert (A : ascii s) by (eapply Forall_impl; [|exact C]; cbn beta; intros; lia).
  rewrite (ascii_len s (proj2 (ascii_of s) A)) in L. destruct (ascii_utf8 s A) as [_ U]. unfold de_btc_str_opt. cbn [compact MSerde.flat]. rewrite U. unfold flat_len. cbn [le_bytes app]. rewrite rd_tag. cbn [obind some].
  assert (S1 : lenN s mod 256 = lenN s) by (apply N.mod_small; lia). rewrite S1. destruct (N.eqb_spec (lenN s) 0) as [Z|_]; [destruct s; [congruence|discriminate Z]|].
  destruct (N.eqb_spec (lenN s) 1) as [O|_]; [|reflexivity]. destruct s as [|c [|? ?]]; [congruence| |rewrite !lenN_cons in O; lia]. apply Forall_inv in C. cbn beta in C.
  change (lenN [c]) with 1. cbn [app]. change (1 / 256) with 0. repeat change (0 / 256) with 0. repeat change (0 mod 256) with 0. unfold de_btc_str. cbn [compact]. unfold rd_block, rd_uint. change (64 / 8) with 8.
  rewrite <- (app_nil_r [0; 0; 0; 0; 0; 0; 0; c]). rewrite take_exact by reflexivity. cbn [obind some le_val]. unfold take. change (lenN []) with 0.
  destruct (N.ltb_spec 0 (0 + 256 * (0 + 256 * (0 + 256 * (0 + 256 * (0 + 256 * (0 + 256 * (0 + 256 * (c + 256 * 0))))))))); [reflexivity|lia].
Qed.

(** *** Fee rates: rounded to the unit of the form *)
Lemma fee_conv : forall u r, is_u64 r -> in_units u r (fee_written u r) /\ is_u64 (fee_written u r).
Proof.
  intros u r U. destruct (PAmount.C19_feerate_conversions r U) as (A & _ & B & C & _). destruct u; cbn [in_units fee_written unit_size]; (split; [assumption|]); unfold is_u64, is_floor_div, is_ceil_div in *; lia.
Qed.
Lemma fee_read_ok : forall u n, fee_read u n <> Panic /\ forall r, fee_read u n = Ret (Some r) <-> (r = Z.of_N n * unit_size u /\ r <= SUPPLY)%Z.
Proof.
  intros u n. unfold fee_read, MAmount.amount_from_sat. change MAmount.AMOUNT_MAX with SUPPLY.
  destruct (Z.ltb_spec SUPPLY (Z.of_N n)) as [G|G].
  - split; [discriminate|]. intro r. split; [discriminate|]. intros [-> X]. unfold SUPPLY in *. destruct u; cbn [unit_size] in X; lia.
  - assert (VA : valid_amount (Z.of_N n)) by (unfold valid_amount; lia). pose proof (PAmount.C19_feerate_from_per (Z.of_N n) VA) as F.
    assert (X : exists f, (match u with KwuFloor => MAmount.feerate_from_per_kwu (Z.of_N n) | _ => MAmount.feerate_from_per_vb (Z.of_N n) end) = f (Z.of_N n) /\
      ((forall r, f (Z.of_N n) = MAmount.Valid r <-> (r = Z.of_N n * unit_size u /\ Z.of_N n * unit_size u <= SUPPLY)%Z))).
    { destruct u; cbn [unit_size]; eexists; (split; [reflexivity|]); apply (F _ _); cbn [In]; auto. }
    destruct X as (f & -> & I). destruct (f (Z.of_N n)) as [x|op] eqn:Q; (split; [discriminate|]); intro r.
    + destruct (proj1 (I x) eq_refl) as [-> B]. unfold some. split; [intro H; assert (r = Z.of_N n * unit_size u)%Z by congruence; subst; auto|intros [-> _]; reflexivity].
    + split; [discriminate|]. intros [-> B]. assert (Y : MAmount.Error op = MAmount.Valid (Z.of_N n * unit_size u)%Z) by (apply I; auto). discriminate.
Qed.
Theorem C57_fee : forall u r, is_u64 r -> exists q, in_units u r (Z.of_N q) /\ ser_fee u r = SvU 64 q /\
  ((Z.of_N q * unit_size u <= SUPPLY)%Z -> restores (de_fee u) (ser_fee u r) (Z.of_N q * unit_size u)%Z) /\
  ((SUPPLY < Z.of_N q * unit_size u)%Z -> forall tagged, self tagged (de_fee u) (ser_fee u r) = Ret None).
Proof.
  intros u r U. destruct (fee_conv u r U) as [I W]. exists (Z.to_N (fee_written u r)). assert (E : Z.of_N (Z.to_N (fee_written u r)) = fee_written u r) by (unfold is_u64 in W; lia). rewrite E.
  split; [exact I|]. split; [reflexivity|]. set (q := Z.to_N (fee_written u r)) in *. assert (Lq : q < 2 ^ 64) by (unfold is_u64 in W; change (2 ^ 64)%Z with 18446744073709551616%Z in W; change (2 ^ 64) with 18446744073709551616; lia). split.
  - intro S. unfold ser_fee. fold q. unfold restores. apply uint_restores; [right; right; now right|exact Lq|]. apply fee_read_ok. rewrite E. split; [reflexivity|lia].
  - intros G t. unfold ser_fee, de_fee. fold q. cbn [self]. destruct (N.ltb_spec q (2 ^ 64)); [|lia]. destruct (fee_read_ok u q) as [NP R]. destruct (fee_read u q) as [[x|]|]; [|reflexivity|congruence].
    exfalso. destruct (proj1 (R x) eq_refl) as [X B]. rewrite E in X. lia.
Qed.
(** so exactly the multiples of the unit up to the money supply are read back *)
Theorem C57_fee_exact : forall u r, is_u64 r -> (restores (de_fee u) (ser_fee u r) r <-> (exists k, r = k * unit_size u)%Z /\ (r <= SUPPLY)%Z).
Proof.
  intros u r U. destruct (C57_fee u r U) as (q & I & E & R & B). split.
  - intro H. destruct (Z.le_gt_cases (Z.of_N q * unit_size u) SUPPLY) as [L|G].
    + specialize (R L). assert (X : r = (Z.of_N q * unit_size u)%Z) by (destruct H as [H _], R as [R _]; specialize (H true); specialize (R true); rewrite H in R; congruence). split; [now exists (Z.of_N q)|lia].
    + specialize (B ltac:(lia) true). destruct H as [H _]. rewrite H in B. discriminate.
  - intros [[k K] L]. assert (X : (Z.of_N q * unit_size u)%Z = r) by (unfold is_u64 in U; destruct u; cbn [in_units unit_size] in *; unfold is_floor_div, is_ceil_div in I; lia). rewrite X in R. apply R. lia.
Qed.
Theorem C57_fee_refuted : forall u, exists r, is_u64 r /\ (r <= SUPPLY)%Z /\ ~ reads_self (de_fee u) (ser_fee u r) r.
Proof.
  intro u. exists 1%Z. split; [unfold is_u64; split; [discriminate|reflexivity]|]. split; [discriminate|]. intro H. specialize (H true). destruct u; vm_compute in H; discriminate.
Qed.
Theorem C57_fee_accepts : forall u tagged v r, (self tagged (de_fee u) v = Ret (Some r) <-> (r <= SUPPLY)%Z /\ exists q, offers_uint v q /\ r = (Z.of_N q * unit_size u)%Z) /\
  safe (de_fee u) /\ safe (de_fee_opt u) /\ safe (de_fee_vec u).
Proof.
  intros u t v r. assert (S : safe (de_fee u)) by (apply uint_safe; intro n; apply fee_read_ok). split; [|split; [exact S|split; [now apply opt_safe|apply seq_safe; [exact S|discriminate]]]].
  unfold de_fee. rewrite uint_offers. split.
  - intros (w & n & -> & L & K). apply fee_read_ok in K as [-> B]. split; [exact B|]. exists n. split; [now exists w|reflexivity].
  - intros [B (q & [w ->] & ->)]. exists w, q. split; [reflexivity|]. split; [|apply fee_read_ok; auto]. unfold SUPPLY in B. change (2 ^ 64) with 18446744073709551616. destruct u; cbn [unit_size] in B; lia.
Qed.
(** the optional and list forms are those of the single form *)
Theorem C57_fee_lists : forall u, (forall o x, (forall r, o = Some r -> exists r', x = Some r' /\ restores (de_fee u) (ser_fee u r) r') -> (o = None -> x = None) ->
    restores (de_fee_opt u) (ser_fee_opt u o) x) /\
  (forall l l', Forall2 (fun r r' => restores (de_fee u) (ser_fee u r) r') l l' -> lenN l < 2 ^ 64 -> restores (de_fee_vec u) (ser_fee_vec u l) l').
Proof.
  intro u. split.
  - intros [r|] x S Nn; cbn [ser_fee_opt]; unfold de_fee_opt; [destruct (S r eq_refl) as (r' & -> & R); now apply opt_restores_some|]. rewrite (Nn eq_refl). apply opt_restores_none.
  - intros l l' F L. apply (seq_restores _ _ _ _ _ l'); [|unfold lenN in *; now rewrite map_length|reflexivity]. clear L. induction F as [|r r' l l' R F IH]; [constructor|]. cbn [map]. constructor; assumption.
Qed.

(** *** Concrete cases meet the hypotheses *)
Example C57_ex_numbers : ser_fee VbCeil 1500001 = SvU 64 2 /\ self true (de_fee VbCeil) (SvU 64 2) = Ret (Some 2000000%Z) /\ is_u64 1500001 /\
  self true (de_fee VbFloor) (SvU 64 2100000001) = Ret None /\ ser_sat false 2100000000000000 = Ret (SvI 64 2100000000000000) /\ valid false 2100000000000000 /\
  self true (de_sat false) (SvI 64 (-1)) = Ret None /\ self true (de_sat true) (SvU 64 7) = Ret (Some 7%Z) /\
  ser_btc_str true (-150000000) = Ret (SvStr (lit "-1.5")) /\ valid true (-150000000) /\ compact (de_btc_str_opt false) (flat (SvSome (SvStr (lit "1")))) = Ret (Some (Some 100000000%Z, [])).
Proof. unfold valid, valid_amount, valid_signed, is_u64, SUPPLY. repeat split; try (vm_compute; reflexivity); try (vm_compute; discriminate). Qed.
Example C57_ex_locks : ser_abs_lock (ASeconds 1700000000) = SvU 32 1700000000 /\ abs_ok (ASeconds 1700000000) /\ self true de_height (SvU 64 500000000) = Ret None /\
  self true de_rel_lock (SvU 32 (2 ^ 22 + 2 ^ 20 + 5)) = Ret (Some (RTime 5)) /\ ser_rel_lock (RTime 5) = SvU 32 (2 ^ 22 + 5) /\ rel_ok (RTime 5) /\
  self true de_witness_version (SvU 8 17) = Ret None /\ compact de_block_version (flat (ser_block_version (-2))) = Ret (Some ((-2)%Z, [])).
Proof. cbn [abs_ok rel_ok]. unfold mtp_ok, u16. repeat split; try (vm_compute; reflexivity); try (vm_compute; discriminate). Qed.
Example C57_ex_text : ser_rel_path [2 ^ 31 + 84; 7] = SvStr (lit "84'/7") /\ Forall cn_ok [2 ^ 31 + 84; 7] /\ self true de_abs_path (SvStr (lit "m/84h/7")) = Ret (Some [2 ^ 31 + 84; 7]) /\
  ser_core_arg MPow.Bitcoin = SvStr (lit "main") /\ self true de_network (SvStr (lit "bitcoin")) = Ret (Some MPow.Bitcoin) /\ self true de_network (SvStr (lit "main")) = Ret None /\
  ser_tap_type MSighash.TNoneAcp = SvStr (lit "SIGHASH_NONE|SIGHASH_ANYONECANPAY").
Proof. split; [vm_compute; reflexivity|]. split; [repeat (apply Forall_cons; [reflexivity|]); apply Forall_nil|]. repeat (split; [vm_compute; reflexivity|]). vm_compute; reflexivity. Qed.
Example C57_ex_u256 : u256_ok (U 5 255) /\ ser_u256 true (U 5 255) = SvStr (repeat 48 31 ++ [53] ++ repeat 48 30 ++ [102; 102]).
Proof. split; [split; reflexivity|vm_compute; reflexivity]. Qed.
Example C57_ex_keys : STaproot.curve_ok PTaproot.toy /\ kcurve_ok PKey.toyk /\
  (exists k : MTaproot.c_key PTaproot.toy, self true (de_xonly PTaproot.toy true) (ser_xonly PTaproot.toy true (MTaproot.mk_xonly k true)) = Ret (Some (MTaproot.mk_xonly k false))).
Proof.
  split; [exact PTaproot.toy_ok|]. split; [exact PKey.toyk_ok|]. exists (PTaproot.toy_make 9). destruct (C57_xonly PTaproot.toy true (@MTaproot.mk_xonly PTaproot.toy (PTaproot.toy_make 9) true) PTaproot.toy_ok) as (_ & _ & R & _). apply R.
Qed.

Print Assumptions C57_hash_types.
Print Assumptions C57_network.
Print Assumptions C57_path.
Print Assumptions C57_path_accepts.
Print Assumptions C57_extended.
Print Assumptions C57_extended_accepts.
Print Assumptions C57_address.
Print Assumptions C57_address_accepts.
Print Assumptions C57_wif.
Print Assumptions C57_wif_accepts.
Print Assumptions C57_legacy.
Print Assumptions C57_legacy_accepts.
Print Assumptions C57_full.
Print Assumptions C57_full_accepts.
Print Assumptions C57_xonly.
Print Assumptions C57_xonly_accepts.
Print Assumptions C57_xonly_parity_refuted.
Print Assumptions C57_u256.
Print Assumptions C57_u256_accepts.
Print Assumptions C57_u256_plus_refuted.
Print Assumptions C57_numbers.
Print Assumptions C57_numbers_accept.
Print Assumptions C57_block_version.
Print Assumptions C57_witness_version.
Print Assumptions C57_absolute.
Print Assumptions C57_heights.
Print Assumptions C57_relative.
Print Assumptions C57_amount_sat.
Print Assumptions C57_amount_sat_vec.
Print Assumptions C57_amount_sat_accepts.
Print Assumptions C57_amount_str.
Print Assumptions C57_amount_str_vec.
Print Assumptions C57_amount_str_accepts.
Print Assumptions C57_amount_str_opt.
Print Assumptions C57_amount_str_opt_refuted.
Print Assumptions C57_fee.
Print Assumptions C57_fee_exact.
Print Assumptions C57_fee_refuted.
Print Assumptions C57_fee_accepts.
Print Assumptions C57_fee_lists.
