(** C74: key pairs, tweaking of secret and public keys, signing. *)
From Coq Require Import String Bool.
From Verif Require Import Base MDec MText MBip32 MWitness MKey MTaproot MSighash MSig MSign STaproot SSign LDec LWire LSign.
From Verif Require LBip32b LWitness LScript4 PForms PTaproot.
Local Open Scope N_scope.

(** The laws of the group give all that C34 asks of the curve. *)
Theorem C74_curve : forall E, group_ok E -> curve_ok (lib_curve E).
Proof. exact lib_curve_ok. Qed.

(** * Tweaking *)
(** Tweaking the key pair and tweaking its public key agree, on the key and on the parity, for every secret key and merkle root, and fail together. *)
Theorem C74_tweak : forall E H, group_ok E -> (forall m, hash_ok (H m)) -> forall d root, SSign.secret_ok d ->
  exists x, kp_xonly E d = Ret x /\
  match kp_tap_tweak E H d root, tap_tweak H (lib_curve E) x root with
  | Ret d', Ret out => SSign.secret_ok d' /\ kp_xonly E d' = Ret out
  | Panic, Panic => True
  | _, _ => False
  end.
Proof.
  intros E H OK HH d root D. destruct (kp_xonly_spec E OK d D) as (k & K & X). eexists. split; [exact K|]. unfold kp_tap_tweak. rewrite K. cbn [rbind].
  unfold tap_tweak. set (x := mk_xonly k _) in *. unfold to_scalar. set (t := be_val (tweak_hash H (lib_curve E) x root)). destruct (t <? CURVE_ORDER) eqn:L; cbn [rbind]; [|exact I]. apply N.ltb_lt in L.
  unfold add_tweak. cbn [lib_curve c_add]. change (xo_key x) with k. unfold gk_add. rewrite (lift_kp E OK d _ D X). rewrite <- (mul_add E OK).
  unfold lib_add_xonly_tweak. set (s := even_secret E d + t). cbv zeta. pose proof (gk_point E OK (g_mul E s (g_gen E))) as P. rewrite <- (mul_mod E OK) in P |- *. change n with CURVE_ORDER in *.
  destruct (s mod CURVE_ORDER =? 0) eqn:Z.
  - apply N.eqb_eq in Z. rewrite Z in P |- *. destruct (gk_of_point E (g_mul E 0 (g_gen E))) as [[k' o]|]; [|exact I]. destruct P as [P _]. now elim P.
  - apply N.eqb_neq in Z. assert (D' : SSign.secret_ok (s mod CURVE_ORDER)) by (split; [lia|apply N.mod_lt; discriminate]).
    destruct (gk_of_point E (g_mul E (s mod CURVE_ORDER) (g_gen E))) as [[k' o]|] eqn:GP; [|exfalso; exact (mul_nonzero E OK _ D' P)].
    unfold tweak_add_check. cbn [lib_curve c_check xo_key xo_odd]. unfold gk_check, gk_add. change (xo_key x) with k. rewrite (lift_kp E OK d _ D X), <- (mul_add E OK). fold s. rewrite <- (mul_mod E OK). change n with CURVE_ORDER. rewrite GP.
    rewrite (proj2 (LWitness.beqb_spec _ _) eq_refl), Bool.eqb_reflx. cbn [andb]. split; [exact D'|]. unfold kp_xonly, xonly_of_point, kp_public. now rewrite GP.
Qed.
(** The tweaked secret key is the secret key (negated when its public key is odd) plus the hash, modulo the order. *)
Theorem C74_tweak_value : forall E H d root d', group_ok E -> SSign.secret_ok d -> kp_tap_tweak E H d root = Ret d' ->
  exists px, g_x E (g_mul E d (g_gen E)) = Some px /\
    let t := be_val (tag_hash H (lit "TapTweak") (px ++ match root with Some r => r | None => [] end)) in
    t < CURVE_ORDER /\ d' = ((if g_odd E (g_mul E d (g_gen E)) then CURVE_ORDER - d else d) + t) mod CURVE_ORDER.
Proof.
  intros E H d root d' OK D. unfold kp_tap_tweak. destruct (kp_xonly_spec E OK d D) as (k & K & X). rewrite K. cbn [rbind]. unfold to_scalar. intro Q. exists (proj1_sig k). split; [exact X|]. cbv zeta.
  change (tag_hash H (lit "TapTweak") (proj1_sig k ++ match root with Some r => r | None => [] end)) with (tweak_hash H (lib_curve E) (@mk_xonly (lib_curve E) k (g_odd E (g_mul E d (g_gen E)))) root).
  destruct (be_val _ <? CURVE_ORDER) eqn:L; [|discriminate]. cbn [rbind] in Q. apply N.ltb_lt in L. split; [exact L|]. unfold lib_add_xonly_tweak in Q. cbv zeta in Q. destruct (_ =? 0); [discriminate|]. injection Q as <-. reflexivity.
Qed.

(** * Signatures *)
Lemma be32_len : forall s, lenN (be_bytes 32 s) = 32.
Proof. intro s. unfold be_bytes, lenN. rewrite rev_length, le_bytes_length. reflexivity. Qed.
Lemma be32_val : forall s, s < CURVE_ORDER -> be_val (be_bytes 32 s) = s.
Proof. intros s L. apply LBip32b.be_val_of_bytes. eapply N.lt_trans; [exact L|reflexivity]. Qed.
Lemma sub_iff : forall E, group_ok E -> forall a b r, r = g_add E a (g_opp E b) <-> g_add E r b = a.
Proof.
  intros E OK a b r. split.
  - intros ->. rewrite <- (add_assoc E OK), (add_comm E OK (g_opp E b)), (add_opp E OK). apply (add_zero_r E OK).
  - intros <-. rewrite <- (add_assoc E OK), (add_opp E OK). symmetry. apply (add_zero_r E OK).
Qed.
(** Verification accepts exactly the signatures of BIP-0340, whatever the sighash type. *)
Theorem C74_verify : forall E H k msg sig ty, group_ok E -> bytes_ok sig ->
  (xo_verify E H k msg (mk_tsig sig ty) = true <-> bip340 E H (xonly_ser k) msg sig).
Proof.
  intros E H k msg sig ty OK B. unfold xo_verify, lib_schnorr_verify. cbn [ts_sig]. cbv zeta. change (xonly_ser k) with (proj1_sig (xo_key k : gk E)). destruct (gk_lift E (xo_key k)) as [P LP]. rewrite LP. destruct (lift_some E OK _ _ LP) as (PX & PO & PN).
  rewrite !andb_true_iff, N.eqb_eq, N.ltb_lt, negb_true_iff. split.
  - intros [[[L LS] X] O]. set (R := g_add E _ _) in *. unfold opt_eqb in X. destruct (g_x E R) as [rx|] eqn:RX; [|discriminate]. apply LWitness.beqb_spec in X. subst rx.
    exists P, R, (takeN 32 sig), (be_val (dropN 32 sig)). do 5 (split; [assumption|]). split.
    + rewrite LBip32b.be_bytes_of_val; [symmetry; apply takeN_dropN|now apply LBip32b.dropN_ok'|]. pose proof (lenN_dropN 32 sig). unfold lenN in *. lia.
    + unfold R. apply (sub_iff E OK). reflexivity.
  - intros (P' & R & rx & s & PX' & PO' & RX & RO & LS & -> & EQ). assert (P' = P) as -> by (apply (point_eq E OK); try congruence; now apply (x_nz E OK P' (proj1_sig (xo_key k : gk E)))).
    pose proof (x_32 E OK _ _ RX) as [L32 _]. rewrite (takeN_app_le 32 rx), (dropN_app_le 32 rx) by lia. rewrite !(takeN_all 32 rx) by lia. rewrite (dropN_all 32 rx) by lia. cbn [app]. rewrite be32_val by assumption.
    unfold challenge. change CHALLENGE with (lit "BIP0340/challenge"). apply (sub_iff E OK) in EQ. rewrite <- EQ, RX. cbn [opt_eqb]. rewrite lenN_app, be32_len, L32. repeat split; try assumption; try (apply LWitness.beqb_spec; reflexivity); reflexivity.
Qed.
(** What the signer makes is a signature under the key of the pair, whatever the nonce and the auxiliary randomness. *)
Lemma sign_valid : forall E H nonce d msg aux, group_ok E -> nonce_ok nonce -> SSign.secret_ok d ->
  exists px sig, g_x E (g_mul E d (g_gen E)) = Some px /\ lib_schnorr_sign E H nonce msg d aux = Ret sig /\ bip340 E H px msg sig /\ lenN sig = 64 /\ bytes_ok sig.
Proof.
  intros E H nonce d msg aux OK NO D. destruct (x_some E OK _ (mul_nonzero E OK d D)) as (px & PX & _). pose proof (NO (even_secret E d) msg aux) as K. set (k0 := nonce (even_secret E d) msg aux) in *.
  destruct (x_some E OK _ (mul_nonzero E OK k0 K)) as (rx & RX & RL). unfold lib_schnorr_sign. cbv zeta. fold k0. rewrite RX, PX. eexists px, _. split; [reflexivity|]. split; [reflexivity|].
  destruct (even_even E OK d D) as [DO DX]. destruct (even_even E OK k0 K) as [KO KX]. set (s := (even_secret E k0 + challenge H rx px msg * even_secret E d) mod CURVE_ORDER).
  assert (LS : s < CURVE_ORDER) by (apply N.mod_lt; discriminate). destruct RL as [RL RB]. split; [|split; [rewrite lenN_app, be32_len, RL; reflexivity|apply bytes_ok_app; split; [exact RB|apply Forall_rev, le_bytes_ok]]].
  exists (g_mul E (even_secret E d) (g_gen E)), (g_mul E (even_secret E k0) (g_gen E)), rx, s. rewrite DX, KX. do 5 (split; [assumption|]). split; [reflexivity|].
  change (be_val _ mod CURVE_ORDER) with (challenge H rx px msg). rewrite (mul_mul E OK), <- (mul_add E OK). unfold s. now rewrite <- (mul_mod E OK).
Qed.
(** A key path spend: a signature made with the tweaked key pair, for every message, type and randomness, is one under the output key, as BIP-0340 asks and as
    the library's verification accepts. *)
Theorem C74_key_spend : forall E H nonce, group_ok E -> (forall m, hash_ok (H m)) -> nonce_ok nonce -> forall d root x out d' sighash ty drawn, SSign.secret_ok d ->
  kp_xonly E d = Ret x -> tap_tweak H (lib_curve E) x root = Ret out -> kp_tap_tweak E H d root = Ret d' ->
  exists sig, sign_key_spend E H nonce sighash d' ty drawn = Ret sig /\ ts_type sig = ty /\ lenN (ts_sig sig) = 64 /\
    bip340 E H (xonly_ser out) sighash (ts_sig sig) /\ xo_verify E H out sighash sig = true.
Proof.
  intros E H nonce OK HH NO d root x out d' m ty drawn D KX TT TK. destruct (C74_tweak E H OK HH d root D) as (x' & K & A). rewrite KX in K. injection K as <-. rewrite TK, TT in A. destruct A as [D' X'].
  destruct (kp_xonly_spec E OK d' D') as (k & K & PX). rewrite X' in K. injection K as ->. destruct (sign_valid E H nonce d' m drawn OK NO D') as (px & sig & PX' & SG & V & L & B).
  unfold sign_key_spend, raw_bip340_sign. rewrite SG. cbn [rbind]. exists (mk_tsig sig ty). cbn [ts_sig ts_type]. do 3 (split; [reflexivity || exact L|]). rewrite PX in PX'. injection PX' as <-. split; [exact V|]. apply C74_verify; assumption.
Qed.
(** A script path spend: with the untweaked pair, under the pair's own key. *)
Theorem C74_script_spend : forall E H nonce, group_ok E -> nonce_ok nonce -> forall d x sighash ty drawn, SSign.secret_ok d -> kp_xonly E d = Ret x ->
  exists sig, sign_script_spend E H nonce sighash d ty drawn = Ret sig /\ ts_type sig = ty /\ lenN (ts_sig sig) = 64 /\
    bip340 E H (xonly_ser x) sighash (ts_sig sig) /\ xo_verify E H x sighash sig = true.
Proof.
  intros E H nonce OK NO d x m ty drawn D KX. destruct (kp_xonly_spec E OK d D) as (k & K & PX). rewrite KX in K. injection K as ->. destruct (sign_valid E H nonce d m drawn OK NO D) as (px & sig & PX' & SG & V & L & B).
  unfold sign_script_spend, raw_bip340_sign. rewrite SG. cbn [rbind]. exists (mk_tsig sig ty). cbn [ts_sig ts_type]. do 3 (split; [reflexivity || exact L|]). rewrite PX in PX'. injection PX' as <-. split; [exact V|]. apply C74_verify; assumption.
Qed.

(** Whoever reads the output key back from the 32 bytes in the output script (where the parity is not stored) verifies the same signatures. *)
Theorem C74_output_script : forall E H k msg sig, group_ok E ->
  exists k', @xonly_parse (lib_curve E) (xonly_ser k) = Some k' /\ xonly_ser k' = xonly_ser k /\ xo_odd k' = false /\ xo_verify E H k' msg sig = xo_verify E H k msg sig.
Proof.
  intros E H [k o] msg sig OK. unfold xonly_parse, xonly_ser. cbn [xo_key lib_curve c_parse c_ser]. rewrite gk_make_self. eexists. split; [reflexivity|]. now repeat split.
Qed.

(** * Key pairs, private and public keys *)
(** The negated private key: the same x-only key with the opposite parity, the same signatures, and negating twice gives the key back. *)
Theorem C74_negate : forall E H nonce c d, group_ok E -> SSign.secret_ok d ->
  let k' := negate_private (mk_private c d) in
  SSign.secret_ok (pk_key k') /\ pk_compressed k' = c /\ negate_private k' = mk_private c d /\
  (exists x, kp_xonly E d = Ret x /\ kp_xonly E (pk_key k') = Ret (@mk_xonly (lib_curve E) (xo_key x) (negb (xo_odd x)))) /\
  (forall msg drawn, raw_bip340_sign E H nonce (pk_key k') msg drawn = raw_bip340_sign E H nonce d msg drawn).
Proof.
  intros E H nonce c d OK D k'. assert (D' : SSign.secret_ok (CURVE_ORDER - d)) by (destruct D; split; lia). unfold k', negate_private. cbn [pk_key pk_compressed].
  assert (OP : g_mul E (CURVE_ORDER - d) (g_gen E) = g_opp E (g_mul E d (g_gen E))) by (symmetry; apply (mul_opp E OK); destruct D; unfold n; lia). pose proof (mul_nonzero E OK d D) as NZ.
  split; [exact D'|]. split; [reflexivity|]. split; [f_equal; destruct D; lia|]. split.
  - destruct (kp_xonly_spec E OK d D) as (k & K & X). destruct (kp_xonly_spec E OK _ D') as (k2 & K2 & X2). eexists. split; [exact K|]. rewrite K2. cbn [xo_key xo_odd]. rewrite OP in X2 |- *. rewrite (x_opp E OK), X in X2. injection X2 as X2. apply gk_eq in X2. subst k2.
    now rewrite (odd_opp E OK) by assumption.
  - intros msg drawn. unfold raw_bip340_sign, lib_schnorr_sign. cbv zeta.
    assert (ES : even_secret E (CURVE_ORDER - d) = even_secret E d).
    { unfold even_secret. rewrite OP, (odd_opp E OK) by assumption. destruct (g_odd E (g_mul E d (g_gen E))); cbn [negb]; [reflexivity|]. destruct D. lia. }
    rewrite ES, OP, (x_opp E OK). reflexivity.
Qed.
(** The x-only key of a point, with its parity, gives the point back; read from its 32 bytes alone it gives the one with even y. *)
Theorem C74_full_key : forall E p, group_ok E -> p <> g_zero E -> exists x, xonly_of_point E p = Ret x /\ xo_to_public E x = Ret p /\
  exists x', @xonly_parse (lib_curve E) (xonly_ser x) = Some x' /\ xo_to_public E x' = Ret (if g_odd E p then g_opp E p else p) /\ (x' = x <-> g_odd E p = false).
Proof.
  intros E p OK NZ. unfold xonly_of_point. pose proof (gk_point E OK p) as A. destruct (gk_of_point E p) as [[k o]|]; [|contradiction]. destruct A as (_ & X & ->). eexists. split; [reflexivity|].
  unfold xo_to_public. cbn [xo_key xo_odd]. rewrite (lift_x E OK p _ X). split; [destruct (g_odd E p); [now rewrite (opp_opp E OK)|reflexivity]|].
  unfold xonly_parse, xonly_ser. cbn [xo_key lib_curve c_parse c_ser]. rewrite gk_make_self. eexists. split; [reflexivity|]. cbn [xo_key xo_odd]. rewrite (lift_x E OK p _ X). split; [reflexivity|]. split; [intro Q; injection Q as Q; now symmetry|intros ->; reflexivity].
Qed.
(** Private key to key pair and back: the secret is kept, the key comes back as a compressed one. *)
Theorem C74_private : forall k, kp_to_private (kp_of_private k) = mk_private true (pk_key k) /\ (kp_to_private (kp_of_private k) = k <-> pk_compressed k = true).
Proof. intros [c d]. unfold kp_to_private, kp_of_private. cbn [pk_key pk_compressed]. split; [reflexivity|]. split; [intro Q; injection Q as <-; reflexivity|intros ->; reflexivity]. Qed.
(** FINDING: an uncompressed private key does not survive the way through a key pair. *)
Theorem C74_private_refuted : ~ (forall k, kp_to_private (kp_of_private k) = k).
Proof. intro A. specialize (A (mk_private false 1)). discriminate. Qed.

(** * From the key pair to the spent output *)
(** The address of the pair's key with any merkle root, a signature of any 32 bytes with the tweaked pair, the ready-made witness: the witness unlocks the address's
    output but for the check of the signature (C61), the signature that is read back from the witness is the one made, and that check succeeds. *)
Theorem C74_spend : forall E hash160 H nonce, group_ok E -> PForms.hashes_ok hash160 H -> nonce_ok nonce -> forall d root hrp x a d' sighash ty drawn, SSign.secret_ok d ->
  kp_xonly E d = Ret x -> MAddress.p2tr H (lib_curve E) x root hrp = Ret a -> kp_tap_tweak E H d root = Ret d' ->
  exists sig w spk key, sign_key_spend E H nonce sighash d' ty drawn = Ret sig /\ MForms.w_p2tr_key_spend sig = Ret w /\ SWire.stack_of w [SSig.tap_bytes sig] /\
    MAddress.script_pubkey a = Ret spk /\ SForms.unlocks hash160 H (lib_curve E) spk [] [SSig.tap_bytes sig] (SForms.CheckSig key (SSig.tap_bytes sig)) /\
    ts_from_slice (SSig.tap_bytes sig) = Ret (Ok sig) /\ bip340 E H key sighash (ts_sig sig).
Proof.
  intros E h1 H nonce OK HH NO d root hrp x a d' m ty drawn D KX PA TK. assert (HO : forall m, hash_ok (H m)) by (intro; apply HH). pose proof PA as PA'. unfold MAddress.p2tr in PA'. destruct (tap_tweak H (lib_curve E) x root) as [out|] eqn:TT; [|discriminate]. cbn [rbind] in PA'. injection PA' as AE.
  destruct (C74_key_spend E H nonce OK HO NO d root x out d' m ty drawn D KX TT TK) as (sig & SG & TY & L & V & _).
  destruct (PForms.C61_p2tr_key h1 H (lib_curve E) HH (lib_curve_ok E OK) sig x root hrp a L PA) as (w & spk & key & W & ST & SP & NP & KEY & U & _).
  exists sig, w, spk, key. do 5 (split; [assumption|]). split; [now apply PSig.C50_taproot_read|].
  replace key with (xonly_ser out); [exact V|]. unfold MForms.new_p2tr in NP. rewrite TT in NP. cbn [rbind] in NP. rewrite KEY in NP. unfold MScript.new_p2tr_tweaked in NP.

  pose proof (ser_32 _ (lib_curve_ok E OK) (xo_key out)) as [K32 _]. rewrite LScript4.unchecked_ok in NP by (split; [split; [discriminate|change (xonly_ser out) with (c_ser (lib_curve E) (xo_key out)); rewrite K32; split; discriminate]|discriminate]).
  unfold SScript.t_witness in NP. now injection NP.
Qed.

(** * Non-vacuity: the residues modulo the order form such a group *)
Definition rpt := PTaproot.toy_key.
Definition rmk := PTaproot.toy_make.
Definition rval (p : rpt) : N := proj1_sig p.
Definition r_x (p : rpt) : option bytes := if rval p =? 0 then None else Some (be_bytes 32 (N.min (rval p) (CURVE_ORDER - rval p))).
Definition r_lift (b : bytes) : option rpt :=
  let v := be_val b in if beqb b (be_bytes 32 v) && (0 <? v) && (2 * v <? CURVE_ORDER) then Some (rmk v) else None.
Definition residues : group := mk_group rpt (rmk 0) (fun a b => rmk (rval a + rval b)) (fun a => rmk (CURVE_ORDER - rval a)) (rmk 1) r_x (fun a => CURVE_ORDER <? 2 * rval a) r_lift.
Lemma r_lt : forall p, rval p < CURVE_ORDER.
Proof. intros [k K]. cbn [rval proj1_sig]. now apply N.ltb_lt. Qed.
Lemma r_eq : forall a b : rpt, rval a = rval b -> a = b.
Proof. exact PTaproot.toy_eq. Qed.
Lemma r_mk : forall k, rval (rmk k) = k mod CURVE_ORDER.
Proof. reflexivity. Qed.
Lemma r_mul : forall k, rval (g_mul residues k (g_gen residues)) = k mod CURVE_ORDER.
Proof.
  intro k. induction k as [|k IH] using N.peano_ind; [reflexivity|]. rewrite mul_succ. pose (X := g_mul residues k (g_gen residues)). fold X in IH |- *. change (rval (g_add residues (g_gen residues) X)) with ((1 + rval X) mod CURVE_ORDER). rewrite IH. rewrite N.add_mod_idemp_r by discriminate. f_equal. lia.
Qed.
Opaque CURVE_ORDER.

Lemma r_ok : group_ok residues.
Proof.
  assert (MS : forall x, x < 2 * CURVE_ORDER -> x mod CURVE_ORDER = if x <? CURVE_ORDER then x else x - CURVE_ORDER).
  { intros x X. destruct (N.ltb_spec x CURVE_ORDER); [now apply N.mod_small|]. symmetry. apply (N.mod_unique x CURVE_ORDER 1); lia. }
  assert (ODD : forall v, 2 * v <> CURVE_ORDER) by (intros v Q; assert (Z : N.even CURVE_ORDER = true) by (rewrite <- Q; apply N.even_spec; now exists v); discriminate Z).
  assert (NP : 1 < CURVE_ORDER) by reflexivity. assert (B32 : CURVE_ORDER < 256 ^ 32) by reflexivity.
  assert (MIN : forall a, N.min a (CURVE_ORDER - a) < CURVE_ORDER \/ CURVE_ORDER <= a) by (intro; lia).
  assert (OPP : forall a, rval a <> 0 -> rval (rmk (CURVE_ORDER - rval a)) = CURVE_ORDER - rval a) by (intros a A; rewrite r_mk; apply N.mod_small; pose proof (r_lt a); lia).
  assert (BINJ : forall a b, a < CURVE_ORDER -> b < CURVE_ORDER -> be_bytes 32 a = be_bytes 32 b -> a = b) by (intros a b A B Q; rewrite <- (be32_val a A), <- (be32_val b B); now rewrite Q).
  constructor; cbn [residues g_pt g_add g_opp g_zero g_gen g_x g_odd g_lift].
  - intros a b c. apply r_eq. rewrite !r_mk. rewrite N.add_mod_idemp_r, N.add_mod_idemp_l by discriminate. f_equal. lia.
  - intros a b. apply r_eq. rewrite !r_mk. f_equal. lia.
  - intro a. apply r_eq. rewrite !r_mk. rewrite N.mod_0_l by discriminate. apply N.mod_small, r_lt.
  - intro a. apply r_eq. rewrite !r_mk. rewrite N.add_mod_idemp_r by discriminate. pose proof (r_lt a). replace (rval a + (CURVE_ORDER - rval a)) with CURVE_ORDER by lia. rewrite N.mod_same by discriminate. symmetry. apply N.mod_0_l. discriminate.
  - intro k. change (g_mul residues k (g_gen residues) = rmk 0 <-> k mod CURVE_ORDER = 0). split; intro Q.
    + rewrite <- r_mul, Q. reflexivity.
    + apply r_eq. rewrite r_mul, Q. reflexivity.
  - intro p. exists (rval p). split; [apply r_lt|]. apply r_eq. change (rval p = rval (g_mul residues (rval p) (g_gen residues))). rewrite r_mul. symmetry. apply N.mod_small, r_lt.
  - intro p. unfold r_x. split; intro Q.
    + destruct (N.eqb_spec (rval p) 0) as [Z|]; [|discriminate]. apply r_eq. rewrite Z. reflexivity.
    + subst p. reflexivity.
  - intros p b. unfold r_x. destruct (rval p =? 0); [discriminate|]. intro Q. injection Q as <-. split; [apply be32_len|apply Forall_rev, le_bytes_ok].
  - intros p q b. unfold r_x. destruct (N.eqb_spec (rval p) 0) as [Z|Z]; [discriminate|]. intro Q. injection Q as <-. pose proof (r_lt p). pose proof (r_lt q). split.
    + destruct (N.eqb_spec (rval q) 0) as [Y|Y]; [discriminate|]. intro Q. assert (SI : forall a b : bytes, Some a = Some b -> a = b) by (intros ? ? W; now injection W). apply SI in Q. apply BINJ in Q; [|lia|lia]. destruct (N.eq_dec (rval q) (rval p)) as [D|D]; [left; now apply r_eq|right; apply r_eq; rewrite (OPP p Z); lia].
    + intros [->| ->]; [destruct (N.eqb_spec (rval p) 0); [contradiction|reflexivity]|]. rewrite (OPP p Z). destruct (N.eqb_spec (CURVE_ORDER - rval p) 0); [lia|]. do 2 f_equal. lia.
  - intros p NZ. assert (Z : rval p <> 0) by (intro Z; apply NZ, r_eq; rewrite Z; reflexivity). rewrite (OPP p Z). pose proof (r_lt p). pose proof (ODD (rval p)). destruct (N.ltb_spec CURVE_ORDER (2 * rval p)), (N.ltb_spec CURVE_ORDER (2 * (CURVE_ORDER - rval p))); cbn [negb]; (reflexivity || lia).
  - intros b p. unfold r_lift, r_x. cbv zeta. split.
    + destruct (beqb b (be_bytes 32 (be_val b))) eqn:A; cbn [andb]; [|discriminate]. apply LWitness.beqb_spec in A. destruct (N.ltb_spec 0 (be_val b)); cbn [andb]; [|discriminate]. destruct (N.ltb_spec (2 * be_val b) CURVE_ORDER); [|discriminate]. intro Q. injection Q as <-.
      rewrite r_mk, N.mod_small by lia. destruct (N.eqb_spec (be_val b) 0); [lia|]. split; [rewrite N.min_l by lia; apply (f_equal Some); now symmetry|]. apply N.ltb_ge. lia.
    + destruct (N.eqb_spec (rval p) 0) as [Z|Z]; [intros [Q _]; discriminate|]. intros [Q O]. apply N.ltb_ge in O. assert (SI : forall a b : bytes, Some a = Some b -> a = b) by (intros ? ? W; now injection W). apply SI in Q. subst b. pose proof (r_lt p). pose proof (ODD (rval p)). rewrite N.min_l by lia. rewrite be32_val by lia.
      rewrite (proj2 (LWitness.beqb_spec _ _) eq_refl). destruct (N.ltb_spec 0 (rval p)); [|lia]. destruct (N.ltb_spec (2 * rval p) CURVE_ORDER); [|lia]. cbn [andb]. f_equal. apply r_eq. rewrite r_mk. apply N.mod_small. lia.
Qed.

Lemma toy_nonce_ok : nonce_ok (fun _ _ _ => 5).
Proof. intros d m a. split; reflexivity. Qed.
(** the pair of the secret key 7, with a merkle root, in that group and with SHA-256 *)
Example C74_ex : exists x d' a, kp_xonly residues 7 = Ret x /\ kp_tap_tweak residues SSha2.SHA256 7 (Some (repeat 3 32)) = Ret d' /\
  MAddress.p2tr SSha2.SHA256 (lib_curve residues) x (Some (repeat 3 32)) MAddress.HMainnet = Ret a.
Proof.
  assert (D : SSign.secret_ok 7) by (split; reflexivity). destruct (C74_tweak residues SSha2.SHA256 r_ok PTaproot.SHA256_ok 7 (Some (repeat 3 32)) D) as (x & X & A).
  assert (T : match kp_tap_tweak residues SSha2.SHA256 7 (Some (repeat 3 32)) with Ret _ => true | Panic => false end = true) by (vm_compute; reflexivity).
  destruct (kp_tap_tweak residues SSha2.SHA256 7 (Some (repeat 3 32))) as [d'|]; [|discriminate]. destruct (tap_tweak _ _ x _) as [out|] eqn:TT; [|contradiction]. eexists x, d', _. split; [exact X|]. split; [reflexivity|]. unfold MAddress.p2tr. rewrite TT. reflexivity.
Qed.
Example C74_ex_hypotheses : group_ok residues /\ nonce_ok (fun _ _ _ => 5) /\ SSign.secret_ok 7.
Proof. split; [exact r_ok|]. split; [exact toy_nonce_ok|split; reflexivity]. Qed.

Print Assumptions C74_curve. Print Assumptions C74_tweak. Print Assumptions C74_tweak_value. Print Assumptions C74_verify. Print Assumptions C74_key_spend. Print Assumptions C74_script_spend.
Print Assumptions C74_output_script. Print Assumptions C74_negate. Print Assumptions C74_full_key. Print Assumptions C74_private. Print Assumptions C74_private_refuted. Print Assumptions C74_spend.
