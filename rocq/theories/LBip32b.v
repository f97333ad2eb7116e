(** Lemmas on extended keys. *)
From Coq Require Import String.
From Verif Require Import Base MDec LDec MHash MSha2 MHash2 MHmac SSha2 SHash2 SHmac LSha2b LHmac SWire MText MBase58 SBase58 LBase58 LAmountText LTaproot LPoly LSighash3 MBip32 SBip32 LBip32.
Local Open Scope N_scope.

(** * Big-endian numbers *)
Lemma be_val_of_bytes : forall n v, v < 256 ^ N.of_nat n -> be_val (be_bytes n v) = v.
Proof. intros. unfold be_val, be_bytes. rewrite rev_involutive. now apply le_val_bytes. Qed.
Lemma be_bytes_of_val : forall l n, bytes_ok l -> length l = n -> be_bytes n (be_val l) = l.
Proof.
  intros l n OK <-. unfold be_val, be_bytes. rewrite <- (rev_length l), le_bytes_val; [apply rev_involutive|]. unfold bytes_ok in *. rewrite Forall_forall in *.
  intros x I. apply OK. now apply in_rev.
Qed.
Lemma length_lenN : forall (A : Type) (l : list A) n, lenN l = N.of_nat n -> length l = n.
Proof. intros A l n H. unfold lenN in H. lia. Qed.
Lemma takeN_ok' : forall n l, bytes_ok l -> bytes_ok (takeN n l).
Proof. intros n l H. unfold bytes_ok, takeN in *. rewrite Forall_forall in *. intros x I. apply H. rewrite <- (firstn_skipn (N.to_nat n) l). apply in_or_app. now left. Qed.
Lemma dropN_ok' : forall n l, bytes_ok l -> bytes_ok (dropN n l).
Proof. intros n l H. unfold bytes_ok, dropN in *. rewrite Forall_forall in *. intros x I. apply H. rewrite <- (firstn_skipn (N.to_nat n) l). apply in_or_app. now right. Qed.

(** * The hash functions *)
Lemma in_sha512 : In (sha512_h, SHA512) hashers. Proof. cbn. tauto. Qed.
Lemma in_hash160 : In (hash160_h, HASH160) hashers. Proof. cbn. tauto. Qed.
Lemma sha512_computes : computes sha512_h SHA512.
Proof. pose proof all_compute as A. rewrite Forall_forall in A. exact (A _ in_sha512). Qed.
Lemma sha512_sized : sized sha512_h SHA512.
Proof. pose proof all_sized as A. rewrite Forall_forall in A. exact (A _ in_sha512). Qed.
Lemma hash160_computes : computes hash160_h HASH160.
Proof. pose proof all_compute as A. rewrite Forall_forall in A. exact (A _ in_hash160). Qed.
Lemma hash160_sized : sized hash160_h HASH160.
Proof. pose proof all_sized as A. rewrite Forall_forall in A. exact (A _ in_hash160). Qed.
Lemma hmac512 : forall K ps, bytes_ok K -> lenN K < 2 ^ 61 -> bytes_ok (concat ps) -> lenN (concat ps) < 2 ^ 60 ->
  hmac_sha512 K ps = Ret (I_of K (concat ps)).
Proof.
  intros K ps OK LK OP LP. unfold hmac_sha512. apply (hmac_spec sha512_h SHA512); auto using sha512_computes, sha512_sized.
  - discriminate.
  - discriminate.
  - change (h_block sha512_h) with 128. lia.
Qed.
Lemma I_of_len : forall K m, bytes_ok K -> bytes_ok m -> lenN (I_of K m) = 64 /\ bytes_ok (I_of K m).
Proof. intros K m OK OM. apply (HMAC_len sha512_h SHA512); auto using sha512_sized. discriminate. Qed.
Lemma I_R_ok : forall K m, bytes_ok K -> bytes_ok m -> lenN (I_R K m) = 32 /\ bytes_ok (I_R K m).
Proof. intros K m OK OM. destruct (I_of_len K m OK OM) as [L O]. unfold I_R. split; [rewrite lenN_dropN, L; reflexivity|]. now apply dropN_ok'. Qed.
Lemma hash160_one : forall m, bytes_ok m -> lenN m < 2 ^ 61 -> hash_one hash160_h m = Ret (HASH160 m).
Proof.
  intros m OK L. pose proof (hash160_computes [m]) as A. cbn [concat] in A. rewrite app_nil_r in A. specialize (A OK L). rewrite <- A.
  unfold hash_one, hash_byte_chunks, feed. destruct (h_input hash160_h (h_default hash160_h) m); reflexivity.
Qed.
Lemma SHA256d_ok : forall m, hash_ok (SHA256d m).
Proof.
  intro m. split; [apply SHA256_32|]. unfold SHA256d, SSha2.SHA256, SSha2.hash_with, SSha2.out. apply Forall_concat, Forall_forall. intros b I.
  apply in_map_iff in I as (x & <- & _). apply be_bytes_ok.
Qed.


(** * Derivation *)
Section Derive.
  Variable C : ecurve.
  Hypothesis OKC : ecurve_ok C.
  Lemma sk_len : forall k, lenN (sk_bytes k) = 32 /\ bytes_ok (sk_bytes k).
  Proof. intro k. unfold sk_bytes. split; [rewrite be_bytes_len; reflexivity|apply be_bytes_ok]. Qed.
  Lemma cn_len : forall c, lenN (be_bytes 4 c) = 4 /\ bytes_ok (be_bytes 4 c).
  Proof. intro c. split; [rewrite be_bytes_len; reflexivity|apply be_bytes_ok]. Qed.
  Lemma ckd_data_ok : forall k c, bytes_ok (ckd_data C k c) /\ lenN (ckd_data C k c) = 37.
  Proof.
    intros k c. destruct (cn_len c) as [L4 O4]. destruct (sk_len k) as [L32 O32]. unfold sk_bytes in *. destruct (ser_33 C OKC (ec_mul C k)) as [L33 O33]. unfold ckd_data. destruct (c <? 2 ^ 31).
    - split; [apply bytes_ok_app; auto|]. rewrite lenN_app, L33, L4. reflexivity.
    - split; [constructor; [reflexivity|]; apply bytes_ok_app; auto|]. rewrite lenN_cons, lenN_app, L32, L4. reflexivity.
  Qed.
  Lemma pub_data_ok : forall x c, bytes_ok (pub_data C x c) /\ lenN (pub_data C x c) = 37.
  Proof.
    intros x c. destruct (cn_len c) as [L4 O4]. destruct (ser_33 C OKC (p_key C x)) as [L33 O33]. unfold pub_data.
    split; [apply bytes_ok_app; auto|]. rewrite lenN_app, L33, L4. reflexivity.
  Qed.
  Lemma fingerprint_eq : forall x, pub_fingerprint C x = Ret (fingerprint_of C (p_key C x)).
  Proof. intro x. unfold pub_fingerprint, pub_identifier. destruct (ser_33 C OKC (p_key C x)) as [L O]. rewrite hash160_one by (auto; rewrite L; reflexivity). reflexivity. Qed.
  Lemma fingerprint_ok : forall p, lenN (fingerprint_of C p) = 4 /\ bytes_ok (fingerprint_of C p).
  Proof.
    intro p. destruct (ser_33 C OKC p) as [L O]. destruct (hash160_sized _ O) as [HL HO]. change (h_len hash160_h) with 20 in HL. unfold fingerprint_of.
    split; [rewrite lenN_takeN, HL; reflexivity|now apply takeN_ok'].
  Qed.
  Definition child_existsb (x : xpriv) (c : child_number) : bool :=
    let d := ckd_data C (s_key x) c in
    (0 <? I_L (s_chain x) d) && (I_L (s_chain x) d <? ec_order C) && negb ((I_L (s_chain x) d + s_key x) mod ec_order C =? 0).
  Lemma child_existsb_iff : forall x c, child_existsb x c = true <-> priv_child_exists C x c.
  Proof.
    intros x c. unfold child_existsb, priv_child_exists. cbv zeta. rewrite !andb_true_iff, negb_true_iff, !N.ltb_lt, N.eqb_neq. tauto.
  Qed.
  Lemma priv_derive_eq : forall x c, xpriv_ok C x -> cn_ok c ->
    priv_derive_child C x c = if child_existsb x c then if s_depth x <? 255 then Ret (Ok (priv_child C x c)) else Ret (Err tt) else Panic.
  Proof.
    intros x c (DX & LP & OP & CX & KX & LC & OCH) OC. destruct (ckd_data_ok (s_key x) c) as [OD LD].
    assert (E : concat ((if is_normal c then [ec_ser C (ec_mul C (s_key x))] else [[0]; sk_bytes (s_key x)]) ++ [be_bytes 4 c]) = ckd_data C (s_key x) c).
    { unfold is_normal. rewrite (is_hardened_iff c OC). unfold ckd_data. destruct (N.leb_spec (2 ^ 31) c), (N.ltb_spec c (2 ^ 31)); try lia; cbn [negb app concat]; rewrite app_nil_r; reflexivity. }
    unfold priv_derive_child. rewrite hmac512; rewrite ?E; auto; [|rewrite LC; reflexivity|rewrite LD; reflexivity]. cbn [rbind]. unfold sk_from_bytes, child_existsb, priv_child. cbv zeta.
    fold (I_L (s_chain x) (ckd_data C (s_key x) c)). fold (I_R (s_chain x) (ckd_data C (s_key x) c)). set (il := I_L _ _). set (ir := I_R _ _).
    destruct (0 <? il); [|reflexivity]. destruct (il <? ec_order C); [|reflexivity]. cbn [andb expect rbind]. unfold sk_add_tweak. cbv zeta.
    destruct ((il + s_key x) mod ec_order C =? 0); [reflexivity|]. cbn [negb expect rbind].
    destruct (N.ltb_spec (s_depth x + 1) 256), (N.ltb_spec (s_depth x) 255); try lia; [|reflexivity].
    unfold priv_fingerprint. rewrite fingerprint_eq. reflexivity.
  Qed.
  Lemma priv_child_ok : forall x c, xpriv_ok C x -> cn_ok c -> priv_child_exists C x c -> s_depth x < 255 -> xpriv_ok C (priv_child C x c) /\ priv_master_rule (priv_child C x c).
  Proof.
    intros x c (DX & LP & OP & CX & KX & LC & OCH) OC (IL & NZ) D. destruct (ckd_data_ok (s_key x) c) as [OD LD]. destruct (fingerprint_ok (ec_mul C (s_key x))) as [FL FO].
    destruct (I_R_ok (s_chain x) _ OCH OD) as [RL RO]. pose proof (order_pos C OKC). unfold priv_child. cbv zeta. split.
    - unfold xpriv_ok. cbn [s_depth s_parent s_child s_key s_chain]. assert (ML : (I_L (s_chain x) (ckd_data C (s_key x) c) + s_key x) mod ec_order C < ec_order C) by (apply N.mod_lt; lia).
      split; [lia|]. split; [auto|]. split; [auto|]. split; [auto|]. split; [lia|]. auto.
    - unfold priv_master_rule. cbn [s_depth]. lia.
  Qed.
  Definition tweak_valid (x : xpub C) (c : child_number) : bool := (0 <? I_L (p_chain C x) (pub_data C x c)) && (I_L (p_chain C x) (pub_data C x c) <? ec_order C).
  Lemma pub_tweak_eq : forall x c, xpub_ok C x -> cn_ok c ->
    pub_child_tweak C x c = if 2 ^ 31 <=? c then Ret (Err tt) else
      if tweak_valid x c then Ret (Ok (I_L (p_chain C x) (pub_data C x c), I_R (p_chain C x) (pub_data C x c))) else Panic.
  Proof.
    intros x c (DX & LP & OP & CX & LC & OCH) OC. destruct (pub_data_ok x c) as [OD LD]. unfold pub_child_tweak. rewrite (is_hardened_iff c OC), (cn_index_eq c OC).
    destruct (N.leb_spec (2 ^ 31) c); [reflexivity|]. assert (E : concat [ec_ser C (p_key C x); be_bytes 4 c] = pub_data C x c) by (cbn [concat]; now rewrite app_nil_r).
    rewrite hmac512; rewrite ?E; auto; [|rewrite LC; reflexivity|rewrite LD; reflexivity]. cbn [rbind]. unfold sk_from_bytes, tweak_valid.
    fold (I_L (p_chain C x) (pub_data C x c)). destruct ((0 <? I_L (p_chain C x) (pub_data C x c)) && (I_L (p_chain C x) (pub_data C x c) <? ec_order C)); reflexivity.
  Qed.
  Lemma pub_derive_eq : forall x c, xpub_ok C x -> cn_ok c ->
    pub_derive_child C x c = if 2 ^ 31 <=? c then Ret (Err CannotDeriveHardened) else
      if tweak_valid x c then
        match ec_add C (p_key C x) (I_L (p_chain C x) (pub_data C x c)) with
        | Some K => if p_depth C x <? 255 then Ret (Ok (pub_child C x c K)) else Ret (Err MaximumDepth)
        | None => Panic
        end
      else Panic.
  Proof.
    intros x c OX OC. unfold pub_derive_child. rewrite (pub_tweak_eq x c OX OC). destruct (2 ^ 31 <=? c); [reflexivity|]. destruct (tweak_valid x c); [|reflexivity]. cbn [rbind].
    destruct (ec_add C (p_key C x) (I_L (p_chain C x) (pub_data C x c))) as [K|]; [|reflexivity]. cbn [expect rbind].
    destruct (N.ltb_spec (p_depth C x + 1) 256), (N.ltb_spec (p_depth C x) 255); try lia; [|reflexivity]. rewrite fingerprint_eq. reflexivity.
  Qed.
  Lemma pub_child_ok : forall x c K, xpub_ok C x -> cn_ok c -> p_depth C x < 255 -> xpub_ok C (pub_child C x c K) /\ pub_master_rule C (pub_child C x c K).
  Proof.
    intros x c K (DX & LP & OP & CX & LC & OCH) OC D. destruct (pub_data_ok x c) as [OD LD]. destruct (fingerprint_ok (p_key C x)) as [FL FO].
    destruct (I_R_ok (p_chain C x) _ OCH OD) as [RL RO]. unfold pub_child. split.
    - unfold xpub_ok. cbn [p_depth p_parent p_child p_chain]. split; [lia|]. auto.
    - unfold pub_master_rule. cbn [p_depth]. lia.
  Qed.
  Lemma to_xpub_ok : forall x, xpriv_ok C x -> xpub_ok C (to_xpub C x).
  Proof. intros x (DX & LP & OP & CX & KX & LC & OCH). unfold xpub_ok, to_xpub. cbn [p_depth p_parent p_child p_chain]. auto 8. Qed.
  (** the results of private and public derivation *)
  Definition neuter (r : rust (result xpriv unit)) : rust (result (xpub C) pub_err) :=
    match r with Ret (Ok y) => Ret (Ok (to_xpub C y)) | Ret (Err _) => Ret (Err MaximumDepth) | Panic => Panic end.
  Lemma commute_child : forall x c, xpriv_ok C x -> c < 2 ^ 31 -> pub_derive_child C (to_xpub C x) c = neuter (priv_derive_child C x c).
  Proof.
    intros x c OX LC. assert (OC : cn_ok c) by (unfold cn_ok; lia). rewrite (pub_derive_eq _ c (to_xpub_ok x OX) OC), (priv_derive_eq x c OX OC).
    rewrite (proj2 (N.leb_gt _ _) LC). destruct OX as (DX & LP & OP & CX & KX & LCH & OCH).
    assert (ED : pub_data C (to_xpub C x) c = ckd_data C (s_key x) c) by (unfold pub_data, ckd_data; rewrite (proj2 (N.ltb_lt _ _) LC); reflexivity).
    unfold tweak_valid, child_existsb. cbv zeta. rewrite ED. change (p_chain C (to_xpub C x)) with (s_chain x). change (p_key C (to_xpub C x)) with (ec_mul C (s_key x)).
    change (p_depth C (to_xpub C x)) with (s_depth x). unfold pub_child. rewrite ED. cbn [p_chain p_net p_depth p_key to_xpub].
    unfold priv_child. cbv zeta. set (il := I_L (s_chain x) (ckd_data C (s_key x) c)) in *.
    destruct (N.ltb_spec 0 il) as [L0|]; [|reflexivity]. destruct (N.ltb_spec il (ec_order C)) as [LN|]; [|reflexivity]. cbn [andb].
    rewrite (add_mul C OKC (s_key x) il KX ltac:(lia)). rewrite (N.add_comm (s_key x) il). destruct ((il + s_key x) mod ec_order C =? 0); [reflexivity|]. cbn [negb].
    destruct (s_depth x <? 255); reflexivity.
  Qed.
  Lemma priv_derived_ok : forall x c y, xpriv_ok C x -> cn_ok c -> priv_derive_child C x c = Ret (Ok y) -> xpriv_ok C y /\ priv_master_rule y.
  Proof.
    intros x c y OX OC E. rewrite (priv_derive_eq x c OX OC) in E. destruct (child_existsb x c) eqn:EX; [|discriminate]. apply child_existsb_iff in EX.
    destruct (N.ltb_spec (s_depth x) 255) as [D|]; [|discriminate]. assert (y = priv_child C x c) as -> by congruence. now apply priv_child_ok.
  Qed.
  Lemma pub_derived_ok : forall x c y, xpub_ok C x -> cn_ok c -> pub_derive_child C x c = Ret (Ok y) -> xpub_ok C y /\ pub_master_rule C y.
  Proof.
    intros x c y OX OC E. rewrite (pub_derive_eq x c OX OC) in E. destruct (2 ^ 31 <=? c); [discriminate|]. destruct (tweak_valid x c); [|discriminate].
    destruct (ec_add C (p_key C x) (I_L (p_chain C x) (pub_data C x c))) as [K|]; [|discriminate].
    destruct (N.ltb_spec (p_depth C x) 255) as [D|]; [|discriminate]. assert (y = pub_child C x c K) as -> by congruence. now apply pub_child_ok.
  Qed.
  Lemma commute_path : forall p x, xpriv_ok C x -> Forall (fun c => c < 2 ^ 31) p -> pub_derive_path C (to_xpub C x) p = neuter (priv_derive_path C x p).
  Proof.
    induction p as [|c p IH]; intros x OX F; [reflexivity|]. inv F. assert (OC : cn_ok c) by (unfold cn_ok; lia). cbn [pub_derive_path priv_derive_path]. rewrite (commute_child x c OX H1).
    destruct (priv_derive_child C x c) as [[y|e]|] eqn:E; cbn [neuter rbind]; [|reflexivity|reflexivity]. apply IH; auto. now apply (priv_derived_ok x c y).
  Qed.
  Lemma priv_path_join : forall p q x, priv_derive_path C x (path_join p q) =
    rbind (priv_derive_path C x p) (fun r => match r with Ok y => priv_derive_path C y q | Err e => Ret (Err e) end).
  Proof.
    induction p as [|c p IH]; intros q x; [reflexivity|]. unfold path_join in *. cbn [app priv_derive_path]. destruct (priv_derive_child C x c) as [[y|e]|]; cbn [rbind]; auto.
  Qed.
  Lemma pub_path_join : forall p q x, pub_derive_path C x (path_join p q) =
    rbind (pub_derive_path C x p) (fun r => match r with Ok y => pub_derive_path C y q | Err e => Ret (Err e) end).
  Proof.
    induction p as [|c p IH]; intros q x; [reflexivity|]. unfold path_join in *. cbn [app pub_derive_path]. destruct (pub_derive_child C x c) as [[y|e]|]; cbn [rbind]; auto.
  Qed.
  Lemma priv_child_fields : forall x c y, xpriv_ok C x -> cn_ok c -> priv_derive_child C x c = Ret (Ok y) -> s_net y = s_net x /\ s_depth y = s_depth x + 1 /\ s_child y = c.
  Proof.
    intros x c y OX OC E. rewrite (priv_derive_eq x c OX OC) in E. destruct (child_existsb x c); [|discriminate]. destruct (s_depth x <? 255); [|discriminate].
    assert (y = priv_child C x c) as -> by congruence. auto.
  Qed.
  Lemma pub_child_fields : forall x c y, xpub_ok C x -> cn_ok c -> pub_derive_child C x c = Ret (Ok y) -> p_net C y = p_net C x /\ p_depth C y = p_depth C x + 1 /\ p_child C y = c /\ c < 2 ^ 31.
  Proof.
    intros x c y OX OC E. rewrite (pub_derive_eq x c OX OC) in E. destruct (N.leb_spec (2 ^ 31) c); [discriminate|]. destruct (tweak_valid x c); [|discriminate].
    destruct (ec_add C (p_key C x) (I_L (p_chain C x) (pub_data C x c))) as [K|]; [|discriminate]. destruct (p_depth C x <? 255); [|discriminate].
    assert (y = pub_child C x c K) as -> by congruence. auto.
  Qed.
  Lemma priv_path_ok : forall p x y, xpriv_ok C x -> Forall cn_ok p -> priv_derive_path C x p = Ret (Ok y) ->
    xpriv_ok C y /\ s_net y = s_net x /\ s_depth y = s_depth x + lenN p /\ (p <> [] -> priv_master_rule y /\ s_child y = last p 0).
  Proof.
    induction p as [|c p IH]; intros x y OX F E.
    - cbn [priv_derive_path] in E. assert (y = x) as -> by congruence. rewrite lenN_nil. repeat split; auto; try lia; try tauto; apply OX.
    - inv F. cbn [priv_derive_path] in E. destruct (priv_derive_child C x c) as [[z|e]|] eqn:EC; cbn [rbind] in E; try discriminate.
      destruct (priv_derived_ok x c z OX H1 EC) as [OZ MZ]. destruct (priv_child_fields x c z OX H1 EC) as (NZ & DZ & CZ).
      destruct (IH z y OZ H2 E) as (OY & NY & DY & MY). split; [exact OY|]. split; [congruence|]. split; [rewrite DY, DZ, lenN_cons; lia|]. intros _.
      destruct p as [|d p].
      + cbn [priv_derive_path] in E. assert (y = z) as -> by congruence. auto.
      + destruct (MY ltac:(discriminate)) as [M1 M2]. split; [exact M1|]. rewrite M2. reflexivity.
  Qed.
  Lemma pub_path_ok : forall p x y, xpub_ok C x -> Forall cn_ok p -> pub_derive_path C x p = Ret (Ok y) ->
    xpub_ok C y /\ p_net C y = p_net C x /\ p_depth C y = p_depth C x + lenN p /\ Forall (fun c => c < 2 ^ 31) p /\ (p <> [] -> pub_master_rule C y /\ p_child C y = last p 0).
  Proof.
    induction p as [|c p IH]; intros x y OX F E.
    - cbn [pub_derive_path] in E. assert (y = x) as -> by congruence. rewrite lenN_nil. split; [auto|]. split; [auto|]. split; [lia|]. split; [constructor|]. tauto.
    - inv F. cbn [pub_derive_path] in E. destruct (pub_derive_child C x c) as [[z|e]|] eqn:EC; cbn [rbind] in E; try discriminate.
      destruct (pub_derived_ok x c z OX H1 EC) as [OZ MZ]. destruct (pub_child_fields x c z OX H1 EC) as (NZ & DZ & CZ & LZ).
      destruct (IH z y OZ H2 E) as (OY & NY & DY & FY & MY). split; [exact OY|]. split; [congruence|]. split; [rewrite DY, DZ, lenN_cons; lia|]. split; [constructor; auto|]. intros _.
      destruct p as [|d p].
      + cbn [pub_derive_path] in E. assert (y = z) as -> by congruence. auto.
      + destruct (MY ltac:(discriminate)) as [M1 M2]. split; [exact M1|]. rewrite M2. reflexivity.
  Qed.
End Derive.
