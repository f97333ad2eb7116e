(** C52: signed messages. *)
From Coq Require Import String.
From Verif Require Import Base MDec LDec MWitness MText SText LText MTx MP2p LP2p2 SWire LWire MBip32 MPow MKey SKey LKey MAddress MMessage SMessage LMessage.
From Verif Require LAddress LCompact PTaproot PBase58 PKey.
Local Open Scope N_scope.

(** What is signed: the double SHA-256 of the magic text and the message, each preceded by its length; so two messages with one hash are the
    same message or a collision. *)
Theorem C52_hash : forall sha256d m m', lenN m < 2 ^ 64 -> lenN m' < 2 ^ 64 ->
  signed_msg_hash sha256d m = sha256d (message_preimage m) /\
  (message_preimage m = message_preimage m' -> m = m') /\
  (signed_msg_hash sha256d m = signed_msg_hash sha256d m' -> m = m' \/ (message_preimage m <> message_preimage m' /\ sha256d (message_preimage m) = sha256d (message_preimage m'))).
Proof.
  intros sha m m' L L'. assert (P : forall x, BITCOIN_SIGNED_MSG_PREFIX ++ cs_encode (lenN x) ++ x = message_preimage x).
  { intro x. unfold message_preimage. change (cs_encode (lenN x) ++ x) with (script_encode x). rewrite wire_bytes_eq. f_equal. }
  assert (I : message_preimage m = message_preimage m' -> m = m').
  { rewrite <- !P. intro E. apply app_inv_head in E. apply LCompact.cs_encode_inj in E; [now destruct E|exact L|exact L']. }
  split; [unfold signed_msg_hash; now rewrite P|]. split; [exact I|]. unfold signed_msg_hash. rewrite !P. intro E.
  destruct (list_eq_dec N.eq_dec (message_preimage m) (message_preimage m')) as [Q|Q]; [left; auto|right; auto].
Qed.

(** The 65 bytes of a signature, and which 65 bytes are read, as what; *)
Theorem C52_write : forall C R m, rcurve_ok C R ->
  ms_serialize C R m = Ret (signature_bytes C R m) /\ lenN (signature_bytes C R m) = 65 /\ bytes_ok (signature_bytes C R m).
Proof. intros C R m OK. exact (serialize_spec C R OK m). Qed.
Theorem C52_read : forall C R b m, rcurve_ok C R -> bytes_ok b ->
  ms_from_slice C R b <> Panic /\
  (ms_from_slice C R b = Ret (Ok m) <->
   exists x r, b = x :: r /\ 27 <= x /\ rc_ser C R (ms_signature C R m) = ((x - 27) mod 4, r) /\ ms_compressed C R m = N.testbit (x - 27) 2).
Proof.
  intros C R b m OK OB. unfold ms_from_slice, ms_lift. destruct b as [|x r].
  { cbn. split; [discriminate|]. split; [discriminate|intros (x & r & E & _); discriminate]. }
  destruct (N.eqb_spec (lenN (x :: r)) 65) as [L|L].
  - pose proof (array_total C R (x :: r) ltac:(discriminate)) as T. pose proof (array_iff C R OK x r m) as A. destruct (ms_from_byte_array C R (x :: r)) as [[m'|e]|]; [| |congruence]; cbn [rbind].
    + split; [discriminate|]. split; [intro H; exists x, r; split; [reflexivity|]; apply A; congruence|]. intros (x' & r' & E & H). injection E as -> ->. apply A in H. congruence.
    + split; [discriminate|]. split; [discriminate|]. intros (x' & r' & E & H). injection E as -> ->. apply A in H. discriminate.
  - split; [discriminate|]. split; [discriminate|]. intros (x' & r' & E & _ & S & _). injection E as -> ->. destruct (r_ser C R OK _ _ _ S) as (_ & _ & LR & _). rewrite lenN_cons, LR in L. lia.
Qed.
Theorem C52_read_errors : forall C R b e, rcurve_ok C R -> ms_from_slice C R b = Ret (Err e) ->
  match e with
  | MsLength => lenN b <> 65
  | MsEncoding SeRecoveryId => lenN b = 65 /\ hd 0 b < 27
  | MsEncoding SeSignature => lenN b = 65 /\ 27 <= hd 0 b /\ forall s, rc_ser C R s <> ((hd 0 b - 27) mod 4, tl b)
  | _ => False
  end.
Proof.
  intros C R b e OK. unfold ms_from_slice, ms_lift. destruct (N.eqb_spec (lenN b) 65) as [L|L]; [|intro H; assert (e = MsLength) as -> by congruence; exact L].
  destruct b as [|x r]; [discriminate L|]. destruct (ms_from_byte_array C R (x :: r)) as [[m|e']|] eqn:E; cbn [rbind]; [discriminate| |discriminate]. apply (array_err C R OK) in E. intro H.
  assert (e = MsEncoding e') as -> by congruence. cbn [hd tl]. destruct e'; auto.
Qed.
(** so what is written reads back, and with the eight header bytes 27 to 34 nothing else is read as it; *)
Theorem C52_round_trip : forall C R m, rcurve_ok C R -> ms_from_slice C R (signature_bytes C R m) = Ret (Ok m).
Proof.
  intros C R m OK. destruct (serialize_spec C R OK m) as (_ & L & _). unfold ms_from_slice. rewrite L. change (65 =? 65) with true. cbv iota.
  pose proof (back C R OK m 0 ltac:(reflexivity)) as B. rewrite N.mul_0_r, N.add_0_r in B. unfold ms_lift. change (ms_from_byte_array C R (signature_bytes C R m)) with (ms_from_byte_array C R (hd 0 (signature_bytes C R m) :: tl (signature_bytes C R m))).
  rewrite B. reflexivity.
Qed.
Theorem C52_canonical : forall C R b m, rcurve_ok C R -> bytes_ok b -> hd 0 b <= 34 ->
  (ms_from_slice C R b = Ret (Ok m) <-> b = signature_bytes C R m).
Proof.
  intros C R b m OK OB L. split; [|intros ->; now apply C52_round_trip]. intro H. apply C52_read in H; auto. destruct H as (x & r & -> & GE & S & CC). cbn [hd] in L.
  unfold signature_bytes. rewrite S. cbn [fst snd]. f_equal. rewrite CC, bit2 by lia. destruct (4 <=? x - 27) eqn:E; lia.
Qed.
(** but the header is not checked beyond 34: every signature has other serialisations that are read as it (reading is not exact). *)
Theorem C52_read_exact_refuted : forall C R m, rcurve_ok C R ->
  exists b, bytes_ok b /\ b <> signature_bytes C R m /\ ms_from_slice C R b = Ret (Ok m).
Proof.
  intros C R m OK. exists (hd 0 (signature_bytes C R m) + 8 * 1 :: tl (signature_bytes C R m)). destruct (serialize_spec C R OK m) as (_ & L & B). destruct (rc_ser C R (ms_signature C R m)) as [i raw] eqn:E.
  destruct (r_ser C R OK _ _ _ E) as (LI & _). assert (HD : hd 0 (signature_bytes C R m) < 36) by (unfold signature_bytes; rewrite E; cbn [hd fst]; destruct (ms_compressed C R m); lia).
  split; [|split].
  - inversion B. constructor; [unfold byte_ok; lia|assumption].
  - intro X. apply (f_equal (hd 0)) in X. cbn [hd] in X. lia.
  - unfold ms_from_slice, ms_lift. assert (lenN (hd 0 (signature_bytes C R m) + 8 * 1 :: tl (signature_bytes C R m)) = 65) as -> by exact L. change (65 =? 65) with true. cbv iota.
    rewrite (back C R OK m 1 ltac:(reflexivity)). reflexivity.
Qed.

(** Texts are the base64 of the bytes: writing, reading, errors; *)
Theorem C52_text_write : forall C R m, rcurve_ok C R -> exists s, ms_to_base64 C R m = Ret s /\ base64 (signature_bytes C R m) s /\ lenN s = 88.
Proof.
  intros C R m OK. destruct (serialize_spec C R OK m) as (E & L & B). unfold ms_to_base64. rewrite E. cbn [rbind]. eexists. split; [reflexivity|].
  pose proof (encode_base64 _ B) as T. split; [exact T|]. rewrite (base64_len _ _ T), L. reflexivity.
Qed.
Lemma from_base64_cases : forall C R s, rcurve_ok C R ->
  match ms_from_base64 C R s with
  | Panic => False
  | Ret (Ok m) => exists b, base64 b s /\ lenN b = 65 /\ ms_from_slice C R b = Ret (Ok m)
  | Ret (Err MsLength) => str_len s <> 88 \/ exists b, base64 b s /\ lenN b <> 65
  | Ret (Err MsBase64) => str_len s = 88 /\ ~ exists b, base64 b s
  | Ret (Err (MsEncoding e)) => exists b, base64 b s /\ lenN b = 65 /\ ms_from_slice C R b = Ret (Err (MsEncoding e))
  | Ret (Err (MsAddressType _)) => False
  end.
Proof.
  intros C R s OK. unfold ms_from_base64. destruct (N.eqb_spec (str_len s) 88) as [L|L]; cbn [negb]; [|now left]. unfold b64_decode_slice.
  destruct (b64_decode (as_bytes s)) as [b|] eqn:D.
  - apply base64_iff in D. pose proof (base64_ascii _ _ D) as A. pose proof (LAddress.bytes_ascii s A) as AB. rewrite AB in D, A. pose proof (base64_len _ _ D) as LL.
    rewrite str_len_ascii in L by exact A. rewrite L in LL. replace (lenN b <=? 66) with true by lia. cbn [rbind].
    destruct (N.eqb_spec (lenN b) 65) as [LB|LB]; cbn [negb]; [|right; eauto].
    assert (takeN 65 (b ++ repeat 0 1) = b) as -> by (rewrite takeN_app_le by lia; apply takeN_all; lia).
    assert (FS : ms_from_slice C R b = ms_lift C R (ms_from_byte_array C R b)) by (unfold ms_from_slice; now rewrite LB).
    rewrite <- FS. assert (NE : b <> []) by (intros ->; discriminate LB). pose proof (array_total C R b NE) as T.
    destruct (ms_from_byte_array C R b) as [[m|e]|] eqn:E; [| |congruence]; rewrite FS; cbn [ms_lift rbind]; exists b; (split; [exact D|]; split; [exact LB|]; rewrite FS; reflexivity).
  - cbn [rbind]. split; [exact L|]. intros [b B]. pose proof (base64_ascii _ _ B) as A. rewrite (ascii_bytes s A) in D. apply base64_iff in B. congruence.
Qed.
Theorem C52_text_read : forall C R s m, rcurve_ok C R ->
  ms_from_base64 C R s <> Panic /\
  (ms_from_base64 C R s = Ret (Ok m) <-> exists b, base64 b s /\ ms_from_slice C R b = Ret (Ok m)).
Proof.
  intros C R s m OK. pose proof (from_base64_cases C R s OK) as H. split; [intro E; now rewrite E in H|]. split.
  - intro E. rewrite E in H. destruct H as (b & B & _ & F). eauto.
  - intros (b & B & F). assert (LB : lenN b = 65).
    { unfold ms_from_slice in F. destruct (N.eqb_spec (lenN b) 65) as [X|X]; [exact X|discriminate]. }
    assert (U : forall b', base64 b' s -> b' = b) by (intros b' B'; apply base64_iff in B, B'; congruence).
    assert (LS : str_len s = 88) by (rewrite str_len_ascii by exact (base64_ascii _ _ B); rewrite (base64_len _ _ B), LB; reflexivity).
    destruct (ms_from_base64 C R s) as [[m'|[|e| |t]]|]; [|destruct H as [H|(b' & B' & N)]|..|].
    + destruct H as (b' & B' & _ & F'). rewrite (U b' B') in F'. congruence.
    + congruence.
    + rewrite (U b' B') in N. congruence.
    + destruct H as (b' & B' & _ & F'). rewrite (U b' B') in F'. congruence.
    + destruct H as (_ & N). destruct N. eauto.
    + destruct H.
    + destruct H.
Qed.
Theorem C52_text_errors : forall C R s e, rcurve_ok C R -> ms_from_base64 C R s = Ret (Err e) ->
  match e with
  | MsLength => str_len s <> 88 \/ exists b, base64 b s /\ lenN b <> 65
  | MsBase64 => str_len s = 88 /\ ~ exists b, base64 b s
  | MsEncoding e => exists b, base64 b s /\ ms_from_slice C R b = Ret (Err (MsEncoding e))
  | MsAddressType _ => False
  end.
Proof.
  intros C R s e OK E. pose proof (from_base64_cases C R s OK) as H. rewrite E in H. destruct e; auto. destruct H as (b & B & _ & F). eauto.
Qed.
Theorem C52_text_round_trip : forall C R m s, rcurve_ok C R -> ms_to_base64 C R m = Ret s -> ms_from_base64 C R s = Ret (Ok m).
Proof.
  intros C R m s OK E. destruct (C52_text_write C R m OK) as (s' & E' & T & _). assert (s' = s) as -> by congruence. apply C52_text_read; auto. exists (signature_bytes C R m). split; [exact T|now apply C52_round_trip].
Qed.
(** base64 itself is exact: every byte string has one text, every text at most one byte string. *)
Theorem C52_base64 : forall b s, bytes_ok b ->
  base64 b (b64_encode b) /\ (b64_decode s = Some b <-> base64 b s) /\ (base64 b s -> s = b64_encode b).
Proof.
  intros b s OK. split; [now apply encode_base64|]. split; [apply base64_iff|]. intro H. exact (base64_text_fun _ _ _ H (encode_base64 _ OK)).
Qed.

(** A message signed with a private key verifies, after a trip through its text, for the pay-to-pubkey-hash address of that key on either kind of network; *)
Theorem C52_sign_verifies : forall sha256d hash160 C R msg k kind, kcurve_ok C -> rcurve_ok C R -> secret_valid C (pk_key k) ->
  exists m s, ms_sign sha256d C R msg k = Ret m /\ ms_to_base64 C R m = Ret s /\ ms_from_base64 C R s = Ret (Ok m) /\
    ms_recover_pubkey C R m (signed_msg_hash sha256d msg) = Ok (pk_to_legacy C k) /\
    ms_is_signed_by_address hash160 C R m (p2pkh hash160 C (pk_to_legacy C k) kind) (signed_msg_hash sha256d msg) = Ok true.
Proof.
  intros sha h160 C R msg k kind OKC OK V.
  assert (S1 : from_secret_bytes C (to_secret_bytes k) = Some (mk_private true (pk_key k))).
  { destruct (k_order C OKC). destruct V. pose proof (LSha2b.be_bytes_len 32 (pk_key k)) as L.
    assert (BV : be_val (to_secret_bytes k) = pk_key k) by (unfold to_secret_bytes; rewrite LBip32b.be_val_of_bytes by (change (2 ^ (8 * N.of_nat 32)) with (2 ^ 256); lia); reflexivity).
    unfold from_secret_bytes. rewrite BV. unfold secret_ok. now replace ((0 <? pk_key k) && (pk_key k <? kc_order C)) with true by lia. }
  set (m := mk_ms C R (rc_sign C R (signed_msg_hash sha msg) (pk_key k)) (pk_compressed k)). destruct (C52_text_write C R m OK) as (s & ES & _). exists m, s.
  assert (RC : ms_recover_pubkey C R m (signed_msg_hash sha msg) = Ok (pk_to_legacy C k)).
  { unfold ms_recover_pubkey, m. cbn [ms_signature ms_compressed]. rewrite (r_recover C R OK _ _ V). unfold pk_to_legacy. destruct (pk_compressed k); reflexivity. }
  split; [unfold ms_sign; rewrite S1; reflexivity|]. split; [exact ES|]. split; [now apply (C52_text_round_trip C R m s OK)|]. split; [exact RC|].
  unfold ms_is_signed_by_address, p2pkh. cbn [type_of pubkey_hash_of]. rewrite RC. cbn [opt_beqb]. f_equal. now apply beqb_eq.
Qed.
(** and a signature verifies for an address exactly when the address is the pay-to-pubkey-hash one of the recovered key, in the recovered form: for the
    address of another key, the two keys' serialisations are a collision. *)
Theorem C52_verify : forall hash160 C R m h a, ms_is_signed_by_address hash160 C R m a h = Ok true <->
  exists p kind, rc_recover C R (ms_signature C R m) h = Some p /\ a = p2pkh hash160 C (mk_legacy C (ms_compressed C R m) p) kind.
Proof.
  intros h160 C R m h a. unfold ms_is_signed_by_address, ms_recover_pubkey, p2pkh. split.
  - destruct (type_of a) as [t|] eqn:T; [|discriminate]. destruct t; try discriminate. destruct (rc_recover C R (ms_signature C R m) h) as [p|]; [|discriminate].
    destruct a as [x n|x n|w n]; [|discriminate|].
    + cbn [pubkey_hash_of opt_beqb]. intro H. exists p, n. split; [reflexivity|]. assert (B : beqb x (lk_pubkey_hash h160 C (if ms_compressed C R m then mk_legacy C true p else mk_legacy C false p)) = true) by congruence.
      apply beqb_eq in B. rewrite B. destruct (ms_compressed C R m); reflexivity.
    + cbn [pubkey_hash_of opt_beqb]. intro H. discriminate.
  - intros (p & kind & -> & ->). cbn [type_of pubkey_hash_of opt_beqb]. f_equal. apply beqb_eq. destruct (ms_compressed C R m); reflexivity.
Qed.
Theorem C52_verify_binds : forall hash160 C R m h k kind, kcurve_ok C ->
  ms_is_signed_by_address hash160 C R m (p2pkh hash160 C k kind) h = Ok true ->
  rc_recover C R (ms_signature C R m) h = Some (lk_point C k) /\ ms_compressed C R m = lk_compressed C k \/
  exists k', pub_bytes C k' <> pub_bytes C k /\ hash160 (pub_bytes C k') = hash160 (pub_bytes C k).
Proof.
  intros h160 C R m h k kind OKC H. apply C52_verify in H. destruct H as (p & kind' & E & A). unfold p2pkh in A. injection A as A _. unfold lk_pubkey_hash in A.
  set (k' := mk_legacy C (ms_compressed C R m) p) in A. destruct (list_eq_dec N.eq_dec (pub_bytes C k') (pub_bytes C k)) as [Q|Q].
  - left. apply (pub_inj C OKC) in Q. subst k. split; [exact E|reflexivity].
  - right. exists k'. split; [exact Q|]. symmetry. exact A.
Qed.
(** Other address types are refused by name; an address of no known type is not an error. *)
Theorem C52_verify_types : forall hash160 C R m h a,
  (forall t, ms_is_signed_by_address hash160 C R m a h = Err (MsAddressType t) <-> type_of a = Some t /\ t <> TyP2pkh) /\
  (type_of a = None -> ms_is_signed_by_address hash160 C R m a h = Ok false) /\
  (ms_is_signed_by_address hash160 C R m a h = Err (MsEncoding SeRecover) <-> type_of a = Some TyP2pkh /\ rc_recover C R (ms_signature C R m) h = None).
Proof.
  intros h160 C R m h a. unfold ms_is_signed_by_address, ms_recover_pubkey. destruct (type_of a) as [t|].
  2: { split; [intro t; split; [discriminate|intros [X _]; discriminate]|]. split; [reflexivity|]. split; [discriminate|intros [X _]; discriminate]. }
  destruct (rc_recover C R (ms_signature C R m) h) as [p|]; destruct t;
    (split; [intro t'; split; [intro X; try discriminate; split; congruence|intros [X Y]; congruence]|]; split; [discriminate|]; split; [intro X; try discriminate; split; reflexivity|intros [X Y]; congruence]).
Qed.

(** A toy instance of the signature laws, and cases. *)
Definition toy_check (x : N * bytes) : bool := (fst x <? 4) && (lenN (snd x) =? 64) && forallb (fun b => b <? 256) (snd x).
Definition toy_rsig : Type := {x : N * bytes | toy_check x = true}.
Definition toy_mk (x : N * bytes) : option toy_rsig :=
  match Bool.bool_dec (toy_check x) true with left H => Some (exist _ x H) | right _ => None end.
Lemma toy_mk_some : forall (s : toy_rsig), toy_mk (proj1_sig s) = Some s.
Proof.
  intros [x H]. unfold toy_mk. cbn [proj1_sig]. destruct (Bool.bool_dec (toy_check x) true) as [H'|N]; [|congruence].
  assert (H' = H) as -> by (apply Eqdep_dec.UIP_dec; apply Bool.bool_dec). reflexivity.
Qed.
Lemma zero_check : toy_check (0, repeat 0 64) = true.
Proof. reflexivity. Qed.
Definition toyr : rcurve PKey.toyk := mk_rcurve PKey.toyk toy_rsig (fun b i => toy_mk (i, b)) (fun s => proj1_sig s)
  (fun s _ => Some (kc_mul PKey.toyk (be_val (firstn 32 (snd (proj1_sig s))))))
  (fun m k => match toy_mk (0, be_bytes 32 k ++ repeat 0 32) with Some s => s | None => exist _ _ zero_check end).
Lemma toyr_ok : rcurve_ok PKey.toyk toyr.
Proof.
  constructor; cbn [toyr rc_sig rc_parse rc_ser rc_recover rc_sign].
  - intros s i b E. destruct s as [[i' b'] H] eqn:Es. cbn [proj1_sig] in E. injection E as -> ->. pose proof H as H'. unfold toy_check in H'. cbn [fst snd] in H'.
    apply andb_true_iff in H' as [H' F]. apply andb_true_iff in H' as [A L]. split; [lia|]. split; [|split; [lia|]].
    + rewrite forallb_forall in F. apply Forall_forall. intros x I. specialize (F x I). unfold byte_ok. lia.
    + exact (toy_mk_some (exist _ (i, b) H)).
  - intros b i s E. unfold toy_mk in E. destruct (Bool.bool_dec (toy_check (i, b)) true) as [H|N]; [|discriminate]. injection E as <-. reflexivity.
  - intros m k V. unfold toy_mk. assert (T : toy_check (0, be_bytes 32 k ++ repeat 0 32) = true).
    { unfold toy_check. cbn [fst snd]. change (0 <? 4) with true. rewrite lenN_app. rewrite LSha2b.be_bytes_len. change (N.of_nat 32 + lenN (repeat 0 32) =? 64) with true. cbn [andb].
      apply forallb_forall. intros x I. apply in_app_or in I. destruct I as [I|I]; [|apply repeat_spec in I; subst; reflexivity].
      pose proof (LSha2b.be_bytes_ok 32 k) as OK. unfold bytes_ok in OK. rewrite Forall_forall in OK. specialize (OK x I). unfold byte_ok in OK. lia. }
    destruct (Bool.bool_dec (toy_check (0, be_bytes 32 k ++ repeat 0 32)) true) as [H|N]; [|congruence]. cbn [proj1_sig snd].
    f_equal. f_equal. pose proof (LSha2b.be_bytes_len 32 k) as L. unfold lenN in L. apply Nat2N.inj in L. replace 32%nat with (List.length (be_bytes 32 k) + 0)%nat at 1 by (rewrite L; reflexivity). rewrite firstn_app_2, firstn_O, app_nil_r.
    apply LBip32b.be_val_of_bytes. destruct V as [_ V]. eapply N.lt_trans; [exact V|]. apply (k_order PKey.toyk PKey.toyk_ok).
Qed.
Lemma toy_recid : forall m k, fst (proj1_sig (rc_sign PKey.toyk toyr m k)) = 0.
Proof.
  intros m k. cbn [toyr rc_sign]. unfold toy_mk. generalize (be_bytes 32 k). intro b.
  destruct (Bool.bool_dec (toy_check (0, b ++ repeat 0 32)) true); reflexivity.
Qed.
Definition ex_private : private := mk_private true 12345.
Example C52_nonvacuous :
  kcurve_ok PKey.toyk /\ rcurve_ok PKey.toyk toyr /\ secret_valid PKey.toyk (pk_key ex_private) /\
  base64 (lit "light work.") (lit "bGlnaHQgd29yay4=") /\ base64 [255; 239] (lit "/+8=") /\
  b64_decode (lit "/+9=") = None /\ b64_decode (lit "/+8") = None /\
  (exists m, ms_sign PBase58.toy_sha PKey.toyk toyr (lit "hello") ex_private = Ret m /\ hd 0 (signature_bytes PKey.toyk toyr m) = 31) /\
  ms_from_base64 PKey.toyk toyr (lit "too short") = Ret (Err MsLength).
Proof.
  split; [exact PKey.toyk_ok|]. split; [exact toyr_ok|]. split; [split; reflexivity|]. split; [apply base64_iff; reflexivity|]. split; [apply base64_iff; reflexivity|].
  split; [reflexivity|]. split; [reflexivity|]. split; [|reflexivity].
  assert (V : secret_valid PKey.toyk (pk_key ex_private)) by (split; reflexivity).
  destruct (C52_sign_verifies PBase58.toy_sha (fun b => b) PKey.toyk toyr (lit "hello") ex_private NMain PKey.toyk_ok toyr_ok V) as (m & s & E & _). exists m. split; [exact E|].
  unfold ms_sign in E. destruct (from_secret_bytes PKey.toyk (to_secret_bytes ex_private)) as [sk|]; [|discriminate E].
  assert (X : forall A (a b : A), Ret a = Ret b -> a = b) by congruence. apply X in E. rewrite <- E. clear.
  unfold signature_bytes. cbn [ms_signature ms_compressed hd]. change (rc_ser PKey.toyk toyr) with (fun s : toy_rsig => proj1_sig s). cbv beta.
  rewrite toy_recid. reflexivity.
Qed.

Print Assumptions C52_hash.
Print Assumptions C52_write.
Print Assumptions C52_read.
Print Assumptions C52_read_errors.
Print Assumptions C52_round_trip.
Print Assumptions C52_canonical.
Print Assumptions C52_read_exact_refuted.
Print Assumptions C52_text_write.
Print Assumptions C52_text_read.
Print Assumptions C52_text_errors.
Print Assumptions C52_text_round_trip.
Print Assumptions C52_base64.
Print Assumptions C52_sign_verifies.
Print Assumptions C52_verify.
Print Assumptions C52_verify_binds.
Print Assumptions C52_verify_types.
