(** C49: keys and their texts. *)
From Coq Require Import String.
From Verif Require PTaproot LWire MTaproot MWitness.
From Verif Require Import Base MDec LDec SWire MText SText LText MP2p LP2p2 MBip32 MBase58 SBase58 LBase58 PBase58 LSha2b LBip32b LAddress MKey SKey LKey.
Local Open Scope N_scope.

(** Reading a public key from bytes never panics and accepts exactly the serialisations: compressed or not, no hybrid encoding. *)
Theorem C49_public_bytes : forall C b k, kcurve_ok C ->
  lk_from_slice C b <> Panic /\ (lk_from_slice C b = Ret (Ok k) <-> b = pub_bytes C k) /\
  lk_serialize C k = pub_bytes C k /\ lenN (pub_bytes C k) = (if lk_compressed C k then 33 else 65).
Proof. intros C b k OKC. split; [apply from_slice_total|]. split; [now apply from_slice_iff|]. split; [reflexivity|now apply pub_len]. Qed.
Theorem C49_public_errors : forall C b e, kcurve_ok C -> lk_from_slice C b = Ret (Err e) ->
  match e with
  | InvalidLength n => n = lenN b /\ n <> 33 /\ n <> 65
  | InvalidKeyPrefix x => exists r, b = x :: r /\ ((lenN b = 33 /\ x <> 2 /\ x <> 3) \/ (lenN b = 65 /\ x <> 4))
  | InvalidPublicKey => (lenN b = 33 \/ lenN b = 65) /\ ~ exists k, b = pub_bytes C k
  end.
Proof.
  intros C b e OKC H. assert (NO : forall k, b <> pub_bytes C k) by (intros k K; apply (from_slice_iff C OKC) in K; congruence). unfold lk_from_slice in H. destruct (N.eqb_spec (lenN b) 33) as [E|E].
  - destruct b as [|x b]; [discriminate E|]. destruct ((x =? 2) || (x =? 3)) eqn:X.
    + destruct (kc_parse C (x :: b)); [discriminate|]. assert (e = InvalidPublicKey) as -> by congruence. split; [now left|]. intros [k K]. exact (NO k K).
    + assert (e = InvalidKeyPrefix x) as -> by congruence. exists b. split; [reflexivity|]. left. lia.
  - destruct (N.eqb_spec (lenN b) 65) as [E'|E'].
    + destruct b as [|x b]; [discriminate E'|]. destruct (x =? 4) eqn:X.
      * destruct (kc_parse C (x :: b)); [discriminate|]. assert (e = InvalidPublicKey) as -> by congruence. split; [now right|]. intros [k K]. exact (NO k K).
      * assert (e = InvalidKeyPrefix x) as -> by congruence. exists b. split; [reflexivity|]. right. lia.
    + assert (e = InvalidLength (lenN b)) as -> by congruence. auto.
Qed.
(** Different keys have different bytes. *)
Theorem C49_public_injective : forall C k k', kcurve_ok C -> lk_serialize C k = lk_serialize C k' -> k = k'.
Proof. intros C k k' OKC. exact (pub_inj C OKC k k'). Qed.
(** The text of a public key is the hexadecimal of its bytes, written in lower case, read in either case; *)
Theorem C49_public_text : forall C s k, kcurve_ok C ->
  lk_from_str C s <> Panic /\ (lk_from_str C s = Ret (Ok k) <-> hex_of s (pub_bytes C k)) /\
  hex_of (lk_display C k) (pub_bytes C k) /\ map lower (lk_display C k) = lk_display C k /\ lk_from_str C (lk_display C k) = Ret (Ok k).
Proof.
  intros C s k OKC. assert (T : forall s, lk_from_str C s <> Panic).
  { clear s. intro s. unfold lk_from_str. destruct (N.eqb_spec (str_len s) 66) as [E|E]; [|destruct (N.eqb_spec (str_len s) 130) as [E'|E']; [|discriminate]].
    all: match goal with |- context [decode_to_array ?n ?t] => destruct (decode_to_array n t) as [b|[m|]] eqn:D end; [|apply array_err in D; exfalso; lia|discriminate].
    all: pose proof (from_slice_total C b) as X; destruct (lk_from_slice C b); [discriminate|congruence]. }
  assert (I : forall s, lk_from_str C s = Ret (Ok k) <-> hex_of s (pub_bytes C k)).
  { clear s. intro s. split.
    - unfold lk_from_str. destruct (N.eqb_spec (str_len s) 66) as [E|E]; [|destruct (N.eqb_spec (str_len s) 130) as [E'|E']; [|discriminate]].
      all: match goal with |- context [decode_to_array ?n ?t] => destruct (decode_to_array n t) as [b|[m|]] eqn:D end; try discriminate.
      all: destruct (lk_from_slice C b) as [[k'|e]|] eqn:F; try discriminate; cbn [rbind]; intro H; assert (k' = k) as -> by congruence; apply (from_slice_iff C OKC) in F; subst b; apply array_spec in D; apply D.
    - intro H. pose proof (pub_len C OKC k) as L. unfold lk_from_str. rewrite (hex_len _ _ H), L. pose proof (proj2 (from_slice_iff C OKC _ k) eq_refl) as F. destruct (lk_compressed C k).
      + change (2 * 33 =? 66) with true. cbv iota. rewrite (proj2 (array_spec 33 s _) (conj H L)), F. reflexivity.
      + change (2 * 65 =? 66) with false. change (2 * 65 =? 130) with true. cbv iota. rewrite (proj2 (array_spec 65 s _) (conj H L)), F. reflexivity. }
  assert (D : hex_of (lk_display C k) (pub_bytes C k)) by (apply hex_bytes_of; now apply pub_ok).
  split; [apply T|]. split; [apply I|]. split; [exact D|]. split; [exact (lower_hex _ _ D)|]. now apply I.
Qed.
Theorem C49_public_text_errors : forall C s e, kcurve_ok C -> lk_from_str C s = Ret (Err e) ->
  match e with
  | PkInvalidHexLength n => n = str_len s /\ n <> 66 /\ n <> 130
  | PkInvalidChar => (str_len s = 66 \/ str_len s = 130) /\ ~ exists b, hex_of s b
  | PkEncoding e => exists b, hex_of s b /\ lk_from_slice C b = Ret (Err e)
  end.
Proof.
  intros C s e OKC H. unfold lk_from_str in H. destruct (N.eqb_spec (str_len s) 66) as [E|E]; [|destruct (N.eqb_spec (str_len s) 130) as [E'|E']].
  3: { assert (e = PkInvalidHexLength (str_len s)) as -> by congruence. auto. }
  all: match type of H with context [decode_to_array ?n ?t] => destruct (decode_to_array n t) as [b|[m|]] eqn:D end; [|discriminate|].
  all: try (assert (e = PkInvalidChar) as -> by congruence; apply array_err in D; split; [auto|apply D]).
  all: destruct (lk_from_slice C b) as [[k'|e']|] eqn:F; try discriminate; cbn [rbind] in H; assert (e = PkEncoding e') as -> by congruence; exists b; apply array_spec in D; split; [apply D|exact F].
Qed.
(** Keys that are always compressed: the same, in 33 bytes. *)
Theorem C49_full : forall C b s k, kcurve_ok C -> lenN b = 33 ->
  (fk_from_bytes C b = Some k <-> b = kc_ser33 C k) /\ fk_to_bytes C k = kc_ser33 C k /\
  (fk_from_str C s = Ok k <-> hex_of s (kc_ser33 C k)) /\
  hex_of (fk_display C k) (kc_ser33 C k) /\ map lower (fk_display C k) = fk_display C k /\ fk_from_str C (fk_display C k) = Ok k.
Proof.
  intros C b s k OKC L. assert (F : forall b, lenN b = 33 -> (fk_from_bytes C b = Some k <-> b = kc_ser33 C k)).
  { intros b' L'. unfold fk_from_bytes. split; [intro H; now apply (k_canon33 C OKC)|intros ->; apply (k_parse33 C OKC)]. }
  assert (I : forall s, fk_from_str C s = Ok k <-> hex_of s (kc_ser33 C k)).
  { intro s'. unfold fk_from_str. split.
    - destruct (decode_to_array 33 s') as [b'|] eqn:D; [|discriminate]. apply array_spec in D. destruct D as [D L']. destruct (fk_from_bytes C b') as [k'|] eqn:K; [|discriminate]. intro H. assert (k' = k) as -> by congruence.
      apply (F b' L') in K. now subst b'.
    - intro H. rewrite (proj2 (array_spec 33 s' _) (conj H (ser_33 C OKC k))). rewrite (proj2 (F _ (ser_33 C OKC k)) eq_refl). reflexivity. }
  assert (D : hex_of (fk_display C k) (kc_ser33 C k)) by (apply hex_bytes_of; apply (k_ser33 C OKC)).
  split; [now apply F|]. split; [reflexivity|]. split; [apply I|]. split; [exact D|]. split; [exact (lower_hex _ _ D)|]. now apply I.
Qed.
(** The always compressed keys are exactly the compressed ones among the others. *)
Theorem C49_full_legacy : forall C k f, full_of_legacy C k = Some f <-> k = legacy_of_full C f.
Proof. intros C [c p] f. unfold full_of_legacy, legacy_of_full. cbn [lk_compressed lk_point]. destruct c; split; intro H; try discriminate.
  - assert (p = f) as -> by congruence. reflexivity.
  - assert (p = f) as -> by congruence. reflexivity.
Qed.
(** The hashes of a key are HASH160 of its own serialisation; a witness hash exists for compressed keys only. *)
Theorem C49_hashes : forall hash160 C k h,
  lk_pubkey_hash hash160 C k = hash160 (pub_bytes C k) /\
  (lk_wpubkey_hash hash160 C k = Some h <-> lk_compressed C k = true /\ h = hash160 (pub_bytes C k)) /\
  (forall f, fk_pubkey_hash hash160 C f = hash160 (pub_bytes C (legacy_of_full C f))).
Proof.
  intros hash C [c p] h. unfold lk_pubkey_hash, lk_wpubkey_hash, pub_bytes, lk_serialize. cbn [lk_compressed lk_point]. split; [reflexivity|]. split; [|reflexivity].
  destruct c; split; [intro H; split; [reflexivity|congruence]|intros [_ ->]; reflexivity|discriminate|intros [H _]; discriminate].
Qed.
(** Sorting compares the serialisations lexicographically; it is a strict total order on keys. *)
Theorem C49_sort : forall C, kcurve_ok C ->
  (forall a b, sort_key_cmp C a b = Lt <-> lex_lt (pub_bytes C a) (pub_bytes C b)) /\
  (forall a b, sort_key_cmp C a b = Eq <-> a = b) /\
  (forall a b, sort_key_cmp C b a = CompOpp (sort_key_cmp C a b)) /\
  (forall a b c, sort_key_cmp C a b = Lt -> sort_key_cmp C b c = Lt -> sort_key_cmp C a c = Lt).
Proof.
  intros C OKC. unfold sort_key_cmp. change (lk_serialize C) with (pub_bytes C). split; [|split; [|split]].
  - intros a b. split; [|apply lex_cmp]. intro H. pose proof (bytes_cmp_spec (pub_bytes C a) (pub_bytes C b)) as X. now rewrite H in X.
  - intros a b. split.
    + intro H. pose proof (bytes_cmp_spec (pub_bytes C a) (pub_bytes C b)) as X. rewrite H in X. now apply (pub_inj C OKC).
    + intros ->. pose proof (bytes_cmp_spec (pub_bytes C b) (pub_bytes C b)) as X. pose proof (cmp_flip (pub_bytes C b) (pub_bytes C b)) as Y. destruct (bytes_cmp (pub_bytes C b) (pub_bytes C b)); [reflexivity|discriminate Y|discriminate Y].
  - intros a b. apply cmp_flip.
  - intros a b c. apply cmp_trans.
Qed.

(** A secret key is read from its 32 bytes exactly when it is neither zero nor too large, and gives the same bytes back. *)
Theorem C49_secret : forall C b k, kcurve_ok C -> bytes_ok b -> lenN b = 32 ->
  (from_secret_bytes C b = Some k <-> pk_compressed k = true /\ pk_key k = be_val b /\ secret_valid C (be_val b)) /\
  (from_secret_bytes C b = Some k -> to_secret_bytes k = b).
Proof.
  intros C b k OKC OK L. assert (I : from_secret_bytes C b = Some k <-> pk_compressed k = true /\ pk_key k = be_val b /\ secret_valid C (be_val b)).
  { unfold from_secret_bytes. pose proof (secret_iff C (be_val b)) as X. destruct k as [c k]. cbn [pk_compressed pk_key]. destruct (secret_ok C (be_val b)); split.
    - intro H. assert (c = true) by congruence. assert (k = be_val b) by congruence. split; [assumption|]. split; [assumption|now apply X].
    - intros (-> & -> & _). reflexivity.
    - discriminate.
    - intros (_ & _ & H). apply X in H. discriminate. }
  split; [exact I|]. intro H. apply I in H. destruct H as (_ & E & _). unfold to_secret_bytes. rewrite E. apply be_bytes_of_val; [exact OK|unfold lenN in L; lia].
Qed.
(** Negation gives the other key with the same x coordinate: the two add up to the order; twice is the identity. *)
Theorem C49_negate : forall C k, kcurve_ok C -> secret_valid C (pk_key k) ->
  secret_valid C (pk_key (pk_negate C k)) /\ pk_key k + pk_key (pk_negate C k) = kc_order C /\
  pk_compressed (pk_negate C k) = pk_compressed k /\ pk_negate C (pk_negate C k) = k.
Proof.
  intros C [c k] OKC V. unfold secret_valid, pk_negate in *. cbn [pk_key pk_compressed] in *. split; [lia|]. split; [lia|]. split; [reflexivity|]. f_equal. lia.
Qed.
(** Different secret keys have different public keys. *)
Theorem C49_to_public : forall C k k', kcurve_ok C -> secret_valid C (pk_key k) -> secret_valid C (pk_key k') ->
  lk_serialize C (pk_to_legacy C k) = lk_serialize C (pk_to_legacy C k') -> k = k'.
Proof.
  intros C [c k] [c' k'] OKC V V' E. apply (pub_inj C OKC) in E. unfold pk_to_legacy in E. cbn [pk_key pk_compressed] in *. injection E as E1 E2. apply (k_mul C OKC) in E2; [|exact V|exact V']. congruence.
Qed.
(** Wallet import format: writing never panics and gives the base58check text of version, key and compression mark; *)
Theorem C49_wif_write : forall sha256d C k, (forall m, hash_ok (sha256d m)) -> kcurve_ok C -> secret_valid C (pk_key (wk_private k)) ->
  exists s, to_wif sha256d k = Ret s /\ wif_text sha256d k s.
Proof.
  intros sha C k SHA OKC V. rewrite to_wif_spec. apply (C26_encode sha (wif_payload k) SHA (payload_ok k)).
  - rewrite payload_len. destruct (pk_compressed _); reflexivity.
  - rewrite payload_len. destruct (pk_compressed _); discriminate.
Qed.
(** reading never panics and accepts exactly those texts; *)
Theorem C49_wif_read : forall sha256d C s k, (forall m, hash_ok (sha256d m)) -> kcurve_ok C ->
  from_wif sha256d C s <> Panic /\ (from_wif sha256d C s = Ret (Ok k) <-> secret_valid C (pk_key (wk_private k)) /\ wif_text sha256d k s).
Proof.
  intros sha C s k SHA OKC. destruct (from_wif_data C sha SHA s) as (r & E & R). split; [congruence|]. split.
  - intro H. rewrite E in H. assert (r = Ok k) as -> by congruence. destruct R as [V CT]. split; [exact V|]. unfold wif_text. rewrite <- (base58_as_bytes _ _ CT). exact CT.
  - intros [V CT]. apply (from_wif_ok C OKC sha SHA); [exact V|]. unfold wif_text, checked_text in *. rewrite ascii_bytes; [exact CT|]. exact (base58_ascii _ _ CT).
Qed.
(** so a written key is read back, and different keys have different texts. *)
Theorem C49_wif_round_trip : forall sha256d C k k' s, (forall m, hash_ok (sha256d m)) -> kcurve_ok C ->
  secret_valid C (pk_key (wk_private k)) -> to_wif sha256d k = Ret s ->
  from_wif sha256d C s = Ret (Ok k) /\ (secret_valid C (pk_key (wk_private k')) -> to_wif sha256d k' = Ret s -> k' = k).
Proof.
  intros sha C k k' s SHA OKC V E. destruct (C49_wif_write sha C k SHA OKC V) as (t & ET & T). assert (t = s) as -> by congruence. clear ET.
  assert (R : from_wif sha C s = Ret (Ok k)) by (apply (C49_wif_read sha C s k SHA OKC); auto). split; [exact R|]. intros V' E'.
  destruct (C49_wif_write sha C k' SHA OKC V') as (t & ET & T'). assert (t = s) as -> by congruence.
  assert (R' : from_wif sha C s = Ret (Ok k')) by (apply (C49_wif_read sha C s k' SHA OKC); auto). congruence.
Qed.
(** The errors say what is wrong. *)
Theorem C49_wif_errors : forall sha256d C s e, (forall m, hash_ok (sha256d m)) -> kcurve_ok C -> from_wif sha256d C s = Ret (Err e) ->
  match e with
  | FwBase58 _ => ~ exists p, checked_text sha256d p s
  | FwLength n => exists p, checked_text sha256d p s /\ lenN p = n /\ n <> 33 /\ n <> 34
  | FwCompressionFlag f => exists p, checked_text sha256d (p ++ [f]) s /\ lenN p = 33 /\ f <> 1
  | FwVersion v => exists p key tail, checked_text sha256d p s /\ wif_shape p v key tail /\ v <> 128 /\ v <> 239
  | FwSecretBytes => exists p v key tail, checked_text sha256d p s /\ wif_shape p v key tail /\ ~ secret_valid C (be_val key)
  end.
Proof.
  intros sha C s e SHA OKC H. destruct (from_wif_data C sha SHA s) as (r & E & R). rewrite E in H. assert (r = Err e) as -> by congruence.
  destruct (list_eq_dec N.eq_dec (as_bytes s) s) as [A|A].
  - rewrite A in R. exact R.
  - assert (NO : forall p, ~ checked_text sha p (as_bytes s)) by (intros p P; apply A; exact (base58_as_bytes _ _ P)). destruct e.
    + intros [p P]. apply A. apply ascii_bytes. exact (base58_ascii _ _ P).
    + destruct R as (p & P & _). destruct (NO p P).
    + destruct R as (p & k & t & P & _). destruct (NO p P).
    + destruct R as (p & v & k & t & P & _). destruct (NO p P).
    + destruct R as (p & P & _). destruct (NO _ P).
Qed.
(** The first character and the length of a text tell the network and whether the key is compressed: 5, K or L, 9 and c. *)
Theorem C49_wif_prefix : forall sha256d k s, (forall m, hash_ok (sha256d m)) -> wif_text sha256d k s ->
  match wk_net k, pk_compressed (wk_private k) with
  | NMain, false => lenN s = 51 /\ hd 0 s = 53
  | NMain, true => lenN s = 52 /\ (hd 0 s = 75 \/ hd 0 s = 76)
  | NTest, false => lenN s = 51 /\ hd 0 s = 57
  | NTest, true => lenN s = 52 /\ hd 0 s = 99
  end.
Proof.
  intros sha k s SHA T. unfold wif_text, checked_text in T. set (ck := firstn 4 (sha (wif_payload k))) in T. assert (LC : lenN ck = 4) by (apply (ck_len sha SHA)). clearbody ck.
  assert (LD : exists d, wif_payload k ++ ck = match wk_net k with NMain => 128 | NTest => 239 end :: d /\ lenN d = if pk_compressed (wk_private k) then 37 else 36).
  { unfold wif_payload. cbn [app]. eexists. split; [reflexivity|]. rewrite !lenN_app, be_bytes_len, LC. destruct (pk_compressed _); reflexivity. }
  destruct LD as (d & DE & LD). rewrite DE in T. clear DE. destruct (wk_net k), (pk_compressed (wk_private k)).
  - destruct (base58_range 51 128 d s 18 20 T ltac:(lia) ltac:(lia) ltac:(lia)) as (c & v & s' & -> & D & R & L); [rewrite LD; vm_compute; discriminate|rewrite LD; vm_compute; discriminate|].
    split; [exact L|]. cbn [hd]. unfold digit58 in D. assert (v = 18 \/ v = 19) as [-> | ->] by lia; vm_compute in D; [left|right]; congruence.
  - destruct (base58_range 50 128 d s 4 5 T ltac:(lia) ltac:(lia) ltac:(lia)) as (c & v & s' & -> & D & R & L); [rewrite LD; vm_compute; discriminate|rewrite LD; vm_compute; discriminate|].
    split; [exact L|]. cbn [hd]. unfold digit58 in D. assert (v = 4) as -> by lia. vm_compute in D. congruence.
  - destruct (base58_range 51 239 d s 35 36 T ltac:(lia) ltac:(lia) ltac:(lia)) as (c & v & s' & -> & D & R & L); [rewrite LD; vm_compute; discriminate|rewrite LD; vm_compute; discriminate|].
    split; [exact L|]. cbn [hd]. unfold digit58 in D. assert (v = 35) as -> by lia. vm_compute in D. congruence.
  - destruct (base58_range 50 239 d s 8 9 T ltac:(lia) ltac:(lia) ltac:(lia)) as (c & v & s' & -> & D & R & L); [rewrite LD; vm_compute; discriminate|rewrite LD; vm_compute; discriminate|].
    split; [exact L|]. cbn [hd]. unfold digit58 in D. assert (v = 8) as -> by lia. vm_compute in D. congruence.
Qed.

(** A curve that meets the laws: points are the numbers below the order. *)
Definition toy33 (k : PTaproot.toy_key) : bytes := 2 :: be_bytes 32 (proj1_sig k).
Definition toy65 (k : PTaproot.toy_key) : bytes := 4 :: be_bytes 64 (proj1_sig k).
Definition toy_kp (b : bytes) : option PTaproot.toy_key :=
  let k := PTaproot.toy_make (be_val (tl b)) in if MWitness.beqb b (toy33 k) || MWitness.beqb b (toy65 k) then Some k else None.
Definition toyk : kcurve := mk_kcurve MTaproot.CURVE_ORDER PTaproot.toy_key PTaproot.toy_make toy33 toy65 toy_kp (fun k => (be_bytes 32 (proj1_sig k), false)).
Lemma toyk_ok : kcurve_ok toyk.
Proof.
  assert (LT : forall k : PTaproot.toy_key, proj1_sig k < MTaproot.CURVE_ORDER) by (intros [k K]; cbn [proj1_sig]; now apply N.ltb_lt).
  assert (OL : MTaproot.CURVE_ORDER < 256 ^ 32) by reflexivity. assert (OL' : 256 ^ 32 < 256 ^ 64) by reflexivity.
  assert (MK : forall k : PTaproot.toy_key, PTaproot.toy_make (proj1_sig k) = k) by (intro k; apply PTaproot.toy_eq; cbn [PTaproot.toy_make proj1_sig]; apply N.mod_small, LT).
  constructor; cbn [toyk kc_order kc_point kc_mul kc_ser33 kc_ser65 kc_parse kc_xonly].
  - split; reflexivity.
  - intro p. unfold toy33. split; [constructor; [reflexivity|apply be_bytes_ok]|]. split; [rewrite lenN_cons, be_bytes_len; reflexivity|]. eexists _, _. split; [reflexivity|now left].
  - intro p. unfold toy65. split; [constructor; [reflexivity|apply be_bytes_ok]|]. split; [rewrite lenN_cons, be_bytes_len; reflexivity|]. eexists. reflexivity.
  - intro p. unfold toy_kp. change (tl (toy33 p)) with (be_bytes 32 (proj1_sig p)). specialize (LT p). rewrite be_val_of_bytes by (change (N.of_nat 32) with 32; lia). rewrite MK. cbv zeta. rewrite (proj2 (LWire.beqb_eq (toy33 p) (toy33 p)) eq_refl). reflexivity.
  - intro p. unfold toy_kp. change (tl (toy65 p)) with (be_bytes 64 (proj1_sig p)). specialize (LT p). rewrite be_val_of_bytes by (change (N.of_nat 64) with 64; lia). rewrite MK. cbv zeta. rewrite (proj2 (LWire.beqb_eq (toy65 p) (toy65 p)) eq_refl), orb_true_r. reflexivity.
  - intros b p L. unfold toy_kp. cbv zeta. destruct (MWitness.beqb b (toy33 (PTaproot.toy_make (be_val (tl b))))) eqn:E; cbn [orb].
    + apply LWire.beqb_eq in E. intro H. assert (PTaproot.toy_make (be_val (tl b)) = p) as <- by congruence. exact E.
    + destruct (MWitness.beqb b (toy65 (PTaproot.toy_make (be_val (tl b))))) eqn:E'; [|discriminate]. apply LWire.beqb_eq in E'. rewrite E' in L. unfold toy65 in L. rewrite lenN_cons, be_bytes_len in L. discriminate L.
  - intros r p L. unfold toy_kp. cbv zeta. destruct (MWitness.beqb (4 :: r) (toy33 (PTaproot.toy_make (be_val (tl (4 :: r)))))) eqn:E; cbn [orb].
    + apply LWire.beqb_eq in E. unfold toy33 in E. apply (f_equal (hd 0)) in E. discriminate E.
    + destruct (MWitness.beqb (4 :: r) (toy65 (PTaproot.toy_make (be_val (tl (4 :: r)))))) eqn:E'; [|discriminate]. apply LWire.beqb_eq in E'. intro H. assert (PTaproot.toy_make (be_val (tl (4 :: r))) = p) as <- by congruence. exact E'.
  - intros a b [_ A] [_ B] E. apply (f_equal (@proj1_sig _ _)) in E. unfold PTaproot.toy_make in E. cbn [proj1_sig] in E. rewrite !N.mod_small in E by assumption. exact E.
Qed.
(** A secret key, its texts and its public keys, with this curve and hash function. *)
Definition ex_wif : wif_key := mk_wif (mk_private true 123456789) NMain.
Example C49_nonvacuous :
  secret_valid toyk (pk_key (wk_private ex_wif)) /\
  (exists s, to_wif toy_sha ex_wif = Ret s /\ from_wif toy_sha toyk s = Ret (Ok ex_wif) /\ lenN s = 52) /\
  lk_from_str toyk (lk_display toyk (pk_to_legacy toyk (wk_private ex_wif))) = Ret (Ok (pk_to_legacy toyk (wk_private ex_wif))) /\
  lk_from_slice toyk (repeat 6 65) = Ret (Err (InvalidKeyPrefix 6)).
Proof.
  assert (V : secret_valid toyk (pk_key (wk_private ex_wif))) by (split; reflexivity). split; [exact V|]. split; [|split].
  - destruct (C49_wif_write toy_sha toyk ex_wif toy_sha_ok toyk_ok V) as (s & E & T). exists s. split; [exact E|]. split; [apply (C49_wif_round_trip toy_sha toyk ex_wif ex_wif s toy_sha_ok toyk_ok V E)|].
    apply (C49_wif_prefix toy_sha ex_wif s toy_sha_ok T).
  - apply (C49_public_text toyk [] _ toyk_ok).
  - reflexivity.
Qed.
Print Assumptions C49_public_bytes.
Print Assumptions C49_public_errors.
Print Assumptions C49_public_injective.
Print Assumptions C49_public_text.
Print Assumptions C49_public_text_errors.
Print Assumptions C49_full.
Print Assumptions C49_full_legacy.
Print Assumptions C49_hashes.
Print Assumptions C49_sort.
Print Assumptions C49_secret.
Print Assumptions C49_negate.
Print Assumptions C49_to_public.
Print Assumptions C49_wif_write.
Print Assumptions C49_wif_read.
Print Assumptions C49_wif_round_trip.
Print Assumptions C49_wif_errors.
Print Assumptions C49_wif_prefix.

(** Changing the serialisation form keeps the point; the public key of a private key is its point, whichever form. *)
Theorem C49_form : forall C k c,
  (lk_compressed C (with_compressedness C k c) = c /\ lk_point C (with_compressedness C k c) = lk_point C k) /\
  (forall p, fk_to_bytes C (pk_to_public C p) = lk_serialize C (with_compressedness C (pk_to_legacy C p) true)) /\
  (forall p, lk_point C (pk_to_legacy C p) = pk_to_public C p /\ lk_compressed C (pk_to_legacy C p) = pk_compressed p).
Proof. intros C k c. repeat split. Qed.
Print Assumptions C49_form.
