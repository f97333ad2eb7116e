(** C29: ChaCha20-Poly1305. *)
From Verif Require Import Base MDec LDec MHash SHash LHash MSha2 MChaCha SChaCha LChaCha LChaCha2 LPoly LPoly2 LPoly3 LPoly4.
Local Open Scope N_scope.

(** Applying the key stream from any position xors the RFC 8439 key stream from that position and leaves the cipher at
    the position after the last byte; it stops with a panic exactly when that position would reach 2^38. *)
Theorem C29_keystream : forall key nonce b off m, key_nonce key nonce -> b < 2 ^ 32 -> off < 64 ->
  (64 * b + off + lenN m < 2 ^ 38 -> apply_keystream (mk_chacha key nonce b off) m =
     Ret (mk_chacha key nonce ((64 * b + off + lenN m) / 64) ((64 * b + off + lenN m) mod 64), xor_from key nonce (64 * b + off) m)) /\
  (2 ^ 38 <= 64 * b + off + lenN m -> apply_keystream (mk_chacha key nonce b off) m = Panic).
Proof.
  intros key nonce b off m (OK & ON & LK & LN) B O. rewrite (apply_spec key nonce OK ON LK LN b off m B O). split; intro H; destruct (N.ltb_spec (64 * b + off + lenN m) (2 ^ 38)); try reflexivity; lia.
Qed.
(** Any splitting of the data gives the same bytes and the same final state, panics included. *)
Theorem C29_pieces : forall key nonce b off m1 m2, key_nonce key nonce -> b < 2 ^ 32 -> off < 64 ->
  rbind (apply_keystream (mk_chacha key nonce b off) m1) (fun '(c, o1) => rbind (apply_keystream c m2) (fun '(c, o2) => Ret (c, o1 ++ o2))) =
  apply_keystream (mk_chacha key nonce b off) (m1 ++ m2).
Proof.
  intros key nonce b off m1 m2 (OK & ON & LK & LN) B O. rewrite (apply_spec key nonce OK ON LK LN b off m1 B O), (apply_spec key nonce OK ON LK LN b off (m1 ++ m2) B O).
  rewrite lenN_app, xor_from_app. set (p := 64 * b + off). destruct (N.ltb_spec (p + lenN m1) (2 ^ 38)) as [L|G]; cbn [rbind].
  - assert (B1 : (p + lenN m1) / 64 < 2 ^ 32) by (apply N.div_lt_upper_bound; [discriminate|exact L]). assert (O1 : (p + lenN m1) mod 64 < 64) by (apply N.mod_lt; discriminate).
    rewrite (apply_spec key nonce OK ON LK LN _ _ m2 B1 O1). rewrite <- (N.div_mod (p + lenN m1) 64) by discriminate. rewrite N.add_assoc.
    destruct (N.ltb_spec (p + lenN m1 + lenN m2) (2 ^ 38)); reflexivity.
  - rewrite N.add_assoc. destruct (N.ltb_spec (p + lenN m1 + lenN m2) (2 ^ 38)); [lia|reflexivity].
Qed.
(** Seeking to a byte or to a block, from any state, is the same as having consumed the stream up to there. *)
Theorem C29_seek : forall key nonce b off seek m, key_nonce key nonce -> seek < 2 ^ 32 -> seek + lenN m < 2 ^ 38 ->
  chacha_seek (mk_chacha key nonce b off) seek = chacha_new key nonce seek /\
  exists c o, apply_keystream (chacha_seek (mk_chacha key nonce b off) seek) m = Ret (c, o) /\
    exists o0, apply_keystream (chacha_new key nonce 0) (repeat 0 (N.to_nat seek) ++ m) = Ret (c, o0 ++ o) /\ lenN o0 = seek.
Proof.
  intros key nonce b off seek m KN S L. split; [reflexivity|]. unfold chacha_seek, chacha_new. cbn [cc_key cc_nonce]. rewrite N.mod_0_l, N.div_0_l by discriminate.
  assert (LR : lenN (repeat 0 (N.to_nat seek)) = seek) by (rewrite repeat_lenN; lia).
  assert (SB : seek / 64 < 2 ^ 32) by (apply N.div_lt_upper_bound; [discriminate|lia]). assert (SO : seek mod 64 < 64) by (apply N.mod_lt; discriminate).
  destruct (C29_keystream key nonce (seek / 64) (seek mod 64) m KN SB SO) as [E _]. rewrite <- (N.div_mod seek 64) in E by discriminate.
  destruct (C29_keystream key nonce 0 0 (repeat 0 (N.to_nat seek) ++ m) KN) as [E0 _]; [reflexivity|reflexivity|]. rewrite lenN_app, LR in E0. change (64 * 0 + 0) with 0 in E0. rewrite N.add_0_l in E0.
  do 2 eexists. split; [exact (E L)|]. eexists. rewrite (E0 L). rewrite xor_from_app, LR, N.add_0_l. split; [reflexivity|]. now rewrite xor_from_len.
Qed.
Theorem C29_set_block : forall key nonce b off block, chacha_set_block (mk_chacha key nonce b off) block = chacha_new_from_block key nonce block /\
  (block < 2 ^ 26 -> chacha_new_from_block key nonce block = chacha_new key nonce (64 * block)).
Proof.
  intros. split; [reflexivity|]. intros _. unfold chacha_new_from_block, chacha_new. rewrite N.mul_comm, N.div_mul, N.mod_mul by discriminate. reflexivity.
Qed.
Theorem C29_get_keystream : forall key nonce b off block, key_nonce key nonce -> block < 2 ^ 32 ->
  get_keystream (mk_chacha key nonce b off) block = chacha20_block key nonce block.
Proof. intros key nonce b off block (OK & ON & LK & LN) B. now apply keystream_spec. Qed.

(** The key stream has 2^38 bytes, yet its last byte can never be used: the block counter is advanced past the last
    block as soon as that block is used up. *)
Theorem C29_last_byte_refuted : ~ (forall key nonce b m, key_nonce key nonce -> b < 2 ^ 32 -> 64 * b + lenN m <= 2 ^ 38 ->
  exists r, apply_keystream (chacha_new_from_block key nonce b) m = Ret r).
Proof.
  intro A. assert (KN : key_nonce (repeat 7 32) (repeat 9 12)) by (split; [|split; [|split; reflexivity]]; repeat constructor).
  destruct (A (repeat 7 32) (repeat 9 12) (2 ^ 32 - 1) (repeat 5 64) KN ltac:(reflexivity) ltac:(vm_compute; discriminate)) as [r E].
  destruct (C29_keystream (repeat 7 32) (repeat 9 12) (2 ^ 32 - 1) 0 (repeat 5 64) KN ltac:(reflexivity) ltac:(reflexivity)) as [_ P]. unfold chacha_new_from_block in E. rewrite P in E; [discriminate|].
  vm_compute. discriminate.
Qed.
(** RFC 8439 section 2.8 allows plaintexts of up to 2^38 - 64 bytes; encrypting one of exactly that size panics. *)
Theorem C29_max_plaintext_refuted : forall key nonce m aad, key_nonce key nonce -> lenN m = 2 ^ 38 - 64 -> encrypt key nonce m aad = Panic.
Proof.
  intros key nonce m aad KN L. unfold encrypt, chacha_new_from_block. destruct (C29_keystream key nonce 1 0 m KN ltac:(reflexivity) ltac:(reflexivity)) as [_ P]. rewrite P; [reflexivity|]. rewrite L. vm_compute. discriminate.
Qed.

Example C29_max_plaintext_ex : exists m : bytes, lenN m = 2 ^ 38 - 64.
Proof. exists (repeat 0 (N.to_nat (2 ^ 38 - 64))). rewrite repeat_lenN. apply N2Nat.id. Qed.

(** Poly1305 fed in any pieces is Poly1305 of RFC 8439, modulo 2^130 - 5, and no addition or product overflows. *)
Theorem C29_poly1305 : forall key pieces, bytes_ok key -> lenN key = 32 -> bytes_ok (concat pieces) ->
  exists p, poly_feed (poly_new key) pieces = Ret p /\ poly_tag p = Ret (Poly1305 key (concat pieces)).
Proof.
  intros key ps OK LK O. destruct (feed_pabs key OK LK ps [] (poly_new key) (new_pabs key LK) O) as (p & E & A). exists p. split; [exact E|]. exact (tag_spec key OK LK _ p A).
Qed.

(** Encryption is the AEAD of RFC 8439. *)
Theorem C29_encrypt : forall key nonce m aad, key_nonce key nonce -> bytes_ok m -> bytes_ok (aad_bytes aad) -> lenN m < 2 ^ 38 - 64 ->
  encrypt key nonce m aad = Ret (chacha20_encrypt key nonce 1 m, aead_mac key nonce (aad_bytes aad) (chacha20_encrypt key nonce 1 m)).
Proof.
  intros key nonce m aad KN OM OA L. unfold encrypt, chacha_new_from_block. destruct (C29_keystream key nonce 1 0 m KN ltac:(reflexivity) ltac:(reflexivity)) as [E _]. rewrite E by lia. cbn [rbind].
  rewrite C29_get_keystream by first [exact KN|reflexivity]. fold (otk key nonce). destruct (otk_ok key nonce KN) as [OO LO].
  change (64 * 1 + 0) with (64 * 1). fold (chacha20_encrypt key nonce 1 m). rewrite (aead_tag_spec (otk key nonce) OO LO _ (aad_bytes aad)); [reflexivity| |exact OA|reflexivity].
  apply xor_from_ok; [exact KN|lia|exact OM].
Qed.
(** Decryption accepts exactly the tag of RFC 8439 and then decrypts; with any other tag it fails and leaves the buffer as it was. *)
Theorem C29_decrypt : forall key nonce c tag aad, key_nonce key nonce -> bytes_ok c -> bytes_ok (aad_bytes aad) -> bytes_ok tag -> lenN tag = 16 ->
  (tag = aead_mac key nonce (aad_bytes aad) c -> lenN c < 2 ^ 38 - 64 -> decrypt key nonce c tag aad = Ret (chacha20_encrypt key nonce 1 c, true)) /\
  (tag <> aead_mac key nonce (aad_bytes aad) c -> decrypt key nonce c tag aad = Ret (c, false)).
Proof.
  intros key nonce c tag aad KN OC OA OT LT. unfold decrypt, chacha_new_from_block. rewrite C29_get_keystream by first [exact KN|reflexivity]. fold (otk key nonce). destruct (otk_ok key nonce KN) as [OO LO].
  rewrite (aead_tag_spec (otk key nonce) OO LO c (aad_bytes aad)) by first [exact OC|exact OA|reflexivity]. cbn [rbind]. fold (aead_mac key nonce (aad_bytes aad) c).
  assert (LM : lenN (aead_mac key nonce (aad_bytes aad) c) = 16) by apply poly_len. assert (OMM : bytes_ok (aead_mac key nonce (aad_bytes aad) c)) by apply poly_ok.
  pose proof (cte_spec _ tag OMM OT ltac:(congruence)) as CT. split.
  - intros EQ L. rewrite (proj2 CT (eq_sym EQ)). destruct (C29_keystream key nonce 1 0 c KN ltac:(reflexivity) ltac:(reflexivity)) as [E _]. rewrite E by lia. reflexivity.
  - intro NE. destruct (constant_time_eq _ tag); [|reflexivity]. elim NE. symmetry. now apply CT.
Qed.
(** Decrypting what was encrypted returns the plaintext. *)
Theorem C29_roundtrip : forall key nonce m aad c tag, key_nonce key nonce -> bytes_ok m -> bytes_ok (aad_bytes aad) ->
  encrypt key nonce m aad = Ret (c, tag) -> decrypt key nonce c tag aad = Ret (m, true) /\ lenN c = lenN m /\ lenN tag = 16.
Proof.
  intros key nonce m aad c tag KN OM OA E. destruct (N.lt_ge_cases (lenN m) (2 ^ 38 - 64)) as [L|G].
  - rewrite C29_encrypt in E by assumption. assert (c = chacha20_encrypt key nonce 1 m) as -> by congruence. assert (tag = aead_mac key nonce (aad_bytes aad) (chacha20_encrypt key nonce 1 m)) as -> by congruence.
    assert (OC : bytes_ok (chacha20_encrypt key nonce 1 m)) by (apply xor_from_ok; [exact KN|lia|exact OM]).
    assert (LC : lenN (chacha20_encrypt key nonce 1 m) = lenN m) by apply xor_from_len.
    destruct (C29_decrypt key nonce (chacha20_encrypt key nonce 1 m) (aead_mac key nonce (aad_bytes aad) (chacha20_encrypt key nonce 1 m)) aad KN OC OA (poly_ok _ _) (poly_len _ _)) as [D _]. split; [|split; [exact LC|apply poly_len]].
    etransitivity; [apply D; [reflexivity|congruence]|]. unfold chacha20_encrypt. now rewrite xor_from_twice.
  - exfalso. unfold encrypt, chacha_new_from_block in E. destruct (C29_keystream key nonce 1 0 m KN ltac:(reflexivity) ltac:(reflexivity)) as [_ P]. rewrite P in E by lia. discriminate.
Qed.
(** A changed ciphertext, tag or associated data is accepted only if it carries the right tag for itself. *)
Theorem C29_forgery : forall key nonce c tag aad out, key_nonce key nonce -> bytes_ok c -> bytes_ok (aad_bytes aad) -> bytes_ok tag -> lenN tag = 16 ->
  decrypt key nonce c tag aad = Ret (out, true) -> tag = Poly1305 (takeN 32 (chacha20_block key nonce 0)) (mac_data (aad_bytes aad) c).
Proof.
  intros key nonce c tag aad out KN OC OA OT LT D. destruct (list_eq_dec N.eq_dec tag (aead_mac key nonce (aad_bytes aad) c)) as [E|NE]; [exact E|].
  destruct (C29_decrypt key nonce c tag aad KN OC OA OT LT) as [_ F]. rewrite (F NE) in D. congruence.
Qed.

(** RFC 8439 section 2.8.2, first block; and a rejected tag. *)
Definition ex_key : bytes := map N.of_nat (seq 128 32).
Definition ex_nonce : bytes := [7;0;0;0;0x40;0x41;0x42;0x43;0x44;0x45;0x46;0x47].
Definition ex_msg : bytes := map N.of_nat (seq 0 37).
Example C29_ex : key_nonce ex_key ex_nonce /\ exists c tag, encrypt ex_key ex_nonce ex_msg (Some [1;2;3]) = Ret (c, tag) /\ c <> ex_msg /\
  decrypt ex_key ex_nonce c tag (Some [1;2;3]) = Ret (ex_msg, true) /\ decrypt ex_key ex_nonce c tag (Some [1;2;4]) = Ret (c, false) /\ decrypt ex_key ex_nonce c tag None = Ret (c, false).
Proof.
  split; [split; [|split; [|split; reflexivity]]; repeat constructor|]. destruct (encrypt ex_key ex_nonce ex_msg (Some [1;2;3])) as [[c tag]|] eqn:E; vm_compute in E; [|discriminate].
  assert (c = xor_from ex_key ex_nonce 64 ex_msg) as EC by (injection E as <- _; vm_compute; reflexivity).
  exists c, tag. injection E as <- <-. split; [reflexivity|]. split; [discriminate|]. repeat split; vm_compute; reflexivity.
Qed.
Print Assumptions C29_keystream.
Print Assumptions C29_pieces.
Print Assumptions C29_seek.
Print Assumptions C29_set_block.
Print Assumptions C29_get_keystream.
Print Assumptions C29_last_byte_refuted.
Print Assumptions C29_max_plaintext_refuted.
Print Assumptions C29_poly1305.
Print Assumptions C29_encrypt.
Print Assumptions C29_decrypt.
Print Assumptions C29_roundtrip.
Print Assumptions C29_forgery.
