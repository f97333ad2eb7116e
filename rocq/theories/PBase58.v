(** C26: base58check. *)
From Coq Require Import String.
From Verif Require Import Base MDec LDec SWire MText MBase58 SBase58 LBase58.
Local Open Scope N_scope.

(** Base58 itself: every byte string has exactly one text, every text over the alphabet is the text of
    exactly one byte string, and nothing else is a text. *)
Theorem C26_base58_bijection :
  (forall data, bytes_ok data -> exists s, base58 data s) /\
  (forall data s s', base58 data s -> base58 data s' -> s = s') /\
  (forall s, Forall (fun c => In c alphabet) s <-> exists data, base58 data s) /\
  (forall data data' s, base58 data s -> base58 data' s -> data = data').
Proof.
  split; [exact base58_total|]. split; [exact base58_fun|]. split; [|exact base58_inj]. intro s. split.
  - intro F. destruct (decode_spec s (first_bad_none s F)) as (scratch & B & _). eauto.
  - intros [d B]. apply first_bad_none_inv, (base58_good d s B).
Qed.
(** Encoding gives the text of the payload followed by its checksum, for every payload whose length is not 90; *)
Theorem C26_encode : forall sha256d payload, (forall m, hash_ok (sha256d m)) -> bytes_ok payload ->
  lenN payload < 2 ^ 56 -> lenN payload <> 90 ->
  exists s, encode sha256d payload = Ret s /\ base58 (payload ++ firstn 4 (sha256d payload)) s.
Proof.
  intros sha p SHA OK L NE. assert (OK' : bytes_ok (p ++ checksum sha p)) by (apply bytes_ok_app; split; auto; apply ck_ok; intro m; apply (SHA m)).
  destruct (base58_total _ OK') as (s & B). exists s. split; [|exact B]. rewrite (encode_spec sha SHA p s OK L B).
  rewrite (proj2 (N.eqb_neq _ _) NE). reflexivity.
Qed.
(** with 90 bytes it works when the text has at most 128 characters and panics otherwise. *)
Theorem C26_encode_90 : forall sha256d payload s, (forall m, hash_ok (sha256d m)) -> bytes_ok payload ->
  lenN payload = 90 -> base58 (payload ++ firstn 4 (sha256d payload)) s ->
  encode sha256d payload = if lenN s <=? 128 then Ret s else Panic.
Proof.
  intros sha p s SHA OK L B. rewrite (encode_spec sha SHA p s OK ltac:(rewrite L; reflexivity) B). rewrite L. cbn [N.eqb Pos.eqb andb].
  destruct (N.ltb_spec 128 (lenN s)), (N.leb_spec (lenN s) 128); auto; lia.
Qed.
(** So the claim that encoding never panics is false: whatever the hash function, ninety bytes 0xff panic. *)
Theorem C26_encode_never_panics_refuted : forall sha256d, (forall m, hash_ok (sha256d m)) ->
  encode sha256d (repeat 255 90) = Panic.
Proof.
  intros sha SHA. set (p := repeat 255 90). assert (OK : bytes_ok p) by (apply Forall_forall; intros x X; apply repeat_spec in X; now subst).
  assert (OK' : bytes_ok (p ++ firstn 4 (sha p))) by (apply bytes_ok_app; split; auto; apply (ck_ok sha SHA)).
  destruct (base58_total _ OK') as (s & B). rewrite (C26_encode_90 sha p s SHA OK eq_refl B). destruct (N.leb_spec (lenN s) 128) as [L|L]; [exfalso|reflexivity].
  change (p ++ firstn 4 (sha p)) with (255 :: (repeat 255 89 ++ firstn 4 (sha p))) in B. apply base58_big in B; [|discriminate].
  assert (LC : lenN (firstn 4 (sha p)) = 4) by (apply (ck_len sha SHA)). rewrite lenN_app, LC in B. change (lenN (repeat 255 89) + 4) with 93 in B.
  assert (58 ^ lenN s <= 58 ^ 128) by (apply N.pow_le_mono_r; lia). apply (N.lt_irrefl (58 ^ 128)). apply N.lt_trans with (255 * 256 ^ 93); [vm_compute; reflexivity|].
  apply N.lt_le_trans with (58 ^ lenN s); auto.
Qed.
(** Without an allocator encoding is refused exactly when the text is over 128 characters. *)
Theorem C26_encode_no_alloc : forall sha256d payload s, (forall m, hash_ok (sha256d m)) -> bytes_ok payload ->
  base58 (payload ++ firstn 4 (sha256d payload)) s ->
  encode_no_alloc sha256d payload = Ret (if lenN s <=? 128 then Ok s else Err (lenN payload)).
Proof.
  intros sha p s SHA OK B. unfold encode_no_alloc. destruct (encode_buffer_spec (Some SHORT_OPT_BUFFER_LEN) _ (base58_bytes _ _ B)) as (s' & B' & E).
  rewrite (base58_fun _ _ _ B' B) in E. unfold checksum. rewrite E. cbn [rbind fits]. unfold SHORT_OPT_BUFFER_LEN. now destruct (lenN s <=? 128).
Qed.
(** Decoding accepts exactly the encodings. *)
Theorem C26_decode : forall sha256d payload s, (forall m, hash_ok (sha256d m)) ->
  (decode_check sha256d s = Ret (Ok payload) <-> base58 (payload ++ firstn 4 (sha256d payload)) s).
Proof.
  intros sha p s SHA. split.
  - intro H. destruct (first_bad s) as [c|] eqn:F; [rewrite (decode_check_bad sha s c F) in H; discriminate|].
    destruct (decode_spec s F) as (scratch & B & _). rewrite (decode_check_good sha _ s B) in H.
    assert (H' : check sha (repeat 0 (leading_ones s) ++ rev scratch) = Ok p) by congruence.
    apply (check_ok sha SHA) in H'; [|apply (base58_bytes _ _ B)]. now rewrite H' in B.
  - intro B. rewrite (decode_check_good sha _ s B). f_equal. apply (check_ok sha SHA); [apply (base58_bytes _ _ B)|reflexivity].
Qed.
(** It never panics and its error names the first character outside the alphabet, the length of a text
    too short to hold a checksum, or the two checksums of the decoded data. *)
Theorem C26_decode_errors : forall sha256d s, (forall m, hash_ok (sha256d m)) ->
  exists r, decode_check sha256d s = Ret r /\
  match r with
  | Ok _ => True
  | Err (Decode c) => exists pre post, s = pre ++ c :: post /\ Forall (fun x => In x alphabet) pre /\ ~ In c alphabet
  | Err (TooShort n) => exists data, base58 data s /\ n = lenN data /\ n < 4
  | Err (IncorrectChecksum actual expected) => exists payload ck, base58 (payload ++ ck) s /\ lenN ck = 4 /\
      actual = le_val ck /\ expected = le_val (firstn 4 (sha256d payload)) /\ ck <> firstn 4 (sha256d payload)
  end.
Proof.
  intros sha s SHA. destruct (first_bad s) as [c|] eqn:F.
  - exists (Err (Decode c)). split; [exact (decode_check_bad sha s c F)|]. now apply first_bad_split.
  - destruct (decode_spec s F) as (scratch & B & _). set (d := repeat 0 (leading_ones s) ++ rev scratch) in *. rewrite (decode_check_good sha d s B). eexists. split; [reflexivity|].
    rewrite (check_spec sha d (base58_bytes _ _ B)). destruct (N.ltb_spec (lenN d) 4) as [L|L]; [exists d; auto|]. destruct (check_split d L) as (p & ck & DE & LC & PE & CE).
    cbv zeta. rewrite <- PE, <- CE. destruct (N.eqb_spec (le_val ck) (le_val (checksum sha p))) as [E|NE]; [exact I|]. exists p, ck. rewrite <- DE. unfold checksum in *. repeat (split; auto). congruence.
Qed.
(** Decoding an encoding gives the payload back. *)
Theorem C26_roundtrip : forall sha256d payload s, (forall m, hash_ok (sha256d m)) -> bytes_ok payload -> lenN payload < 2 ^ 56 ->
  encode sha256d payload = Ret s -> decode_check sha256d s = Ret (Ok payload).
Proof.
  intros sha p s SHA OK L E. apply C26_decode; auto. assert (OK' : bytes_ok (p ++ checksum sha p)) by (apply bytes_ok_app; split; auto; apply (ck_ok sha SHA)).
  destruct (base58_total _ OK') as (s' & B). rewrite (encode_spec sha SHA p s' OK L B) in E. destruct ((lenN p =? 90) && (128 <? lenN s')); [discriminate|].
  assert (s = s') as -> by congruence. exact B.
Qed.
(** Distinct payloads have distinct encodings. *)
Theorem C26_injective : forall sha256d p q s, (forall m, hash_ok (sha256d m)) -> bytes_ok p -> bytes_ok q -> lenN p < 2 ^ 56 -> lenN q < 2 ^ 56 ->
  encode sha256d p = Ret s -> encode sha256d q = Ret s -> p = q.
Proof.
  intros sha p q s SHA OP OQ LP LQ EP EQ. apply C26_roundtrip in EP; auto. apply C26_roundtrip in EQ; auto. congruence.
Qed.
(** Leading zero bytes of the payload are exactly the leading '1's of the text, unless the payload is all zeros. *)
Theorem C26_leading : forall sha256d payload s z, (forall m, hash_ok (sha256d m)) -> bytes_ok payload -> lenN payload < 2 ^ 56 ->
  encode sha256d payload = Ret s ->
  (exists x rest, payload = repeat 0 z ++ x :: rest /\ x <> 0) -> (exists rest, s = repeat 49 z ++ rest /\ hd 0 rest <> 49).
Proof.
  intros sha p s z SHA OK L E (x & rest & -> & NX). apply C26_roundtrip in E; auto. apply C26_decode in E; auto.
  destruct E as (z' & r & ds & cs & DE & OR & NR & -> & F & ND & V).
  assert (z = z') as ->.
  { rewrite <- (zeros_unique z' r NR), <- DE, <- app_assoc. symmetry. apply zeros_unique. exact NX. }
  exists cs. split; [reflexivity|]. destruct F as [|c d cs ds CD F]; cbn [hd]; [discriminate|]. intros ->. apply ND. now apply (digit58_zero 49).
Qed.
(** Decoding into an array of [n] bytes never panics and accepts exactly the texts of [n]-byte payloads, up to 124 bytes. *)
Theorem C26_array : forall sha256d n s, (forall m, hash_ok (sha256d m)) ->
  decode_check_to_array sha256d n s <> Panic /\
  (forall p, decode_check_to_array sha256d n s = Ret (Ok p) <-> n <= 124 /\ lenN p = n /\ decode_check sha256d s = Ret (Ok p)).
Proof.
  intros sha n s SHA. destruct (first_bad s) as [c|] eqn:F.
  - assert (E : exists e, decode_check_to_array sha n s = Ret (Err e)).
    { unfold decode_check_to_array. destruct (build_bad_cap (Some SHORT_OPT_BUFFER_LEN) s [] 0 c (canon_nil 256) eq_refl F) as [-> | ->]; cbn [rbind]; eauto. }
    destruct E as [e E]. rewrite E. split; [discriminate|]. intro p. rewrite (decode_check_bad sha s c F). split; [discriminate|intros (_ & _ & H); discriminate].
  - destruct (decode_spec s F) as (scratch & B & _). set (d := repeat 0 (leading_ones s) ++ rev scratch) in *.
    rewrite (array_good sha SHA n d s B), (decode_check_good sha d s B). split; [discriminate|]. intro p. pose proof (check_ok sha SHA d p (base58_bytes _ _ B)) as CK.
    split.
    + destruct (N.ltb_spec 128 (lenN d)) as [X|X]; [discriminate|]. destruct (N.ltb_spec (lenN d) 4) as [Y|Y]; [discriminate|].
      destruct (N.eqb_spec (lenN d - 4) n) as [E|E]; cbn [negb]; [|discriminate]. destruct (check sha d) as [q|e] eqn:C; [|discriminate]. intro H. assert (q = p) as -> by congruence.
      assert (LD : lenN d = lenN p + 4) by (rewrite (proj1 CK eq_refl), lenN_app, (ck_len sha SHA); lia). split; [lia|]. split; [lia|reflexivity].
    + intros (N1 & LP & H). assert (C : check sha d = Ok p) by congruence. rewrite C.
      assert (LD : lenN d = lenN p + 4) by (rewrite (proj1 CK C), lenN_app, (ck_len sha SHA); lia).
      destruct (N.ltb_spec 128 (lenN d)); [lia|]. destruct (N.ltb_spec (lenN d) 4); [lia|]. destruct (N.eqb_spec (lenN d - 4) n); [reflexivity|lia].
Qed.
(** Its error for well-formed texts of a decodable length: the length first, then the checksum. *)
Theorem C26_array_errors : forall sha256d n data s, (forall m, hash_ok (sha256d m)) -> base58 data s -> 4 <= lenN data <= 128 ->
  (lenN data - 4 <> n -> decode_check_to_array sha256d n s = Ret (Err (UnexpectedLength n (lenN data - 4)))) /\
  (lenN data - 4 = n -> forall e, decode_check sha256d s = Ret (Err e) -> decode_check_to_array sha256d n s = Ret (Err (DecodeErr e))).
Proof.
  intros sha n d s SHA B L. rewrite (array_good sha SHA n d s B), (decode_check_good sha d s B).
  destruct (N.ltb_spec 128 (lenN d)); [lia|]. destruct (N.ltb_spec (lenN d) 4); [lia|]. split.
  - intro NE. destruct (N.eqb_spec (lenN d - 4) n); [lia|reflexivity].
  - intros E e H'. destruct (N.eqb_spec (lenN d - 4) n); [|lia]. cbn [negb]. assert (check sha d = Err e) as -> by congruence. reflexivity.
Qed.

(** The hypotheses are met: a hash function with 32-byte outputs, a payload with leading zeros, *)
Definition toy_sha (m : bytes) : bytes := repeat (fold_left N.add m 7 mod 256) 32.
Lemma toy_sha_ok : forall m, hash_ok (toy_sha m).
Proof.
  intro m. unfold toy_sha, hash_ok. split; [reflexivity|]. apply Forall_forall. intros x X. apply repeat_spec in X. subst. apply N.mod_lt. discriminate.
Qed.
Example C26_example : encode toy_sha [0; 0; 1; 2; 3] = Ret (lit "113DUynvcZA") /\
  decode_check toy_sha (lit "113DUynvcZA") = Ret (Ok [0; 0; 1; 2; 3]) /\
  decode_check_to_array toy_sha 5 (lit "113DUynvcZA") = Ret (Ok [0; 0; 1; 2; 3]) /\
  decode_check toy_sha (lit "1130UynvcZA") = Ret (Err (Decode 48)).
Proof. split; [|split; [|split]]; vm_compute; reflexivity. Qed.
Example C26_example_90 : encode toy_sha (repeat 0 90) <> Panic /\ encode toy_sha (repeat 255 90) = Panic.
Proof. split; [vm_compute; discriminate|apply C26_encode_never_panics_refuted, toy_sha_ok]. Qed.
Print Assumptions C26_base58_bijection.
Print Assumptions C26_encode.
Print Assumptions C26_encode_90.
Print Assumptions C26_encode_never_panics_refuted.
Print Assumptions C26_encode_no_alloc.
Print Assumptions C26_decode.
Print Assumptions C26_decode_errors.
Print Assumptions C26_roundtrip.
Print Assumptions C26_injective.
Print Assumptions C26_leading.
Print Assumptions C26_array.
Print Assumptions C26_array_errors.
