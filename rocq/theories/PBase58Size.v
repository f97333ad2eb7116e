(** C26: how long base58 texts are. *)
From Coq Require Import String.
From Verif Require Import Base MDec LDec SWire MText MBase58 SBase58 LBase58 PBase58.
Local Open Scope N_scope.

(** A number written in base [b] and in base [c], where [b ^ p <= c ^ q]. *)
Lemma digits_ratio : forall b c p q l m v, 1 < c -> p <> 0 -> b ^ p <= c ^ q -> canon b l v -> canon c m v -> m <> [] -> p * (lenN m - 1) < q * lenN l.
Proof.
  intros b c p q l m v C P Q (SL & VL & _) (SM & VM & [Z|LM]) Ne; [contradiction|]. pose proof (dval_lt b l SL) as U. rewrite VL in U.
  assert (X : (c ^ (lenN m - 1)) ^ p < (b ^ lenN l) ^ p) by (apply N.pow_lt_mono_l; [exact P|exact (N.le_lt_trans _ _ _ LM U)]).
  assert (Y : (b ^ lenN l) ^ p <= (c ^ q) ^ lenN l). { rewrite <- N.pow_mul_r, (N.mul_comm (lenN l)), N.pow_mul_r. now apply N.pow_le_mono_l. }
  pose proof (N.lt_le_trans _ _ _ X Y) as Z. rewrite <- !N.pow_mul_r in Z. apply N.pow_lt_mono_r_iff in Z; [|exact C]. now rewrite N.mul_comm.
Qed.
Lemma lenN_rev : forall A (l : list A), lenN (rev l) = lenN l.
Proof. intros. unfold lenN. now rewrite rev_length. Qed.
Lemma lenN_repeat : forall A (x : A) n, lenN (repeat x n) = N.of_nat n.
Proof. intros. unfold lenN. now rewrite repeat_length. Qed.
Lemma ratio_nonempty : forall b c p q l m v, 1 < c -> p <> 0 -> b ^ p <= c ^ q -> canon b (rev l) v -> canon c (rev m) v -> p * (lenN m - 1) < q * lenN l \/ lenN m = 0.
Proof.
  intros b c p q l m v C P Q X Y. destruct m as [|x m]; [right; reflexivity|left]. pose proof (digits_ratio b c p q _ _ v C P Q X Y) as Z. rewrite !lenN_rev in Z. apply Z.
  cbn [rev]. destruct (rev m); discriminate.
Qed.
(** Every leading zero byte is one character; the rest of the text is as long as the numeral of a number: between as many characters as
    bytes and 1.37 times as many (and one), and the bytes are at most 11/15 of the characters (and one). *)
Theorem C26_sizes : forall data s, base58 data s -> exists z bytes chars, lenN data = z + bytes /\ lenN s = z + chars /\ z = N.of_nat (leading_ones s) /\
  bytes <= chars /\ chars <= 1 + bytes * 137 / 100 /\ bytes <= 1 + chars * 11 / 15 /\ (bytes = 0 <-> chars = 0).
Proof.
  intros data s (z & rest & digits & chars & -> & OK & N1 & -> & F & N2 & V). rewrite (ones_unique z chars digits F N2). exists (N.of_nat z), (lenN rest), (lenN digits).
  rewrite !lenN_app, !lenN_repeat. assert (Lc : lenN chars = lenN digits) by (unfold lenN; now rewrite (forall2_len _ _ _ _ _ F)). rewrite Lc. split; [reflexivity|]. split; [reflexivity|]. split; [reflexivity|].
  pose proof (canon_of 256 rest eq_refl (proj1 (small_bytes rest) OK) N1) as C1. pose proof (canon_of 58 digits eq_refl (forall2_small _ _ F) N2) as C2. rewrite <- V in C2.
  pose proof (ratio_nonempty 58 256 1 1 _ _ _ eq_refl ltac:(discriminate) ltac:(vm_compute; discriminate) C2 C1) as A.
  pose proof (ratio_nonempty 58 256 15 11 _ _ _ eq_refl ltac:(discriminate) ltac:(vm_compute; discriminate) C2 C1) as B.
  pose proof (ratio_nonempty 256 58 100 137 _ _ _ eq_refl ltac:(discriminate) ltac:(vm_compute; discriminate) C1 C2) as C.
  clear -A B C. revert A B C. generalize (lenN rest) (lenN digits). intros r d A B C. split; [lia|]. split; [|split; [|lia]].
  - destruct C as [C|C]; [|rewrite C; lia]. assert (d - 1 <= r * 137 / 100); [apply N.div_le_lower_bound; [discriminate|lia]|lia].
  - destruct B as [B|B]; [|rewrite B; lia]. assert (r - 1 <= d * 11 / 15); [apply N.div_le_lower_bound; [discriminate|lia]|lia].
Qed.
(** The room that decoding reserves, lib.rs:169, is enough for every text, so nothing is reallocated. *)
Theorem C26_reserved : forall s scratch, build_base256 None s [] = Ret (Ok scratch) -> lenN scratch <= 1 + lenN s * 11 / 15.
Proof.
  intros s scratch E. destruct (first_bad s) as [c|] eqn:Fb; [rewrite (build_bad s [] 0 c (canon_nil 256) Fb) in E; discriminate|]. destruct (decode_spec s Fb) as (sc & B & D). rewrite (D None) in E. cbn [fits] in E. injection E as ->.
  destruct (C26_sizes _ _ B) as (z & b & c & L1 & L2 & Z & _ & _ & H & _). rewrite lenN_app, lenN_repeat, lenN_rev in L1. assert (lenN scratch = b) as -> by lia.
  assert (c * 11 / 15 <= lenN s * 11 / 15) by (apply N.div_le_mono; [discriminate|lia]). lia.
Qed.
(** What is accepted: a payload and its checksum never have more bytes than the text has characters, and the text is at most 1.37 times
    as long (and one). *)
Theorem C26_payload_sizes : forall sha256d payload s, (forall m, hash_ok (sha256d m)) -> decode_check sha256d s = Ret (Ok payload) ->
  lenN payload + 4 <= lenN s <= 1 + (lenN payload + 4) * 137 / 100.
Proof.
  intros sha p s SHA D. destruct (first_bad s) as [c|] eqn:Fb; [rewrite (decode_check_bad sha s c Fb) in D; discriminate|]. destruct (decode_spec s Fb) as (sc & B & _).
  rewrite (decode_check_good sha _ s B) in D. apply (f_equal (fun x => match x with Ret y => y | Panic => Err (TooShort 0) end)) in D. cbv beta iota in D. apply (check_ok sha SHA) in D; [|apply (base58_bytes _ _ B)]. rewrite D in B.
  destruct (C26_sizes _ _ B) as (z & b & c & L1 & L2 & Z & A1 & A2 & _). rewrite lenN_app, (ck_len sha SHA) in L1. rewrite L1, L2. split; [lia|].
  assert (E : (z + b) * 137 / 100 = z + (z * 37 + b * 137) / 100) by (replace ((z + b) * 137) with (z * 37 + b * 137 + z * 100) by lia; rewrite N.div_add by discriminate; lia). rewrite E.
  assert (b * 137 / 100 <= (z * 37 + b * 137) / 100) by (apply N.div_le_mono; [discriminate|lia]). lia.
Qed.
(** The 21 bytes of a version and a hash, as in an address, are always written with 25 to 35 characters. *)
Theorem C26_address_sizes : forall sha256d payload s, (forall m, hash_ok (sha256d m)) -> decode_check sha256d s = Ret (Ok payload) -> lenN payload = 21 -> 25 <= lenN s <= 35.
Proof. intros sha p s SHA D L. pose proof (C26_payload_sizes sha p s SHA D) as X. rewrite L in X. change (1 + (21 + 4) * 137 / 100) with 35 in X. lia. Qed.

Example C26_sizes_ex : lenN (lit "113DUynvcZA") = 11 /\ decode_check toy_sha (lit "113DUynvcZA") = Ret (Ok [0; 0; 1; 2; 3]) /\ build_base256 None (lit "zzzzzzzzzzzzzzz") [] <> Panic /\
  match build_base256 None (lit "zzzzzzzzzzzzzzz") [] with Ret (Ok l) => lenN l = 11 | _ => False end /\
  exists s, decode_check toy_sha s = Ret (Ok (repeat 0 21)) /\ 25 <= lenN s <= 35.
Proof.
  split; [reflexivity|]. split; [vm_compute; reflexivity|]. split; [vm_compute; discriminate|]. split; [vm_compute; reflexivity|].
  destruct (C26_encode toy_sha (repeat 0 21) toy_sha_ok) as (s & _ & B); [apply Forall_forall; intros x X; apply repeat_spec in X; now subst|reflexivity|discriminate|].
  exists s. assert (D : decode_check toy_sha s = Ret (Ok (repeat 0 21))) by (now apply C26_decode; [exact toy_sha_ok|]). split; [exact D|]. exact (C26_address_sizes toy_sha _ s toy_sha_ok D eq_refl).
Qed.
Print Assumptions C26_sizes.
Print Assumptions C26_reserved.
Print Assumptions C26_payload_sizes.
Print Assumptions C26_address_sizes.
