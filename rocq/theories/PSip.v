(** C38: SipHash. *)
From Verif Require Import Base MDec MHash SHash MSip SSip LSip.
Local Open Scope N_scope.

(** Feeding a message in any pieces and finalizing gives SipHash-2-4 of the whole, as an integer and as bytes, and
    never reads outside a piece (the model panics there). *)
Theorem C38_every_splitting : forall k0 k1 pieces, k0 < 2 ^ 64 -> k1 < 2 ^ 64 -> bytes_ok (concat pieces) -> lenN (concat pieces) < 2 ^ 64 ->
  exists e, sip_feed (with_keys k0 k1) pieces = Ret e /\ sip_to_u64 e = SipHash 2 4 k0 k1 (concat pieces) /\
    sip_finalize e = le_bytes 8 (SipHash 2 4 k0 k1 (concat pieces)) /\ se_n e = lenN (concat pieces) /\ sip_keys e = (k0, k1).
Proof.
  intros k0 k1 ps K0 K1 O L. destruct (sip_feed_abs k0 k1 ps [] _ (sip_new_abs k0 k1)) as (e & E & A); [constructor|auto|rewrite lenN_nil; lia|]. cbn [app] in A.
  exists e. split; [exact E|]. destruct (sip_final_spec k0 k1 _ e K0 K1 O A) as [V _]. split; [exact V|]. unfold sip_finalize, sip_from_u64. rewrite V. split; [reflexivity|].
  destruct A as (ls & r & _ & _ & _ & ->). split; reflexivity.
Qed.
Theorem C38_at_once : forall k0 k1 m, k0 < 2 ^ 64 -> k1 < 2 ^ 64 -> bytes_ok m -> lenN m < 2 ^ 64 ->
  hash_to_u64_with_keys k0 k1 m = Ret (SipHash 2 4 k0 k1 m) /\ hash_with_keys k0 k1 m = Ret (le_bytes 8 (SipHash 2 4 k0 k1 m)).
Proof.
  intros k0 k1 m K0 K1 O L. destruct (C38_every_splitting k0 k1 [m] K0 K1) as (e & E & V & B & _); cbn [concat]; rewrite ?app_nil_r; auto. cbn [concat] in *. rewrite app_nil_r in *.
  cbn [sip_feed] in E. unfold hash_to_u64_with_keys, hash_with_keys. destruct (sip_input (with_keys k0 k1) m) as [e'|]; cbn [rbind] in *; [|discriminate].
  assert (e' = e) as -> by congruence. rewrite V, B. auto.
Qed.
(** The two forms of a hash value carry the same information. *)
Theorem C38_u64_roundtrip : forall h, (h < 2 ^ 64 -> sip_hash_to_u64 (sip_from_u64 h) = h) /\
  forall b, bytes_ok b -> lenN b = 8 -> sip_from_u64 (sip_hash_to_u64 b) = b.
Proof.
  intro h. unfold sip_hash_to_u64, sip_from_u64. split; [intro L; apply le_val_bytes; exact L|]. intros b O L. replace 8%nat with (length b) by (unfold lenN in L; lia). now apply le_bytes_val.
Qed.
(** A hash is a 64-bit number. *)
Theorem C38_range : forall k0 k1 m, k0 < 2 ^ 64 -> k1 < 2 ^ 64 -> bytes_ok m -> lenN m < 2 ^ 64 -> SipHash 2 4 k0 k1 m < 2 ^ 64.
Proof.
  intros k0 k1 m K0 K1 O L. destruct (sip_feed_abs k0 k1 [m] [] _ (sip_new_abs k0 k1)) as (e & E & A); [constructor|cbn [concat]; rewrite app_nil_r; auto|cbn [concat]; rewrite lenN_nil, app_nil_r; lia|].
  cbn [app concat] in A. rewrite app_nil_r in A. destruct (sip_final_spec k0 k1 m e K0 K1 O A) as [<- R]. exact R.
Qed.

(** The vector of the paper (keys 00..0f, message 00..0e), fed in two pieces. *)
Example C38_paper : SipHash 2 4 0x0706050403020100 0x0f0e0d0c0b0a0908 (map N.of_nat (seq 0 15)) = 0xa129ca6149be45e5.
Proof. vm_compute. reflexivity. Qed.
Example C38_ex_split : exists e, sip_feed (with_keys 0x0706050403020100 0x0f0e0d0c0b0a0908) [map N.of_nat (seq 0 5); map N.of_nat (seq 5 10)] = Ret e /\ sip_to_u64 e = 0xa129ca6149be45e5.
Proof.
  destruct (C38_every_splitting 0x0706050403020100 0x0f0e0d0c0b0a0908 [map N.of_nat (seq 0 5); map N.of_nat (seq 5 10)]) as (e & E & V & _); [reflexivity|reflexivity|repeat constructor|reflexivity|].
  exists e. split; [exact E|]. rewrite V. exact C38_paper.
Qed.

Print Assumptions C38_every_splitting.
Print Assumptions C38_at_once.
Print Assumptions C38_u64_roundtrip.
Print Assumptions C38_range.
