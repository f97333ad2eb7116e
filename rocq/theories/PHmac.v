(** C28: HMAC and HKDF. *)
From Verif Require Import Base MDec LDec MHash SHash MSha2 SSha2 MHash2 SHash2 MHmac SHmac LHmac.
Local Open Scope N_scope.

(** Which hash functions fit in the 128-byte pads, and the sizes of their blocks and outputs. *)
Theorem C28_sizes : map (fun p => (h_block (fst p), h_len (fst p))) hashers =
  [(64, 32); (64, 32); (64, 20); (128, 64); (128, 48); (128, 32); (64, 20); (64, 20); (136, 32)].
Proof. reflexivity. Qed.
Lemma facts : forall h H, In (h, H) hashers -> computes h H /\ sized h H /\ h_len h <= h_block h /\ 0 < h_len h.
Proof.
  intros h H I. pose proof all_compute as A. pose proof all_sized as B. rewrite Forall_forall in A, B. split; [exact (A _ I)|]. split; [exact (B _ I)|].
  assert (F : Forall (fun p : hasher * (bytes -> bytes) => h_len (fst p) <= h_block (fst p) /\ 0 < h_len (fst p)) hashers).
  { unfold hashers. repeat (apply Forall_cons; [cbn [fst]; split; [discriminate|reflexivity]|]). apply Forall_nil. }
  rewrite Forall_forall in F. exact (F _ I).
Qed.
(** For every key and every splitting of every message, the engine computes HMAC. *)
Theorem C28_hmac : forall h H K pieces, In (h, H) hashers -> h_block h <= 128 -> bytes_ok K -> lenN K < 2 ^ 61 ->
  bytes_ok (concat pieces) -> h_block h + lenN (concat pieces) < 2 ^ 61 ->
  rbind (hmac_new h K) (fun e => rbind (hmac_feed h e pieces) (hmac_finalize h)) = Ret (HMAC H (h_block h) K (concat pieces)).
Proof. intros h H K ps I B. destruct (facts h H I) as (C & SZ & LB & _). intros. now apply hmac_spec. Qed.
(** "HMAC is defined for every hash function of the crate" is false: the block of SHA3-256 exceeds the pads. *)
Theorem C28_hmac_total_refuted : In (sha3_256_h, SHA3_256) hashers /\ forall K, hmac_new sha3_256_h K = Panic.
Proof. split; [cbn; tauto|]. reflexivity. Qed.
(** HKDF extraction. *)
Theorem C28_extract : forall h H salt ikm, In (h, H) hashers -> h_block h <= 128 -> bytes_ok salt -> lenN salt < 2 ^ 61 ->
  bytes_ok ikm -> h_block h + lenN ikm < 2 ^ 61 -> hkdf_new h salt ikm = Ret (HKDF_Extract H (h_block h) salt ikm).
Proof.
  intros h H salt ikm I B OS LS OI LI. pose proof (C28_hmac h H salt [ikm] I B OS LS) as E. cbn [concat hmac_feed] in E. rewrite app_nil_r in E. specialize (E OI LI).
  unfold hkdf_new, HKDF_Extract. rewrite <- E. destruct (hmac_new h salt); cbn [rbind]; auto. destruct (hmac_input h a ikm); reflexivity.
Qed.
(** HKDF expansion, for every length: beyond 255 blocks an error with the largest length; up to 254 blocks the output
    of RFC 5869, whatever the buffer held; in between a panic. *)
Theorem C28_expand : forall h H prk info okm, In (h, H) hashers -> h_block h <= 128 -> bytes_ok prk -> lenN prk < 2 ^ 61 ->
  bytes_ok info -> lenN info < 2 ^ 60 ->
  (255 * h_len h < lenN okm -> hkdf_expand h prk info okm = Ret (Err (255 * h_len h))) /\
  (lenN okm <= 254 * h_len h -> hkdf_expand h prk info okm = Ret (Ok (HKDF_Expand H (h_block h) (h_len h) prk info (lenN okm)))) /\
  (254 * h_len h < lenN okm -> lenN okm <= 255 * h_len h -> hkdf_expand h prk info okm = Panic).
Proof.
  intros h H prk info okm I B OP LP OI LI. destruct (facts h H I) as (C & SZ & LB & L0).
  pose proof (hkdf_expand_spec h H C SZ LB B L0 prk info OP LP OI LI okm) as E. split; [|split]; intro L; [..|intro L2]; rewrite E.
  - now rewrite (proj2 (N.ltb_lt _ _) L).
  - rewrite (proj2 (N.ltb_ge _ _)) by lia. rewrite (proj2 (N.ltb_ge _ _)) by lia. reflexivity.
  - rewrite (proj2 (N.ltb_ge _ _) L2), (proj2 (N.ltb_lt _ _) L). reflexivity.
Qed.
(** So "any length up to 255 blocks can be expanded" is false: the block counter is a u8 and is incremented after
    block 255. *)
Theorem C28_expand_max_refuted : exists h H prk info okm, In (h, H) hashers /\ lenN okm <= 255 * h_len h /\ hkdf_expand h prk info okm = Panic.
Proof.
  exists sha256_h, SHA256, [11], [240], (repeat 0 8160). split; [now left|]. split; [vm_compute; discriminate|].
  apply (C28_expand sha256_h SHA256 [11] [240]); [now left|discriminate|repeat constructor|reflexivity|repeat constructor|reflexivity|reflexivity|vm_compute; discriminate].
Qed.
(** The allocating form gives the same outputs, and exactly the length asked for. *)
Lemma concat_T_len : forall h H prk info n, computes h H -> sized h H -> h_len h <= h_block h -> h_block h <= 128 -> 0 < h_len h ->
  bytes_ok prk -> lenN prk < 2 ^ 61 -> bytes_ok info -> lenN info < 2 ^ 60 -> forall a, (0 < a)%nat -> (a + n <= 256)%nat ->
  lenN (concat (map (HKDF_T H (h_block h) prk info) (seq a n))) = h_len h * N.of_nat n.
Proof.
  intros h H prk info n C SZ LB B L0 OP LP OI LI. induction n as [|n IH]; intros a A1 A2; cbn [seq map concat]; [rewrite lenN_nil; lia|].
  rewrite lenN_app, IH by lia. assert (E : lenN (HKDF_T H (h_block h) prk info a) = h_len h) by (apply T_len; auto; lia). rewrite E. lia.
Qed.
Theorem C28_expand_len : forall h H prk info len, In (h, H) hashers -> h_block h <= 128 -> bytes_ok prk -> lenN prk < 2 ^ 61 ->
  bytes_ok info -> lenN info < 2 ^ 60 ->
  (255 * h_len h < len -> hkdf_expand_to_len h prk info len = Ret (Err (255 * h_len h))) /\
  (len <= 254 * h_len h -> exists okm, hkdf_expand_to_len h prk info len = Ret (Ok okm) /\ lenN okm = len /\ okm = HKDF_Expand H (h_block h) (h_len h) prk info len) /\
  (254 * h_len h < len -> len <= 255 * h_len h -> hkdf_expand_to_len h prk info len = Panic).
Proof.
  intros h H prk info len I B OP LP OI LI. destruct (C28_expand h H prk info (repeat 0 (N.to_nat len)) I B OP LP OI LI) as (E1 & E2 & E3).
  assert (EL : lenN (repeat 0 (N.to_nat len)) = len) by (unfold lenN; rewrite repeat_length; lia). rewrite EL in E1, E2, E3.
  split; [exact E1|]. split; [|exact E3]. intro L. exists (HKDF_Expand H (h_block h) (h_len h) prk info len). split; [exact (E2 L)|]. split; [|reflexivity].
  destruct (facts h H I) as (C & SZ & LB & L0). unfold HKDF_Expand.
  assert (D : len <= h_len h * ((len + (h_len h - 1)) / h_len h) /\ (len + (h_len h - 1)) / h_len h <= 254).
  { clear - L L0. set (k := h_len h) in *. clearbody k. split.
    - pose proof (N.div_mod (len + (k - 1)) k ltac:(lia)) as Dm. pose proof (N.mod_lt (len + (k - 1)) k ltac:(lia)). lia.
    - apply N.lt_succ_r. apply N.div_lt_upper_bound; lia. }
  rewrite lenN_takeN, (concat_T_len h) by (auto; lia). rewrite N2Nat.id. apply N.min_l. exact (proj1 D).
Qed.
(** Comparison in constant time is equality. *)
Theorem C28_fixed_time_eq : forall a b, bytes_ok a -> bytes_ok b -> lenN a = lenN b -> exists r, fixed_time_eq a b = Ret r /\ (r = true <-> a = b).
Proof.
  intros a b OA OB L. pose proof (fixed_time_eq_spec a b OA OB L) as E. unfold fixed_time_eq in *. rewrite (proj2 (N.eqb_eq _ _) L) in *.
  eexists. split; [reflexivity|]. split; intro X; [apply E; f_equal; exact X|]. apply E in X. congruence.
Qed.

(** Concrete cases: RFC 4231 test 2 (SHA-256), a key longer than the block, and lengths on both sides of each limit. *)
Example C28_rfc4231 : HMAC SHA256 64 [74; 101; 102; 101] [119; 104; 97; 116; 32; 100; 111; 32; 121; 97; 32; 119; 97; 110; 116; 32; 102; 111; 114; 32; 110; 111; 116; 104; 105; 110; 103; 63] =
  [91; 220; 193; 70; 191; 96; 117; 78; 106; 4; 36; 38; 8; 149; 117; 199; 90; 0; 63; 8; 157; 39; 57; 131; 157; 236; 88; 185; 100; 236; 56; 67].
Proof. vm_compute. reflexivity. Qed.
Example C28_ex_long_key : rbind (hmac_new sha256_h (repeat 170 131)) (fun e => rbind (hmac_feed sha256_h e [[1]; [2; 3]]) (hmac_finalize sha256_h)) =
  Ret (HMAC SHA256 64 (repeat 170 131) [1; 2; 3]).
Proof.
  apply (C28_hmac sha256_h SHA256 (repeat 170 131) [[1]; [2; 3]]); [now left|discriminate| |reflexivity|repeat constructor|reflexivity].
  unfold bytes_ok. apply Forall_forall. intros x X. apply repeat_spec in X. subst x. reflexivity.
Qed.
Example C28_ex_expand : 254 * h_len sha256_h < 8129 /\ 8129 <= 255 * h_len sha256_h /\ 8128 <= 254 * h_len sha256_h /\ 255 * h_len sha256_h < 8161.
Proof. repeat split; vm_compute; congruence. Qed.
Example C28_ex_eq : fixed_time_eq [1; 128] [1; 0] = Ret false /\ fixed_time_eq [1; 128] [1; 128] = Ret true. Proof. split; reflexivity. Qed.

Print Assumptions C28_sizes.
Print Assumptions C28_hmac.
Print Assumptions C28_hmac_total_refuted.
Print Assumptions C28_extract.
Print Assumptions C28_expand.
Print Assumptions C28_expand_max_refuted.
Print Assumptions C28_expand_len.
Print Assumptions C28_fixed_time_eq.
