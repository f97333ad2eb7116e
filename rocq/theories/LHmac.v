(** Lemmas: every engine computes its hash function; HMAC and HKDF. *)
From Verif Require Import Base MDec LDec LU256 MHash SHash LHash MSha2 SSha2 LSha2 SHashApi LSha2b LSha2c MHash2 SHash2 LHash2 LHash3 MHmac SHmac.
Local Open Scope N_scope.

(** * The engines *)
Lemma p64_61 : 2 ^ 64 = 8 * 2 ^ 61. Proof. reflexivity. Qed.
Lemma feed_input_all : forall h bs comp, h_input h = input bs comp -> forall ps e, feed h e ps = input_all bs comp e ps.
Proof. intros h bs comp E. induction ps as [|p ps IH]; intro e; cbn [feed input_all]; [reflexivity|]. rewrite E. destruct (input bs comp e p); cbn [rbind]; auto. Qed.
Lemma computes_intro : forall h bs comp iv H, bs <> 0 -> h_input h = input bs comp -> h_default h = engine_new bs iv ->
  (forall m e, absorbed bs comp iv 0 m e -> bytes_ok m -> lenN m < 2 ^ 61 -> h_finalize h e = Ret (H m)) -> computes h H.
Proof.
  intros h bs comp iv H B EI ED F ps OK L. unfold hash_byte_chunks. rewrite (feed_input_all h bs comp EI), ED.
  destruct (input_all_absorbed bs comp B iv 0 ps [] (engine_new bs iv) (new_absorbed bs comp B iv)) as (e & E & A); [rewrite lenN_nil, p64_61; lia|].
  cbn [app] in A. rewrite E. cbn [rbind]. now apply F.
Qed.
(** an engine of a tag *)
Lemma SHA256_short : forall m, bytes_ok m -> lenN (SHA256 m) < 2 ^ 61.
Proof. intros m OK. rewrite (proj1 (SHA256_len m OK)). reflexivity. Qed.
Lemma all_compute : Forall (fun p => computes (fst p) (snd p)) hashers.
Proof.
  assert (G := good_iv). assert (I := ivs). unfold hashers.
  repeat (apply Forall_cons; [cbn [fst snd]|]); [| | | | | | | | |apply Forall_nil].
  - apply (computes_intro sha256_h 64 sha256_comp sha256_iv); [lia|reflexivity|reflexivity|]. intros m e A OK L. exact (finalize256_spec m e A OK L).
  - apply (computes_intro sha256d_h 64 sha256_comp sha256_iv); [lia|reflexivity|reflexivity|]. intros m e A OK L. cbn [sha256d_h h_finalize]. unfold sha256d_finalize.
    rewrite (finalize256_spec m e A OK L). cbn [rbind]. rewrite hash256_spec; [reflexivity|apply SHA256_len, OK|apply SHA256_short, OK].
  - apply (computes_intro hash160_h 64 sha256_comp sha256_iv); [lia|reflexivity|reflexivity|]. intros m e A OK L. cbn [hash160_h h_finalize]. unfold hash160_finalize.
    rewrite (finalize256_spec m e A OK L). cbn [rbind]. rewrite rmd_hash_spec; [reflexivity|apply SHA256_len, OK|apply SHA256_short, OK].
  - apply (computes_intro sha512_h 128 sha512_comp sha512_iv); [lia|reflexivity|reflexivity|]. intros m e A OK L. cbn [sha512_h h_finalize].
    exact (finalize512_spec sha512_iv iv512 m e (proj1 (proj2 I)) (proj1 (proj2 G)) A OK L).
  - apply (computes_intro sha384_h 128 sha512_comp sha384_iv); [lia|reflexivity|reflexivity|]. intros m e A OK L. cbn [sha384_h h_finalize]. unfold sha384_finalize.
    rewrite (finalize512_spec sha384_iv iv384 m e (proj1 (proj2 (proj2 I))) (proj1 (proj2 (proj2 G))) A OK L). reflexivity.
  - apply (computes_intro sha512_256_h 128 sha512_comp sha512_256_iv); [lia|reflexivity|reflexivity|]. intros m e A OK L. cbn [sha512_256_h h_finalize]. unfold sha512_256_finalize.
    rewrite (finalize512_spec sha512_256_iv iv512_256 m e (proj2 (proj2 (proj2 I))) (proj2 (proj2 (proj2 G))) A OK L). reflexivity.
  - apply (computes_intro sha1_h 64 sha1_comp sha1_iv); [lia|reflexivity|reflexivity|]. intros m e A OK L. exact (sha1_finalize_spec m e A OK L).
  - apply (computes_intro ripemd160_h 64 rmd_comp rmd_iv); [lia|reflexivity|reflexivity|]. intros m e A OK L. exact (rmd_finalize_spec m e A OK L).
  - apply (computes_intro sha3_256_h 136 sha3_comp (repeat 0 25)); [lia|reflexivity|reflexivity|]. intros m e A OK L. exact (sha3_finalize_spec m e A OK).
Qed.
(** output lengths *)
Definition sized (h : hasher) (H : bytes -> bytes) : Prop := forall m, bytes_ok m -> lenN (H m) = h_len h /\ bytes_ok (H m).
Lemma concat_map_len : forall (f : N -> bytes) k st, (forall v, lenN (f v) = k) -> lenN (concat (map f st)) = k * lenN st.
Proof.
  intros f k st H. induction st as [|x st IH]; cbn [map concat]; [rewrite !lenN_nil; lia|]. rewrite lenN_app, lenN_cons, H, IH. lia.
Qed.
Lemma concat_map_ok : forall (f : N -> bytes) st, (forall v, bytes_ok (f v)) -> bytes_ok (concat (map f st)).
Proof. intros f st H. induction st as [|x st IH]; cbn [map concat]; [constructor|]. apply bytes_ok_app. auto. Qed.
Lemma takeN_ok : forall k l, bytes_ok l -> bytes_ok (takeN k l).
Proof. intros k l OK. rewrite <- (takeN_dropN k l) in OK. now apply bytes_ok_app in OK. Qed.
Lemma hash512_len : forall iv m, good ops512 iv -> bytes_ok m -> lenN (hash_with sha512_std iv m) = 64 /\ bytes_ok (hash_with sha512_std iv m).
Proof.
  intros iv m G OK. unfold hash_with.
  destruct (iterate_ext _ (good ops512) 128 sha512_comp (compress sha512_std) iv (md_pad 128 16 (be_bytes 16) m) ltac:(lia)
    (md_pad_mod 128 16 (be_bytes 16) m ltac:(lia) (be_bytes_len 16)) (md_pad_ok 128 16 (be_bytes 16) m (be_bytes_ok 16) OK) G comp512_spec) as [_ [_ L]].
  unfold hash_words. change (2 * fw sha512_std) with 128. change (fw sha512_std / 4) with 16. change (N.to_nat 16) with 16%nat. revert L.
  generalize (iterate 128 (compress sha512_std) iv (md_pad 128 16 (be_bytes 16) m)). intros st L. unfold out. change (N.to_nat (fw sha512_std / 8)) with 8%nat. split; [rewrite (concat_map_len _ 8) by apply be_bytes_len; unfold lenN; rewrite L; reflexivity|].
  apply concat_map_ok. apply be_bytes_ok.
Qed.
Lemma md_len : forall comp1 comp2 enc m,
  (forall v, lenN (enc v) = 8) -> (forall v, bytes_ok (enc v)) -> bytes_ok m ->
  (forall st b, words32 5 st -> bytes_ok b -> lenN b = 64 -> comp1 st b = comp2 st b /\ words32 5 (comp2 st b)) ->
  length (iterate 64 comp2 md4_iv (md_pad 64 8 enc m)) = 5%nat.
Proof.
  intros c1 c2 enc m EL EO OK CE. destruct md4_ok as (_ & _ & G).
  destruct (iterate_ext _ (words32 5) 64 c1 c2 md4_iv (md_pad 64 8 enc m) ltac:(lia) (md_pad_mod 64 8 enc m ltac:(lia) EL) (md_pad_ok 64 8 enc m EO OK) G CE) as [_ [_ L]]. exact L.
Qed.
Lemma SHA1_len : forall m, bytes_ok m -> lenN (SHA1 m) = 20 /\ bytes_ok (SHA1 m).
Proof.
  intros m OK. unfold SHA1. pose proof (md_len sha1_comp sha1_compress (be_bytes 8) m (be_bytes_len 8) (be_bytes_ok 8) OK sha1_comp_spec) as L.
  revert L. generalize (iterate 64 sha1_compress md4_iv (md_pad 64 8 (be_bytes 8) m)). intros st L.
  split; [rewrite (concat_map_len _ 4) by apply be_bytes_len; unfold lenN; rewrite L; reflexivity|]. apply concat_map_ok. apply be_bytes_ok.
Qed.
Lemma RMD_len : forall m, bytes_ok m -> lenN (RIPEMD160 m) = 20 /\ bytes_ok (RIPEMD160 m).
Proof.
  intros m OK. unfold RIPEMD160. pose proof (md_len rmd_comp rmd_compress (le_bytes 8) m (le_bytes_len 8) (le_bytes_ok 8) OK rmd_comp_spec) as L.
  revert L. generalize (iterate 64 rmd_compress md4_iv (md_pad 64 8 (le_bytes 8) m)). intros st L.
  split; [rewrite (concat_map_len _ 4) by apply le_bytes_len; unfold lenN; rewrite L; reflexivity|]. apply concat_map_ok. apply le_bytes_ok.
Qed.
Lemma SHA3_len : forall m, bytes_ok m -> lenN (SHA3_256 m) = 32 /\ bytes_ok (SHA3_256 m).
Proof.
  intros m OK. unfold SHA3_256.
  destruct (iterate_ext _ ok25 136 sha3_comp sha3_compress (repeat 0 25) (sha3_pad 136 m) ltac:(lia) (sha3_pad_mod m) (sha3_pad_ok m OK) zero_ok sha3_comp_spec) as [_ [L _]].
  revert L. generalize (iterate 136 sha3_compress (repeat 0 25) (sha3_pad 136 m)). intros st L.
  split; [rewrite lenN_takeN, (concat_map_len _ 8) by apply le_bytes_len; unfold lenN; rewrite L; reflexivity|]. apply takeN_ok, concat_map_ok. apply le_bytes_ok.
Qed.
Lemma all_sized : Forall (fun p => sized (fst p) (snd p)) hashers.
Proof.
  assert (G := good_iv). unfold hashers. repeat (apply Forall_cons; [cbn [fst snd]; intros m OK|]); [| | | | | | | | |apply Forall_nil].
  - exact (SHA256_len m OK).
  - exact (SHA256_len _ (proj2 (SHA256_len m OK))).
  - exact (RMD_len _ (proj2 (SHA256_len m OK))).
  - change (h_len sha512_h) with 64. unfold SHA512. exact (hash512_len iv512 m (proj1 (proj2 G)) OK).
  - unfold SHA384. destruct (hash512_len iv384 m (proj1 (proj2 (proj2 G))) OK) as [L O]. split; [rewrite lenN_takeN, L; reflexivity|now apply takeN_ok].
  - unfold SHA512_256. destruct (hash512_len iv512_256 m (proj2 (proj2 (proj2 G))) OK) as [L O]. split; [rewrite lenN_takeN, L; reflexivity|now apply takeN_ok].
  - exact (SHA1_len m OK).
  - exact (RMD_len m OK).
  - exact (SHA3_len m OK).
Qed.

(** * HMAC *)
Lemma feed_app : forall h ps qs e, feed h e (ps ++ qs) = rbind (feed h e ps) (fun e => feed h e qs).
Proof. intros h. induction ps as [|p ps IH]; intros qs e; cbn [app feed rbind]; [reflexivity|]. destruct (h_input h e p); cbn [rbind]; auto. Qed.
Lemma computes_feed : forall h H ps, computes h H -> bytes_ok (concat ps) -> lenN (concat ps) < 2 ^ 61 ->
  exists e, feed h (h_default h) ps = Ret e.
Proof. intros h H ps C OK L. specialize (C ps OK L). unfold hash_byte_chunks in C. destruct (feed h (h_default h) ps); cbn [rbind] in C; [eauto|discriminate]. Qed.
Lemma xor_zip_map : forall c k n, (length k <= n)%nat -> xor_zip (repeat c n) k = map (N.lxor c) (k ++ repeat 0 (n - length k)).
Proof.
  intros c. induction k as [|x k IH]; intros n L.
  - cbn [app length]. rewrite Nat.sub_0_r. clear L. induction n as [|n IH]; cbn [repeat xor_zip map]; [reflexivity|]. rewrite N.lxor_0_r. f_equal. rewrite <- IH. destruct n; reflexivity.
  - destruct n as [|n]; [cbn [length] in L; lia|]. cbn [repeat xor_zip app map length]. cbn [length] in L. rewrite IH by lia. reflexivity.
Qed.
Lemma takeN_repeat_map : forall c k (B : N), lenN k <= B -> B <= 128 ->
  takeN B (xor_zip (repeat c 128) k) = map (N.lxor c) (k ++ repeat 0 (N.to_nat (B - lenN k))) /\ lenN (xor_zip (repeat c 128) k) = 128.
Proof.
  intros c k B LK LB. assert (LL : (length k <= 128)%nat) by (unfold lenN in LK; lia). rewrite xor_zip_map by auto. split.
  - replace (128 - length k)%nat with (N.to_nat (B - lenN k) + N.to_nat (128 - B))%nat by (unfold lenN in *; lia). rewrite repeat_app, app_assoc, map_app.
    rewrite takeN_app_le by (unfold lenN in *; rewrite map_length, app_length, repeat_length; lia). apply takeN_all. unfold lenN in *; rewrite map_length, app_length, repeat_length; lia.
  - unfold lenN. rewrite map_length, app_length, repeat_length. lia.
Qed.
Lemma xor_ok : forall c l, c < 256 -> bytes_ok l -> bytes_ok (map (N.lxor c) l).
Proof. intros c l C. induction 1 as [|x l X _ IH]; cbn [map]; constructor; auto. unfold byte_ok in *. change 256 with (2 ^ 8) in *. now apply lxor_lt. Qed.
Lemma key_block_facts : forall h H K, sized h H -> h_len h <= h_block h -> bytes_ok K -> lenN (key_block H (h_block h) K) = h_block h /\ bytes_ok (key_block H (h_block h) K).
Proof.
  intros h H K SZ LB OK. unfold key_block. cbv zeta. destruct (SZ K OK) as [SL SO]. destruct (N.ltb_spec (h_block h) (lenN K)) as [G|G];
  (split; [rewrite lenN_app, repeat0_len, N2Nat.id; lia|apply bytes_ok_app; split; [auto|apply repeat0_ok]]).
Qed.
Lemma map_lenN : forall (f : N -> N) l, lenN (map f l) = lenN l.
Proof. intros. unfold lenN. now rewrite map_length. Qed.
Lemma hmac_new_spec : forall h H K, computes h H -> sized h H -> h_len h <= h_block h -> h_block h <= 128 -> bytes_ok K -> lenN K < 2 ^ 61 ->
  exists i o, hmac_new h K = Ret (mk_hmac i o) /\
    h_input h (h_default h) (map (N.lxor 0x36) (key_block H (h_block h) K)) = Ret i /\
    h_input h (h_default h) (map (N.lxor 0x5c) (key_block H (h_block h) K)) = Ret o.
Proof.
  intros h H K C SZ LB B OK LK. destruct (key_block_facts h H K SZ LB OK) as [KL KO].
  assert (IN : forall c, c < 256 -> exists e, h_input h (h_default h) (map (N.lxor c) (key_block H (h_block h) K)) = Ret e).
  { intros c CL. destruct (computes_feed h H [map (N.lxor c) (key_block H (h_block h) K)] C) as [e E].
    - cbn [concat]. rewrite app_nil_r. now apply xor_ok.
    - cbn [concat]. rewrite app_nil_r, map_lenN, KL. eapply N.le_lt_trans; [exact B|reflexivity].
    - cbn [feed] in E. exists e. destruct (h_input h (h_default h) (map (N.lxor c) (key_block H (h_block h) K))); cbn [rbind] in E; congruence. }
  destruct (IN 0x36 ltac:(lia)) as [i Ei]. destruct (IN 0x5c ltac:(lia)) as [o Eo]. exists i, o. split; [|auto]. unfold hmac_new.
  destruct (N.ltb_spec 128 (h_block h)) as [X|_]; [lia|].
  assert (KE : (if h_block h <? lenN K then hash_one h K else Ret K) = Ret (if h_block h <? lenN K then H K else K)).
  { destruct (h_block h <? lenN K); [|reflexivity]. pose proof (C [K]) as C1. cbn [concat] in C1. rewrite app_nil_r in C1. specialize (C1 OK LK).
    unfold hash_byte_chunks in C1. cbn [feed] in C1. unfold hash_one. destruct (h_input h (h_default h) K); cbn [rbind] in *; auto. }
  rewrite KE. cbn [rbind]. set (k := if h_block h <? lenN K then H K else K).
  assert (LKK : lenN k <= h_block h). { unfold k. destruct (N.ltb_spec (h_block h) (lenN K)); [rewrite (proj1 (SZ K OK)); auto|auto]. }
  destruct (takeN_repeat_map 0x36 k (h_block h) LKK B) as [T1 L1]. destruct (takeN_repeat_map 0x5c k (h_block h) LKK B) as [T2 L2].
  unfold slice_to. rewrite L1, L2. rewrite (proj2 (N.leb_le _ _) B). cbn [rbind].
  change (k ++ repeat 0 (N.to_nat (h_block h - lenN k))) with (key_block H (h_block h) K) in T1, T2. rewrite T1, T2, Ei. cbn [rbind]. rewrite Eo. reflexivity.
Qed.
Lemma hmac_feed_spec : forall h ps e, hmac_feed h e ps = rbind (feed h (iengine e) ps) (fun i => Ret (mk_hmac i (oengine e))).
Proof.
  intros h. induction ps as [|p ps IH]; intros [i o]; cbn [hmac_feed feed rbind iengine oengine]; [reflexivity|].
  unfold hmac_input. cbn [iengine oengine]. destruct (h_input h i p) as [i'|]; cbn [rbind]; [|reflexivity]. rewrite IH. reflexivity.
Qed.
Lemma hmac_spec : forall h H K ps, computes h H -> sized h H -> h_len h <= h_block h -> h_block h <= 128 -> bytes_ok K -> lenN K < 2 ^ 61 ->
  bytes_ok (concat ps) -> h_block h + lenN (concat ps) < 2 ^ 61 ->
  rbind (hmac_new h K) (fun e => rbind (hmac_feed h e ps) (hmac_finalize h)) = Ret (HMAC H (h_block h) K (concat ps)).
Proof.
  intros h H K ps C SZ LB B OK LK OP LP. destruct (key_block_facts h H K SZ LB OK) as [KL KO].
  destruct (hmac_new_spec h H K C SZ LB B OK LK) as (i & o & EN & Ei & Eo). rewrite EN. cbn [rbind]. rewrite hmac_feed_spec. cbn [iengine oengine].
  unfold HMAC. set (ki := map (N.lxor 0x36) (key_block H (h_block h) K)) in *. set (ko := map (N.lxor 0x5c) (key_block H (h_block h) K)) in *.
  assert (LI : lenN ki = h_block h) by (unfold ki; rewrite map_lenN; auto). assert (LO : lenN ko = h_block h) by (unfold ko; rewrite map_lenN; auto).
  assert (OI : bytes_ok ki) by (apply xor_ok; auto; lia). assert (OO : bytes_ok ko) by (apply xor_ok; auto; lia).
  pose proof (C (ki :: ps)) as C1. cbn [concat] in C1. specialize (C1 ltac:(apply bytes_ok_app; auto) ltac:(rewrite lenN_app, LI; exact LP)).
  unfold hash_byte_chunks in C1. cbn [feed] in C1. rewrite Ei in C1. cbn [rbind] in C1.
  destruct (feed h i ps) as [i'|]; cbn [rbind] in C1; [|discriminate]. cbn [rbind]. unfold hmac_finalize. cbn [iengine oengine]. rewrite C1. cbn [rbind].
  destruct (SZ (ki ++ concat ps) ltac:(apply bytes_ok_app; auto)) as [SL SO]. set (inner := H (ki ++ concat ps)) in *.
  pose proof (C [ko; inner]) as C2. cbn [concat] in C2. rewrite app_nil_r in C2.
  specialize (C2 ltac:(apply bytes_ok_app; auto) ltac:(rewrite lenN_app, LO, SL; apply (N.le_lt_trans _ 256); [lia|reflexivity])).
  unfold hash_byte_chunks in C2. cbn [feed] in C2. rewrite Eo in C2. cbn [rbind] in C2. destruct (h_input h o inner); cbn [rbind] in *; [exact C2|discriminate].
Qed.
Lemma HMAC_len : forall h H K m, sized h H -> h_len h <= h_block h -> bytes_ok K -> bytes_ok m -> lenN (HMAC H (h_block h) K m) = h_len h /\ bytes_ok (HMAC H (h_block h) K m).
Proof.
  intros h H K m SZ LB OK OM. destruct (key_block_facts h H K SZ LB OK) as [KL KO]. unfold HMAC. apply SZ. apply bytes_ok_app. split; [apply xor_ok; auto; lia|].
  apply SZ. apply bytes_ok_app. split; [apply xor_ok; auto; lia|auto].
Qed.

(** * HKDF *)
Section Hkdf.
  Variable h : hasher.
  Variable H : bytes -> bytes.
  Hypothesis C : computes h H.
  Hypothesis SZ : sized h H.
  Hypothesis LB : h_len h <= h_block h.
  Hypothesis B : h_block h <= 128.
  Hypothesis L0 : 0 < h_len h.
  Variables prk info : bytes.
  Hypothesis OP : bytes_ok prk.
  Hypothesis LP : lenN prk < 2 ^ 61.
  Hypothesis OI : bytes_ok info.
  Hypothesis LI : lenN info < 2 ^ 60.
  Let T := HKDF_T H (h_block h) prk info.
  Lemma T_len : forall i, (0 < i < 256)%nat -> lenN (T i) = h_len h /\ bytes_ok (T i).
  Proof.
    intro i. induction i as [|i IH]; intros R; [lia|]. unfold T. cbn [HKDF_T]. apply HMAC_len; auto.
    apply bytes_ok_app. split.
    - destruct i as [|i]; [constructor|]. apply IH. lia.
    - apply bytes_ok_app. split; auto. apply bytes_ok_cons. split; [unfold byte_ok; lia|constructor].
  Qed.
  Lemma Ts_len : forall n, (n < 256)%nat -> lenN (concat (map T (seq 1 n))) = N.of_nat n * h_len h.
  Proof.
    induction n as [|n IH]; intro R; [reflexivity|]. rewrite seq_S, map_app, concat_app, lenN_app, IH by lia. cbn [map concat Nat.add]. rewrite app_nil_r.
    rewrite (proj1 (T_len (S n) ltac:(lia))). lia.
  Qed.
  (** one iteration's tag *)
  Lemma tag_spec : forall ps, bytes_ok (concat ps) -> lenN (concat ps) <= lenN info + 300 ->
    rbind (hmac_new h prk) (fun e => rbind (hmac_feed h e ps) (hmac_finalize h)) = Ret (HMAC H (h_block h) prk (concat ps)).
  Proof.
    intros ps OK L. apply hmac_spec; auto. assert (E : 2 ^ 61 = 2 ^ 60 + 2 ^ 60) by reflexivity. assert (E2 : 1000 < 2 ^ 60) by reflexivity. rewrite E. revert E2 LI. generalize (2 ^ 60). intros; lia.
  Qed.
  Lemma hmac_steps : forall e a b c, rbind (hmac_feed h e [a; b; c]) (hmac_finalize h) =
    rbind (hmac_input h e a) (fun e => rbind (hmac_input h e b) (fun e => rbind (hmac_input h e c) (hmac_finalize h))).
  Proof. intros. cbn [hmac_feed]. destruct (hmac_input h e a) as [e1|]; cbn [rbind]; auto. destruct (hmac_input h e1 b) as [e2|]; cbn [rbind]; auto. destruct (hmac_input h e2 c); reflexivity. Qed.
  Lemma hmac_steps2 : forall e b c, rbind (hmac_feed h e [b; c]) (hmac_finalize h) =
    rbind (hmac_input h e b) (fun e => rbind (hmac_input h e c) (hmac_finalize h)).
  Proof. intros. cbn [hmac_feed]. destruct (hmac_input h e b) as [e1|]; cbn [rbind]; auto. destruct (hmac_input h e1 c); reflexivity. Qed.
  Lemma rbind_assoc : forall (X Y Z : Type) (r : rust X) (f : X -> rust Y) (g : Y -> rust Z), rbind (rbind r f) g = rbind r (fun x => rbind (f x) g).
  Proof. intros. destruct r; reflexivity. Qed.
  (** the whole of an iteration *)
  Definition block_tag (c : N) (okm : bytes) : rust bytes :=
    rbind (hmac_new h prk) (fun e =>
    rbind (if negb (c =? 1) then
             rbind (usub c 2) (fun a => rbind (usub c 1) (fun b =>
             rbind (slice (a * h_len h) (b * h_len h) okm) (hmac_input h e)))
           else Ret e) (fun e =>
    rbind (hmac_input h e info) (fun e =>
    rbind (hmac_input h e [c]) (fun e => hmac_finalize h e)))).
  Lemma block_tag_spec : forall n R, (n < 255)%nat -> block_tag (N.of_nat (S n)) (concat (map T (seq 1 n)) ++ R) = Ret (T (S n)).
  Proof.
    intros n R LT. unfold block_tag. assert (OC : bytes_ok [N.of_nat (S n)]) by (apply bytes_ok_cons; split; [unfold byte_ok; lia|constructor]).
    destruct (N.eqb_spec (N.of_nat (S n)) 1) as [E1|E1]; cbn [negb].
    - assert (n = 0)%nat by lia. subst n. clear E1.
      pose proof (tag_spec [info; [N.of_nat 1]] ltac:(cbn [concat]; rewrite app_nil_r; apply bytes_ok_app; auto) ltac:(cbn [concat]; rewrite app_nil_r, lenN_app, lenN_cons, lenN_nil; lia)) as TS.
      cbn [concat] in TS. rewrite app_nil_r in TS. unfold T. cbn [HKDF_T app]. rewrite <- TS. destruct (hmac_new h prk) as [e|]; cbn [rbind]; [|reflexivity]. now rewrite hmac_steps2.
    - destruct n as [|n]; [lia|]. pose proof (T_len (S n) ltac:(lia)) as [TL TO].
      pose proof (tag_spec [T (S n); info; [N.of_nat (S (S n))]] ltac:(cbn [concat]; rewrite app_nil_r; repeat (apply bytes_ok_app; split); auto)
        ltac:(cbn [concat]; rewrite app_nil_r, !lenN_app, lenN_cons, lenN_nil, TL; lia)) as TS.
      cbn [concat] in TS. rewrite app_nil_r in TS. change (T (S (S n))) with (HMAC H (h_block h) prk (T (S n) ++ info ++ [N.of_nat (S (S n))])). rewrite <- TS.
      destruct (hmac_new h prk) as [e|]; cbn [rbind]; [|reflexivity]. rewrite hmac_steps.
      unfold usub. destruct (N.leb_spec 2 (N.of_nat (S (S n)))) as [_|]; [|lia]. destruct (N.leb_spec 1 (N.of_nat (S (S n)))) as [_|]; [|lia]. cbn [rbind].
      replace (N.of_nat (S (S n)) - 2) with (N.of_nat n) by lia. replace (N.of_nat (S (S n)) - 1) with (N.of_nat (S n)) by lia.
      rewrite seq_S, map_app, concat_app. cbn [map concat Nat.add]. rewrite app_nil_r, <- app_assoc.
      pose proof (Ts_len n ltac:(lia)) as LT'. set (P := concat (map T (seq 1 n))) in *. unfold slice.
      rewrite !lenN_app, LT', TL. replace (N.of_nat (S n) * h_len h) with (N.of_nat n * h_len h + h_len h) by lia.
      destruct (N.leb_spec (N.of_nat n * h_len h) (N.of_nat n * h_len h + h_len h)) as [_|]; [|lia].
      destruct (N.leb_spec (N.of_nat n * h_len h + h_len h) (N.of_nat n * h_len h + (h_len h + lenN R))) as [_|]; [|lia]. cbn [andb rbind].
      rewrite <- LT', dropN_app_ge, N.sub_diag, dropN_0 by lia. replace (lenN P + h_len h - lenN P) with (h_len h) by lia.
      rewrite takeN_app_le by lia. rewrite takeN_all by lia. reflexivity.
  Qed.
  Lemma expand_step : forall f total c okm, c <= total -> 1 <= c ->
    expand_loop (S f) h prk info total c okm =
    rbind (block_tag c okm) (fun t =>
      rbind (usub c 1) (fun c1 =>
        let start := c1 * h_len h in
        let end_ := if c =? total then lenN okm else c * h_len h in
        rbind (usub end_ start) (fun n =>
        rbind (slice_to n t) (fun t =>
        rbind (if start + n =? end_ then copy_in start t okm else Panic) (fun okm =>
        rbind (if c + 1 <? 256 then Ret (c + 1) else Panic) (fun c =>
        expand_loop f h prk info total c okm)))))).
  Proof.
    intros f total c okm CT C1. cbn [expand_loop]. rewrite (proj2 (N.leb_le _ _) CT). unfold block_tag. rewrite !rbind_assoc.
    destruct (hmac_new h prk) as [e|]; cbn [rbind]; [|reflexivity]. rewrite !rbind_assoc.
    match goal with |- rbind ?x _ = rbind ?x _ => destruct x as [e'|]; cbn [rbind]; [|reflexivity] end.
    rewrite !rbind_assoc. destruct (hmac_input h e' info) as [e2|]; cbn [rbind]; [|reflexivity]. rewrite !rbind_assoc. destruct (hmac_input h e2 [c]); reflexivity.
  Qed.
  Lemma expand_loop_spec : forall k n R L fuel total, N.of_nat n + N.of_nat k + 1 = total -> (k + 1 < fuel)%nat -> total <= 255 ->
    (total - 1) * h_len h < L -> L <= total * h_len h -> lenN (concat (map T (seq 1 n)) ++ R) = L ->
    expand_loop fuel h prk info total (N.of_nat (S n)) (concat (map T (seq 1 n)) ++ R) =
      if total =? 255 then Panic else Ret (takeN L (concat (map T (seq 1 (N.to_nat total))))).
  Proof.
    induction k as [|k IH]; intros n R L fuel total KT FU T255 LL LU LR; (destruct fuel as [|fuel]; [lia|]); rewrite expand_step by lia; rewrite block_tag_spec by lia; cbn [rbind];
    pose proof (Ts_len n ltac:(lia)) as TL; pose proof (T_len (S n) ltac:(lia)) as [TN TO]; unfold usub; (destruct (N.leb_spec 1 (N.of_nat (S n))) as [_|]; [|lia]); cbn [rbind]; cbv zeta;
    replace (N.of_nat (S n) - 1) with (N.of_nat n) by lia; set (P := concat (map T (seq 1 n))) in *.
    - assert (E : N.of_nat (S n) = total) by lia. rewrite (proj2 (N.eqb_eq _ _) E), LR. replace (N.of_nat n) with (total - 1) in * by lia.
      destruct (N.leb_spec ((total - 1) * h_len h) L) as [_|]; [|lia]. cbn [rbind]. unfold slice_to.
      assert (LL2 : L - (total - 1) * h_len h <= h_len h) by nia. rewrite TN. destruct (N.leb_spec (L - (total - 1) * h_len h) (h_len h)) as [_|]; [|lia]. cbn [rbind].
      replace ((total - 1) * h_len h + (L - (total - 1) * h_len h)) with L by lia. rewrite N.eqb_refl.
      set (t := takeN (L - (total - 1) * h_len h) (T (S n))). assert (LT : lenN t = L - (total - 1) * h_len h) by (unfold t; rewrite lenN_takeN, TN; lia).
      rewrite copy_in_ok by (rewrite LT, LR; lia). cbn [rbind]. replace ((total - 1) * h_len h + lenN t) with L by lia. rewrite <- TL, takeN_app_le by lia. rewrite takeN_all by lia.
      rewrite (dropN_all L) by lia. rewrite app_nil_r. rewrite E. destruct (N.eqb_spec total 255) as [->|NE]; [reflexivity|].
      destruct (N.ltb_spec (total + 1) 256) as [_|]; [|lia]. cbn [rbind]. destruct fuel as [|fuel]; [lia|]. cbn [expand_loop]. destruct (N.leb_spec (total + 1) total) as [|_]; [lia|].
      f_equal. replace (N.to_nat total) with (S n) by lia. rewrite seq_S, map_app, concat_app. cbn [map concat Nat.add]. rewrite app_nil_r. fold P.
      rewrite takeN_app_ge by lia. unfold t. rewrite TL. reflexivity.
    - destruct (N.eqb_spec (N.of_nat (S n)) total) as [|NE]; [lia|]. destruct (N.leb_spec (N.of_nat n * h_len h) (N.of_nat (S n) * h_len h)) as [_|]; [|lia]. cbn [rbind].
      replace (N.of_nat (S n) * h_len h - N.of_nat n * h_len h) with (h_len h) by lia. unfold slice_to. rewrite TN, N.leb_refl. cbn [rbind]. rewrite takeN_all by lia.
      replace (N.of_nat n * h_len h + h_len h) with (N.of_nat (S n) * h_len h) by lia. rewrite N.eqb_refl.
      assert (LS : N.of_nat (S n) * h_len h <= L) by nia. rewrite copy_in_ok by (rewrite LR, TN; lia). cbn [rbind].
      assert (takeN (N.of_nat n * h_len h) (P ++ R) = P) as -> by (rewrite <- TL, takeN_app_le by lia; rewrite takeN_all by lia; reflexivity). destruct (N.ltb_spec (N.of_nat (S n) + 1) 256) as [_|]; [|lia]. cbn [rbind].
      replace (N.of_nat (S n) + 1) with (N.of_nat (S (S n))) by lia.
      replace (P ++ T (S n) ++ dropN (N.of_nat n * h_len h + lenN (T (S n))) (P ++ R)) with (concat (map T (seq 1 (S n))) ++ dropN (N.of_nat n * h_len h + lenN (T (S n))) (P ++ R)).
      2: { rewrite seq_S, map_app, concat_app. cbn [map concat Nat.add]. rewrite app_nil_r, <- app_assoc. reflexivity. }
      apply IH; try lia. rewrite lenN_app, (Ts_len (S n)) by lia. rewrite lenN_dropN, LR, TN. lia.
  Qed.
  Lemma hkdf_expand_spec : forall okm, hkdf_expand h prk info okm =
    if 255 * h_len h <? lenN okm then Ret (Err (255 * h_len h))
    else if 254 * h_len h <? lenN okm then Panic
    else Ret (Ok (HKDF_Expand H (h_block h) (h_len h) prk info (lenN okm))).
  Proof.
    intro okm. unfold hkdf_expand. destruct (N.ltb_spec (255 * h_len h) (lenN okm)) as [|G]; [reflexivity|]. cbv zeta. unfold HKDF_Expand. fold T.
    set (total := (lenN okm + (h_len h - 1)) / h_len h).
    assert (TB : total <= 255 /\ (lenN okm = 0 -> total = 0) /\ (0 < lenN okm -> 1 <= total /\ (total - 1) * h_len h < lenN okm /\ lenN okm <= total * h_len h)).
    { assert (NZ : h_len h <> 0) by lia. pose proof (N.div_mod (lenN okm + (h_len h - 1)) (h_len h) NZ) as D. pose proof (N.mod_lt (lenN okm + (h_len h - 1)) (h_len h) NZ) as M. fold total in D.
      revert D M G L0. generalize ((lenN okm + (h_len h - 1)) mod h_len h) (h_len h) (lenN okm). clearbody total. clear. intros r l o D M G L0. repeat split; nia. }
    destruct TB as (T1 & T2 & T3). rewrite N.mod_small by lia. destruct (N.eq_dec (lenN okm) 0) as [Z|NZ].
    - rewrite (T2 Z), Z. destruct (N.ltb_spec (254 * h_len h) 0) as [|_]; [lia|]. cbn -[N.mul N.add takeN]. assert (okm = []) as -> by (destruct okm; auto; rewrite lenN_cons in Z; lia). reflexivity.
    - destruct (T3 ltac:(lia)) as (T4 & T5 & T6).
      pose proof (expand_loop_spec (N.to_nat (total - 1)) 0 okm (lenN okm) 257 total ltac:(lia) ltac:(lia) T1 T5 T6 eq_refl) as E. cbn [seq map concat app] in E. change (N.of_nat 1) with 1 in E. rewrite E.
      destruct (N.eqb_spec total 255) as [E255|N255].
      + destruct (N.ltb_spec (254 * h_len h) (lenN okm)) as [_|X]; [reflexivity|]. rewrite E255 in T5. lia.
      + cbn [rbind]. destruct (N.ltb_spec (254 * h_len h) (lenN okm)) as [X|_]; [|reflexivity]. exfalso. nia.
  Qed.
End Hkdf.

(** * fixed_time_eq *)
Lemma lor_fold : forall l r, fold_left (fun r p => N.lor r (N.lxor (fst p) (snd p))) l r = 0 <-> r = 0 /\ Forall (fun p => fst p = snd p) l.
Proof.
  induction l as [|[a b] l IH]; intro r; cbn [fold_left fst snd]; [split; [auto|tauto]|]. rewrite IH, N.lor_eq_0_iff, N.lxor_eq_0_iff, Forall_cons_iff. cbn [fst snd]. tauto.
Qed.
Lemma combine_eq : forall a b : bytes, length a = length b -> (Forall (fun p => fst p = snd p) (combine a b) <-> a = b).
Proof.
  induction a as [|x a IH]; intros [|y b] L; cbn [length combine] in *; try discriminate; [split; [auto|constructor]|].
  rewrite Forall_cons_iff. cbn [fst snd]. rewrite IH by congruence. split; [intros [-> ->]; reflexivity|intros [= -> ->]; auto].
Qed.
Lemma any_bit : forall r, r < 256 -> (N.land (let t := N.lor r (N.shiftr r 4) in let t := N.lor t (N.shiftr t 2) in N.lor t (N.shiftr t 1)) 1 =? 0) = (r =? 0).
Proof.
  assert (H : forallb (fun r => Bool.eqb (N.land (let t := N.lor r (N.shiftr r 4) in let t := N.lor t (N.shiftr t 2) in N.lor t (N.shiftr t 1)) 1 =? 0) (r =? 0)) (map N.of_nat (seq 0 256)) = true) by (vm_compute; reflexivity).
  intros r R. rewrite forallb_forall in H. specialize (H r). apply Bool.eqb_prop. apply H. apply in_map_iff. exists (N.to_nat r). split; [lia|]. apply in_seq. lia.
Qed.
Lemma lor_lt : forall w x y, x < 2 ^ w -> y < 2 ^ w -> N.lor x y < 2 ^ w.
Proof.
  intros w x y X Y. destruct (N.eq_dec (N.lor x y) 0) as [-> |NZ]; [lia|]. apply N.log2_lt_pow2; [lia|]. rewrite N.log2_lor.
  apply N.lor_eq_0_iff in NZ || idtac. destruct (N.eq_dec w 0) as [-> |W]; [cbn in X, Y; assert (x = 0) as -> by lia; assert (y = 0) as -> by lia; now elim NZ|].
  apply N.max_lub_lt; [destruct (N.eq_dec x 0) as [-> |]|destruct (N.eq_dec y 0) as [-> |]]; try (cbn; lia); apply N.log2_lt_pow2; lia.
Qed.
Lemma fold_lt : forall l r, r < 256 -> Forall (fun p => fst p < 256 /\ snd p < 256) l -> fold_left (fun r p => N.lor r (N.lxor (fst p) (snd p))) l r < 256.
Proof.
  induction l as [|[a b] l IH]; intros r R F; cbn [fold_left fst snd]; auto. apply Forall_cons_iff in F as [[A B] F]. cbn [fst snd] in A, B. apply IH; auto.
  change 256 with (2 ^ 8) in *. apply lor_lt; auto. now apply lxor_lt.
Qed.
Lemma combine_ok : forall a b, bytes_ok a -> bytes_ok b -> Forall (fun p : N * N => fst p < 256 /\ snd p < 256) (combine a b).
Proof. intros a. induction a as [|x a IH]; intros [|y b] A B; cbn [combine]; try constructor; apply bytes_ok_cons in A as [? ?]; apply bytes_ok_cons in B as [? ?]; cbn [fst snd]; auto. Qed.
Lemma fixed_time_eq_spec : forall a b, bytes_ok a -> bytes_ok b -> lenN a = lenN b -> fixed_time_eq a b = Ret true <-> a = b.
Proof.
  intros a b A B L. unfold fixed_time_eq. rewrite L, N.eqb_refl. cbv zeta. set (r := fold_left _ _ _). assert (R : r < 256) by (apply fold_lt; [lia|now apply combine_ok]).
  pose proof (any_bit r R) as AB. cbv zeta in AB. rewrite AB. rewrite <- (combine_eq a b) by (unfold lenN in L; lia).
  pose proof (lor_fold (combine a b) 0) as LF. fold r in LF. destruct (N.eqb_spec r 0) as [E|E]; [split; [intros _; now apply LF|reflexivity]|split; [discriminate|]].
  intro F. elim E. now apply LF.
Qed.
