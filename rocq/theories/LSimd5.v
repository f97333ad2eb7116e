(** Lemmas: the two-way programs of x86_shani.rs and arm_sha2.rs compute SHA256d of two inputs. *)
From Coq Require Import String.
From Verif Require Import Base MDec LDec LU256 MHash SHash LHash MSha2 SSha2 LSha2 SHashApi LSha2b LSha2c LSha2d LHmac LBip32b MSimd LSimd LSimd2 LSimd3 LSimd4.
Local Open Scope string_scope.
Local Open Scope list_scope.
Local Open Scope N_scope.
#[local] Opaque compress sha256_comp.
#[local] Transparent iterate.
Definition tail32 : list N := [0x80000000; 0; 0; 0; 0; 0; 0; 256].
(** the standard's double hash of 64 bytes, on words *)
Definition dwords (w : list N) : list N := cword iv256 (cword (cword iv256 w) pad64 ++ tail32).
Definition s_dwords (k : nat) : sm (list N) :=
  bind (s_list (map s_const iv256)) (fun iv => bind (s_list (map s_word (iy k 16))) (fun w => bind (s_cword iv w) (fun h1 =>
  bind (s_list (map s_const pad64)) (fun pd => bind (s_cword h1 pd) (fun h2 =>
  bind (s_list (map s_const tail32)) (fun tl => bind (s_cword iv (h2 ++ tl)) (fun h3 => s_list (map s_swap h3)))))))).
Definition has_out (se : env N) (ra rb : reg) (h : list N) : bool := has se ra (fst (lay_arm h)) && has se rb (snd (lay_arm h)).
Definition two_check (p : list ins) : sm bool :=
  bind (sexec_all 2 false p []) (fun o => bind (s_dwords 0) (fun a => bind (s_dwords 1) (fun b =>
  ret (match o with Some se => has_out se "_0_0" "_0_16" a && has_out se "_1_0" "_1_16" b | None => false end)))).
Lemma ni_two_check : fst (two_check ni_2way g_empty) = true.
Proof. vm_compute. reflexivity. Qed.
Lemma arm_two_check : fst (two_check arm_2way g_empty) = true.
Proof. vm_compute. reflexivity. Qed.
(** * The double hash of the standard on words *)
Lemma pad64_ok : bytes_ok pad64_bytes.
Proof. repeat (constructor; [vm_compute; reflexivity|]). constructor. Qed.
Lemma pad64_small : small ops256 pad64.
Proof. repeat (constructor; [vm_compute; reflexivity|]). constructor. Qed.
Lemma tail32_small : small ops256 tail32.
Proof. repeat (constructor; [vm_compute; reflexivity|]). constructor. Qed.
Lemma dwords_out : forall inp, bytes_ok inp -> lenN inp = 64 -> SHA256d inp = out sha256_std (dwords (map (word_at inp) (ix 16))) /\ good ops256 (dwords (map (word_at inp) (ix 16))).
Proof.
  intros inp OK L. destruct (comp256_spec iv256 inp (proj1 good_iv) OK L) as [_ G1]. rewrite (compress_at iv256 inp (proj1 good_iv) OK L) in G1.
  assert (E1 := compress_at iv256 inp (proj1 good_iv) OK L). unfold dwords. set (t := cword iv256 (map (word_at inp) (ix 16))) in *. clearbody t.
  destruct (comp256_spec t pad64_bytes G1 pad64_ok eq_refl) as [_ G2]. assert (E2 := cword_spec t pad64_bytes pad64 G1 ltac:(vm_compute; reflexivity) pad64_small eq_refl). rewrite E2 in G2. set (H1 := cword t pad64) in *. clearbody H1.
  assert (E3 := cword_spec iv256 (out sha256_std H1 ++ pad32_bytes) (H1 ++ tail32) (proj1 good_iv) (stage3_words H1 G2) ltac:(apply Forall_app; split; [apply G2|apply tail32_small]) ltac:(rewrite app_length, (proj2 G2); reflexivity)).
  assert (SH : SHA256 inp = out sha256_std H1).
  { unfold SHA256, hash_with, hash_words. change (2 * fw sha256_std) with 64. change (fw sha256_std / 4) with 8. change (N.to_nat 8) with 8%nat.
    assert (PD : md_pad 64 8 (be_bytes 8) inp = concat [inp; pad64_bytes]) by (unfold md_pad; rewrite L; cbn [concat]; rewrite app_nil_r; reflexivity).
    rewrite PD. unfold iterate. rewrite blocks_full; [|lia|constructor; [auto|constructor; [reflexivity|constructor]]]. cbn [fold_left]. rewrite E1, E2. reflexivity. }
  assert (LO : lenN (out sha256_std H1) = 32) by (rewrite <- SH; now apply SHA256_len).
  assert (OO : bytes_ok (out sha256_std H1 ++ pad32_bytes)).
  { apply bytes_ok_app. split; [|repeat (constructor; [vm_compute; reflexivity|]); constructor]. rewrite <- SH. now apply SHA256_len. }
  destruct (comp256_spec iv256 (out sha256_std H1 ++ pad32_bytes) (proj1 good_iv) OO ltac:(rewrite lenN_app, LO; reflexivity)) as [_ G3]. rewrite E3 in G3. split; [|exact G3].
  unfold SHA256d. rewrite SH. unfold SHA256, hash_with, hash_words. change (2 * fw sha256_std) with 64. change (fw sha256_std / 4) with 8. change (N.to_nat 8) with 8%nat.
  assert (PD : md_pad 64 8 (be_bytes 8) (out sha256_std H1) = concat [out sha256_std H1 ++ pad32_bytes]) by (unfold md_pad; rewrite LO; cbn [concat]; rewrite app_nil_r; reflexivity).
  rewrite PD. unfold iterate. rewrite blocks_full; [|lia|constructor; [rewrite lenN_app, LO; reflexivity|constructor]]. cbn [fold_left]. rewrite E3. reflexivity.
Qed.
Lemma swap_be : forall x, le_bytes 4 (bswap32 x) = be_bytes 4 x.
Proof.
  intro x. unfold bswap32, be_bytes. assert (L : List.length (rev (le_bytes 4 x)) = 4%nat) by (rewrite rev_length; apply le_bytes_length). rewrite <- L at 1. apply le_bytes_val.
  unfold bytes_ok. apply Forall_rev. apply le_bytes_ok.
Qed.
(** * What the check means *)
Section Two.
  Variable rho : N -> N.
  Hypothesis rho_lt : forall i, rho i < W32.
  Lemma small_W : forall l, small ops256 l -> Forall (fun x => x < W32) l.
  Proof. intros l H. exact H. Qed.
  Lemma t_dwords : forall S k w, map (fun i => bswap32 (rho i)) (iy k 16) = w -> triple rho S (s_dwords k) (fun S' a => rl rho S' a (map bswap32 (dwords w))).
  Proof.
    intros S k w E. unfold s_dwords, dwords.
    eapply t_bind; [apply t_consts_list; exact (small_W _ (proj1 (proj1 good_iv)))|]. cbv beta. intros iv S1 W1 X1 R1.
    eapply t_bind; [apply t_words_list|]. cbv beta. intros ws S2 W2 X2 R2. rewrite E in R2. apply (rl_ext _ _ _ _ _ X2) in R1.
    assert (LI : List.length iv = 8%nat) by (rewrite (rl_len _ _ _ _ R1); reflexivity). assert (LW : List.length w = 16%nat) by (rewrite <- E, map_length; reflexivity).
    eapply t_bind; [apply (t_cword rho rho_lt S2 iv ws _ _ R1 R2 LI); rewrite (rl_len _ _ _ _ R2); exact LW|]. cbv beta. intros h1 S3 W3 X3 R3. apply (rl_ext _ _ _ _ _ X3) in R1.
    eapply t_bind; [apply t_consts_list; exact (small_W _ pad64_small)|]. cbv beta. intros pd S4 W4 X4 R4. apply (rl_ext _ _ _ _ _ X4) in R1. apply (rl_ext _ _ _ _ _ X4) in R3.
    assert (L1 : List.length h1 = 8%nat) by (rewrite (rl_len _ _ _ _ R3); apply cword_len; reflexivity).
    eapply t_bind; [apply (t_cword rho rho_lt S4 h1 pd _ _ R3 R4 L1); rewrite (rl_len _ _ _ _ R4); reflexivity|]. cbv beta. intros h2 S5 W5 X5 R5. apply (rl_ext _ _ _ _ _ X5) in R1.
    eapply t_bind; [apply t_consts_list; exact (small_W _ tail32_small)|]. cbv beta. intros tl S6 W6 X6 R6. apply (rl_ext _ _ _ _ _ X6) in R1. apply (rl_ext _ _ _ _ _ X6) in R5.
    assert (L2 : List.length h2 = 8%nat) by (rewrite (rl_len _ _ _ _ R5); apply cword_len, cword_len; reflexivity).
    eapply t_bind; [apply (t_cword rho rho_lt S6 iv (h2 ++ tl) _ _ R1 (rl_app _ _ _ _ _ _ R5 R6) LI); rewrite app_length, L2, (rl_len _ _ _ _ R6); reflexivity|]. cbv beta. intros h3 S7 W7 X7 R7.
    apply t_list. clear -R7. induction R7 as [|x y l l' R RL IH]; cbn [map]; constructor; [|exact IH]. intros T X. apply t_swap. exact (ref_ext rho _ _ _ _ X R).
  Qed.
End Two.
Lemma two_ok : forall p, fst (two_check p g_empty) = true -> forall b1 b2, bytes_ok b1 -> bytes_ok b2 -> lenN b1 = 64 -> lenN b2 = 64 ->
  exists e, exec_all [b1; b2] [] p [] = Ret e /\
    let o1 := map bswap32 (dwords (map (word_at b1) (ix 16))) in let o2 := map bswap32 (dwords (map (word_at b2) (ix 16))) in
    get "_0_0" e = Some (fst (lay_arm o1)) /\ get "_0_16" e = Some (snd (lay_arm o1)) /\ get "_1_0" e = Some (fst (lay_arm o2)) /\ get "_1_16" e = Some (snd (lay_arm o2)).
Proof.
  intros p CK b1 b2 O1 O2 L1 L2. pose (rho := vars [b1; b2] []). assert (RLT : forall i, rho i < W32) by (intro; apply vars_lt).
  revert CK. refine (checked rho (two_check p) _ _). unfold two_check.
  eapply t_bind.
  { apply (sexec_sound rho RLT 2 false [b1; b2] []) with (e := []).
    - intros k K. destruct k as [|[|k]]; [exists b1|exists b2|lia]; (split; [reflexivity|]; split; [lia|]; intros j J; apply vars_mem; auto; lia).
    - discriminate.
    - intros x v G. discriminate. }
  cbv beta. intros o S1 W1 X1 HO.
  eapply t_bind; [apply (t_dwords rho RLT S1 0 _ (vars_words [b1; b2] [] 0 b1 ltac:(lia) eq_refl O1 ltac:(lia)))|]. cbv beta. intros a S2 W2 X2 R2.
  eapply t_bind; [apply (t_dwords rho RLT S2 1 _ (vars_words [b1; b2] [] 1 b2 ltac:(lia) eq_refl O2 ltac:(lia)))|]. cbv beta. intros b S3 W3 X3 R3. apply (rl_ext _ _ _ _ _ X3) in R2.
  apply t_ret. intro CK. destruct o as [se|]; [|discriminate]. destruct (HO se eq_refl) as (e & E & RE). apply (renv_ext _ _ _ _ _ X2) in RE. apply (renv_ext _ _ _ _ _ X3) in RE. exists e. split; [exact E|]. cbv zeta.
  assert (LD : forall w, List.length (map bswap32 (dwords w)) = 8%nat) by (intro; rewrite map_length; unfold dwords; apply cword_len; reflexivity).
  destruct (lay_arm_rel _ _ _ _ R2 (LD _)) as [V0 V1]. destruct (lay_arm_rel _ _ _ _ R3 (LD _)) as [V2 V3]. apply andb_prop in CK as [CA CB]. unfold has_out in CA, CB. apply andb_prop in CA as [C0 C1]. apply andb_prop in CB as [C2 C3].
  split; [exact (has_get _ _ _ _ _ _ _ RE C0 V0)|]. split; [exact (has_get _ _ _ _ _ _ _ RE C1 V1)|]. split; [exact (has_get _ _ _ _ _ _ _ RE C2 V2)|exact (has_get _ _ _ _ _ _ _ RE C3 V3)].
Qed.
Lemma out_halves : forall H, List.length H = 8%nat -> vec_bytes (fst (lay_arm (map bswap32 H))) ++ vec_bytes (snd (lay_arm (map bswap32 H))) = out sha256_std H.
Proof.
  intros H L. apply len8 in L as (a & b & c & d & e & f & g & h & ->). cbn [map lay_arm fst snd]. unfold vec_bytes, lanes. cbn [l0 l1 l2 l3 flat_map]. rewrite !swap_be.
  change (out sha256_std [a; b; c; d; e; f; g; h]) with (concat (map (be_bytes 4) [a; b; c; d; e; f; g; h])). cbn [map concat]. rewrite !app_nil_r, <- !app_assoc. reflexivity.
Qed.
Lemma vec_bytes_16 : forall v, lenN (vec_bytes v) = 16.
Proof. intro v. unfold vec_bytes, lanes. cbn [flat_map]. rewrite !lenN_app. unfold lenN. rewrite !le_bytes_length. reflexivity. Qed.
(** two stores of sixteen bytes fill an output *)
Lemma two_stores : forall (o a b : bytes), lenN o = 32 -> lenN a = 16 -> lenN b = 16 ->
  let o' := takeN 0 o ++ a ++ dropN (0 + 16) o in lenN o' = 32 /\ takeN 16 o' ++ b ++ dropN (16 + 16) o' = a ++ b.
Proof.
  intros o a b LO LA LB. cbv zeta. change (takeN 0 o) with (@nil N). cbn [app]. change (0 + 16) with 16. change (16 + 16) with 32.
  assert (L : lenN (a ++ dropN 16 o) = 32) by (rewrite lenN_app, lenN_dropN; lia). split; [exact L|].
  rewrite takeN_app_le by lia. rewrite takeN_all by lia. rewrite (dropN_all 32) by lia. now rewrite app_nil_r.
Qed.
Lemma two_way_ok : forall p, fst (two_check p g_empty) = true -> forall o1 o2 b1 b2, lenN o1 = 32 -> lenN o2 = 32 -> bytes_ok b1 -> bytes_ok b2 -> lenN b1 = 64 -> lenN b2 = 64 ->
  simd_2way p [St 0 0 "_0_0"; St 0 16 "_0_16"; St 1 0 "_1_0"; St 1 16 "_1_16"] [o1; o2] [b1; b2] = Ret [SHA256d b1; SHA256d b2].
Proof.
  intros p CK o1 o2 b1 b2 P1 P2 O1 O2 L1 L2. unfold simd_2way. destruct (two_ok p CK b1 b2 O1 O2 L1 L2) as (e & E & G). rewrite E. cbn [rbind]. cbv zeta in G.
  destruct (dwords_out b1 O1 L1) as [D1 [_ E1]]. destruct (dwords_out b2 O2 L2) as [D2 [_ E2]]. remember (dwords (map (word_at b1) (ix 16))) as d1. remember (dwords (map (word_at b2) (ix 16))) as d2.
  clear Heqd1 Heqd2 E. rewrite D1, D2. clear D1 D2. pose proof (out_halves d1 E1) as H1. pose proof (out_halves d2 E2) as H2. rewrite <- H1, <- H2. destruct G as (G0 & G1 & G2 & G3). clear H1 H2.
  remember (fst (lay_arm (map bswap32 d1))) as a. remember (snd (lay_arm (map bswap32 d1))) as b. remember (fst (lay_arm (map bswap32 d2))) as c. remember (snd (lay_arm (map bswap32 d2))) as d.
  clear -G0 G1 G2 G3 P1 P2. destruct (two_stores o1 (vec_bytes a) (vec_bytes b) P1 (vec_bytes_16 a) (vec_bytes_16 b)) as [A1 B1]. destruct (two_stores o2 (vec_bytes c) (vec_bytes d) P2 (vec_bytes_16 c) (vec_bytes_16 d)) as [A2 B2]. cbv zeta in *.
  cbn [store_all store_one]. unfold rd. rewrite G0, G1, G2, G3. cbn [rbind nth_error upd_nth].
  rewrite P1. change (0 + 16 <=? 32) with true. cbv iota. cbn [rbind nth_error upd_nth store_all store_one]. rewrite A1. change (16 + 16 <=? 32) with true. cbv iota. rewrite B1. cbn [rbind nth_error upd_nth store_all store_one].
  rewrite P2. change (0 + 16 <=? 32) with true. cbv iota. cbn [rbind nth_error upd_nth store_all store_one]. rewrite A2. change (16 + 16 <=? 32) with true. cbv iota. rewrite B2. reflexivity.
Qed.
Lemma ni_two_ok : forall o1 o2 b1 b2, lenN o1 = 32 -> lenN o2 = 32 -> bytes_ok b1 -> bytes_ok b2 -> lenN b1 = 64 -> lenN b2 = 64 -> ni_sha256d_64_2way [o1; o2] [b1; b2] = Ret [SHA256d b1; SHA256d b2].
Proof. exact (two_way_ok ni_2way ni_two_check). Qed.
Lemma arm_two_ok : forall o1 o2 b1 b2, lenN o1 = 32 -> lenN o2 = 32 -> bytes_ok b1 -> bytes_ok b2 -> lenN b1 = 64 -> lenN b2 = 64 -> arm_sha256d_64_2way [o1; o2] [b1; b2] = Ret [SHA256d b1; SHA256d b2].
Proof. exact (two_way_ok arm_2way arm_two_check). Qed.
