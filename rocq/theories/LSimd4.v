(** Lemmas: the checks of the programs of x86_shani.rs and arm_sha2.rs, and process_blocks. *)
From Coq Require Import String.
From Verif Require Import Base MDec LDec LU256 MHash SHash LHash MSha2 SSha2 LSha2 SHashApi LSha2b LSha2c LSha2d LHmac LBip32b MSimd LSimd LSimd2 LSimd3.
Local Open Scope string_scope.
Local Open Scope list_scope.
Local Open Scope N_scope.
#[local] Opaque compress iterate sha256_comp.

(** * Bytes and words *)
Lemma bswap_word : forall b j, bytes_ok b -> 64 <= lenN b -> j < 16 -> bswap32 (le_val (takeN 4 (dropN (4 * j) b))) = word_at b j.
Proof.
  intros b j OK L J. unfold bswap32, word_at, be_val. f_equal. f_equal. set (l := takeN 4 (dropN (4 * j) b)).
  assert (LL : List.length l = 4%nat).
  { unfold l, takeN, dropN, lenN in *. rewrite firstn_length, skipn_length. lia. }
  rewrite <- LL. apply le_bytes_val. unfold l, takeN, dropN, bytes_ok in *. fold (bytes_ok (firstn (N.to_nat 4) (skipn (N.to_nat (4 * j)) b))). apply bytes_ok_firstn. exact (dropN_ok' (4 * j) b OK).
Qed.

(** * The checks *)
Definition st_vars : list N := [32; 33; 34; 35; 36; 37; 38; 39].
Definition has (se : env N) (r : reg) (v : v4 N) : bool := match get r se with Some x => v_eqb x v | None => false end.
(** where the eight state words are in the two registers *)
Definition lay_ni (r : list N) : v4 N * v4 N := match r with [a; b; c; d; e; f; g; h] => (V f e b a, V h g d c) | _ => (V 0 0 0 0, V 0 0 0 0) end.
Definition lay_arm (r : list N) : v4 N * v4 N := match r with [a; b; c; d; e; f; g; h] => (V a b c d, V e f g h) | _ => (V 0 0 0 0, V 0 0 0 0) end.
Definition regs (lay : list N -> v4 N * v4 N) (hasmask : bool) (r : list N) (mk : v4 N) : env N :=
  [("state0", fst (lay r)); ("state1", snd (lay r))] ++ (if hasmask then [("MASK", mk)] else []).
Definition has_regs (lay : list N -> v4 N * v4 N) (hasmask : bool) (r : list N) (mk : v4 N) (o : option (env N)) : bool :=
  match o with Some se => has se "state0" (fst (lay r)) && has se "state1" (snd (lay r)) && (if hasmask then has se "MASK" mk else true) | None => false end.
Definition s_mask : sm (v4 N) := s_consts (l0 mask) (l1 mask) (l2 mask) (l3 mask).
Definition pre_check lay hasmask (p : list ins) : sm bool :=
  bind (s_list (map s_var st_vars)) (fun r => bind s_mask (fun mk => bind (sexec_all 0 true p []) (fun o => ret (has_regs lay hasmask r mk o)))).
Definition body_check lay hasmask (p : list ins) : sm bool :=
  bind (s_list (map s_var st_vars)) (fun r => bind s_mask (fun mk => bind (sexec_all 1 false p (regs lay hasmask r mk)) (fun o =>
  bind (s_list (map s_word (ix 16))) (fun w => bind (s_cword r w) (fun r' => ret (has_regs lay hasmask r' mk o)))))).
Definition post_check lay (p : list ins) : sm bool :=
  bind (s_list (map s_var st_vars)) (fun r => bind (sexec_all 0 false p (regs lay false r (V 0 0 0 0))) (fun o => ret (has_regs lay_arm false r (V 0 0 0 0) o))).
Lemma ni_pre_check : fst (pre_check lay_ni true ni_pre g_empty) = true.
Proof. vm_compute. reflexivity. Qed.
Lemma ni_body_check : fst (body_check lay_ni true ni_body g_empty) = true.
Proof. vm_compute. reflexivity. Qed.
Lemma ni_post_check : fst (post_check lay_ni ni_post g_empty) = true.
Proof. vm_compute. reflexivity. Qed.
Lemma arm_pre_check : fst (pre_check lay_arm false arm_pre g_empty) = true.
Proof. vm_compute. reflexivity. Qed.
Lemma arm_body_check : fst (body_check lay_arm false arm_body g_empty) = true.
Proof. vm_compute. reflexivity. Qed.
Lemma arm_post_check : fst (post_check lay_arm [] g_empty) = true.
Proof. vm_compute. reflexivity. Qed.

(** * What the checks mean *)
Lemma mask_small : small4 (l0 mask) (l1 mask) (l2 mask) (l3 mask) = true.
Proof. reflexivity. Qed.
Lemma t_mask : forall rho S, triple rho S s_mask (fun S' v => rv rho S' v mask).
Proof. intros rho S. exact (t_consts rho S _ _ _ _ mask_small). Qed.
Definition lay_rel (lay : list N -> v4 N * v4 N) : Prop :=
  forall rho S r st, rl rho S r st -> List.length st = 8%nat -> rv rho S (fst (lay r)) (fst (lay st)) /\ rv rho S (snd (lay r)) (snd (lay st)).
Ltac lay_go := intros rho S r st R L; pose proof (rl_len _ _ _ _ R) as L'; rewrite L in L';
  pose proof (fun i => rl_nth rho S r st i R) as RN; rewrite L' in RN;
  apply len8 in L as (a & b & c & d & e & f & g & h & ->); apply len8 in L' as (a' & b' & c' & d' & e' & f' & g' & h' & ->);
  pose proof (RN 0%nat ltac:(lia)) as R0; pose proof (RN 1%nat ltac:(lia)) as R1; pose proof (RN 2%nat ltac:(lia)) as R2; pose proof (RN 3%nat ltac:(lia)) as R3;
  pose proof (RN 4%nat ltac:(lia)) as R4; pose proof (RN 5%nat ltac:(lia)) as R5; pose proof (RN 6%nat ltac:(lia)) as R6; pose proof (RN 7%nat ltac:(lia)) as R7;
  cbn [nth] in *; clear RN; unfold rv; cbn [lay_ni lay_arm fst snd l0 l1 l2 l3]; tauto.
Lemma lay_ni_rel : lay_rel lay_ni.
Proof. lay_go. Qed.
Lemma lay_arm_rel : lay_rel lay_arm.
Proof. lay_go. Qed.
(** the registers hold the state *)
Definition holds (lay : list N -> v4 N * v4 N) (hasmask : bool) (st : list N) (e : env N) : Prop :=
  get "state0" e = Some (fst (lay st)) /\ get "state1" e = Some (snd (lay st)) /\ (hasmask = true -> get "MASK" e = Some mask).
Lemma has_get : forall rho S se e r v w, renv rho S se e -> has se r v = true -> rv rho S v w -> get r e = Some w.
Proof.
  intros rho S se e r v w R H RV. unfold has in H. destruct (get r se) as [x|] eqn:G; [|discriminate]. apply v_eqb_eq in H. subst x. destruct (R r v G) as (w' & G' & RV'). rewrite G'. f_equal. exact (rv_fun _ _ _ _ _ RV' RV).
Qed.
Lemma has_holds : forall lay hasmask rho S r st mk se e, lay_rel lay -> rl rho S r st -> List.length st = 8%nat -> rv rho S mk mask -> renv rho S se e ->
  has_regs lay hasmask r mk (Some se) = true -> holds lay hasmask st e.
Proof.
  intros lay hasmask rho S r st mk se e LR R L RM RE H. destruct (LR _ _ _ _ R L) as [V0 V1]. cbn [has_regs] in H. apply andb_prop in H as [H HM]. apply andb_prop in H as [H0 H1].
  split; [exact (has_get _ _ _ _ _ _ _ RE H0 V0)|]. split; [exact (has_get _ _ _ _ _ _ _ RE H1 V1)|]. intros ->. exact (has_get _ _ _ _ _ _ _ RE HM RM).
Qed.
Lemma holds_renv : forall lay hasmask rho S r st mk e, lay_rel lay -> rl rho S r st -> List.length st = 8%nat -> rv rho S mk mask -> holds lay hasmask st e -> renv rho S (regs lay hasmask r mk) e.
Proof.
  intros lay hasmask rho S r st mk e LR R L RM (G0 & G1 & GM). destruct (LR _ _ _ _ R L) as [V0 V1]. intros x v G. unfold regs in G. cbn [app get] in G.
  destruct (String.eqb_spec x "state0") as [-> |_]; [injection G as <-; eauto|]. destruct (String.eqb_spec x "state1") as [-> |_]; [injection G as <-; eauto|].
  destruct hasmask; [|discriminate]. cbn [get] in G. destruct (String.eqb_spec x "MASK") as [-> |_]; [|discriminate]. injection G as <-. eauto.
Qed.
(** the values of the variables *)
Definition vars (mem : list bytes) (st : list N) (i : N) : N :=
  (if i <? 32 then le_val (takeN 4 (dropN (4 * (i mod 16)) (nth (N.to_nat (i / 16)) mem []))) else nth (N.to_nat (i - 32)) st 0) mod W32.
Lemma vars_lt : forall mem st i, vars mem st i < W32.
Proof. intros. apply N.mod_lt. discriminate. Qed.
Lemma vars_st : forall mem st j, Forall (fun x => x < W32) st -> vars mem st (32 + N.of_nat j) = nth j st 0.
Proof.
  intros mem st j F. unfold vars. destruct (N.ltb_spec (32 + N.of_nat j) 32); [lia|]. replace (N.to_nat (32 + N.of_nat j - 32)) with j by lia. apply N.mod_small.
  destruct (Nat.lt_ge_cases j (List.length st)) as [H'|H']; [|rewrite nth_overflow by lia; reflexivity]. rewrite Forall_forall in F. apply F. now apply nth_In.
Qed.
Lemma vars_sts : forall mem st, Forall (fun x => x < W32) st -> List.length st = 8%nat -> map (vars mem st) st_vars = st.
Proof.
  intros mem st F L. pose proof (fun j => vars_st mem st j F) as V. apply len8 in L as (a & b & c & d & e & f & g & h & ->). unfold st_vars. cbn [map].
  rewrite (V 0%nat : vars _ _ 32 = _), (V 1%nat : vars _ _ 33 = _), (V 2%nat : vars _ _ 34 = _), (V 3%nat : vars _ _ 35 = _), (V 4%nat : vars _ _ 36 = _), (V 5%nat : vars _ _ 37 = _), (V 6%nat : vars _ _ 38 = _), (V 7%nat : vars _ _ 39 = _). reflexivity.
Qed.
Lemma word_le_lt : forall b j, bytes_ok b -> le_val (takeN 4 (dropN j b)) < W32.
Proof.
  intros b j OK. assert (O : bytes_ok (takeN 4 (dropN j b))) by (apply takeN_ok', dropN_ok', OK). apply le_val_lt in O. eapply N.lt_le_trans; [exact O|]. change W32 with (256 ^ 4). apply N.pow_le_mono_r; [lia|]. rewrite lenN_takeN. lia.
Qed.
Lemma vars_mem : forall mem st k j b, (k < 2)%nat -> j < 16 -> nth_error mem k = Some b -> bytes_ok b -> vars mem st (16 * N.of_nat k + j) = le_val (takeN 4 (dropN (4 * j) b)).
Proof.
  intros mem st k j b K J NE OK. unfold vars. destruct (N.ltb_spec (16 * N.of_nat k + j) 32); [|lia].
  replace ((16 * N.of_nat k + j) mod 16) with j by (rewrite N.add_comm, N.mul_comm, N.mod_add by lia; rewrite N.mod_small; lia).
  replace ((16 * N.of_nat k + j) / 16) with (N.of_nat k) by (rewrite N.add_comm, N.mul_comm, N.div_add by lia; rewrite N.div_small; lia).
  rewrite Nat2N.id, (nth_error_nth _ _ _ NE). apply N.mod_small. now apply word_le_lt.
Qed.
Definition iy (k n : nat) : list N := map (fun j => 16 * N.of_nat k + N.of_nat j) (seq 0 n).
Lemma vars_words : forall mem st k b, (k < 2)%nat -> nth_error mem k = Some b -> bytes_ok b -> 64 <= lenN b ->
  map (fun i => bswap32 (vars mem st i)) (iy k 16) = map (word_at b) (ix 16).
Proof.
  intros mem st k b K NE OK L. unfold iy, ix. rewrite !map_map. apply map_ext_in. intros j J. apply in_seq in J. rewrite (vars_mem mem st k (N.of_nat j) b K ltac:(lia) NE OK). apply bswap_word; auto. lia.
Qed.
Lemma iy0 : forall n, iy 0 n = ix n.
Proof. intro n. unfold iy, ix. apply map_ext. intro j. lia. Qed.
Lemma mrounds_len : forall K st w, List.length st = 8%nat -> List.length (mrounds K st w) = 8%nat.
Proof.
  induction K as [|k K IH]; intros st w L; cbn [mrounds]; [exact L|]. apply IH. apply len8 in L as (a & b & c & d & e & f & g & h & ->). rewrite rnd_step. reflexivity.
Qed.
Lemma wadd2_len : forall o a b, List.length a = List.length b -> List.length (wadd2 o a b) = List.length a.
Proof. intros o. induction a as [|x a IH]; intros [|y b] L; cbn [wadd2 List.length] in *; try lia. rewrite IH; lia. Qed.
Lemma cword_len : forall st w, List.length st = 8%nat -> List.length (cword st w) = 8%nat.
Proof. intros st w L. unfold cword. rewrite wadd2_len; [exact L|]. rewrite mrounds_len; auto. Qed.
Section Ok.
  Variable lay : list N -> v4 N * v4 N.
  Variable hasmask : bool.
  Hypothesis LR : lay_rel lay.
  Lemma body_ok : forall p, fst (body_check lay hasmask p g_empty) = true -> forall b st e, good ops256 st -> bytes_ok b -> 64 <= lenN b -> holds lay hasmask st e ->
    exists e', exec_all [b] [] p e = Ret e' /\ holds lay hasmask (cword st (map (word_at b) (ix 16))) e'.
  Proof.
    intros p CK b st e [SM L] OK LB H. change (Forall (fun x => x < W32) st) in SM. pose (rho := vars [b] st). assert (RLT : forall i, rho i < W32) by (intro; apply vars_lt).
    assert (EW : map (fun i => bswap32 (rho i)) (ix 16) = map (word_at b) (ix 16)) by (rewrite <- (iy0 16) at 1; exact (vars_words [b] st 0 b ltac:(lia) eq_refl OK LB)).
    revert CK. refine (checked rho (body_check lay hasmask p) _ _). unfold body_check.
    eapply t_bind; [apply t_vars_list|]. cbv beta. intros r S1 W1 X1 R1. rewrite (vars_sts [b] st SM L : map rho st_vars = st) in R1.
    eapply t_bind; [apply t_mask|]. cbv beta. intros mk S2 W2 X2 R2. apply (rl_ext _ _ _ _ _ X2) in R1.
    eapply t_bind.
    { apply (sexec_sound rho RLT 1 false [b] []) with (e := e).
      - intros k K. assert (k = 0%nat) as -> by lia. exists b. split; [reflexivity|]. split; [exact LB|]. intros j J. apply vars_mem; auto.
      - discriminate.
      - exact (holds_renv lay hasmask rho S2 r st mk e LR R1 L R2 H). }
    cbv beta. intros o S3 W3 X3 HO. apply (rl_ext _ _ _ _ _ X3) in R1. apply (rv_ext _ _ _ _ _ X3) in R2.
    eapply t_bind; [apply t_words_list|]. cbv beta. intros w S4 W4 X4 R4. rewrite EW in R4. apply (rl_ext _ _ _ _ _ X4) in R1. apply (rv_ext _ _ _ _ _ X4) in R2.
    eapply t_bind; [apply (t_cword rho RLT S4 r w _ _ R1 R4)|].
    { rewrite (rl_len _ _ _ _ R1). exact L. }
    { rewrite (rl_len _ _ _ _ R4). reflexivity. }
    cbv beta. intros r' S5 W5 X5 R5. apply (rv_ext _ _ _ _ _ X5) in R2. apply t_ret. intro CK. destruct o as [se|]; [|discriminate]. destruct (HO se eq_refl) as (e' & E & RE). exists e'. split; [exact E|].
    apply (renv_ext _ _ _ _ _ X4) in RE. apply (renv_ext _ _ _ _ _ X5) in RE. apply (has_holds lay hasmask rho S5 r' _ mk se e' LR R5); auto.
    apply cword_len, L.
  Qed.
  Lemma pre_ok : forall p, fst (pre_check lay hasmask p g_empty) = true -> forall st, good ops256 st -> exists e', exec_all [] st p [] = Ret e' /\ holds lay hasmask st e'.
  Proof.
    intros p CK st [SM L]. change (Forall (fun x => x < W32) st) in SM. pose (rho := vars [] st). assert (RLT : forall i, rho i < W32) by (intro; apply vars_lt).
    revert CK. refine (checked rho (pre_check lay hasmask p) _ _). unfold pre_check.
    eapply t_bind; [apply t_vars_list|]. cbv beta. intros r S1 W1 X1 R1. rewrite (vars_sts [] st SM L : map rho st_vars = st) in R1.
    eapply t_bind; [apply t_mask|]. cbv beta. intros mk S2 W2 X2 R2. apply (rl_ext _ _ _ _ _ X2) in R1.
    eapply t_bind.
    { apply (sexec_sound rho RLT 0 true [] st) with (e := []).
      - intros k K. lia.
      - intros _. split; [exact L|]. intros j _. apply vars_st, SM.
      - intros x v G. discriminate. }
    cbv beta. intros o S3 W3 X3 HO. apply (rl_ext _ _ _ _ _ X3) in R1. apply (rv_ext _ _ _ _ _ X3) in R2. apply t_ret. intro CK. destruct o as [se|]; [|discriminate]. destruct (HO se eq_refl) as (e' & E & RE). exists e'. split; [exact E|].
    apply (has_holds lay hasmask rho S3 r st mk se e' LR R1); auto.
  Qed.
  Lemma post_ok : forall p, fst (post_check lay p g_empty) = true -> forall st st0 e, good ops256 st -> holds lay hasmask st e -> exists e', exec_all [] st0 p e = Ret e' /\ holds lay_arm false st e'.
  Proof.
    intros p CK st st0 e [SM L] H. change (Forall (fun x => x < W32) st) in SM. pose (rho := vars [] st). assert (RLT : forall i, rho i < W32) by (intro; apply vars_lt).
    revert CK. refine (checked rho (post_check lay p) _ _). unfold post_check.
    eapply t_bind; [apply t_vars_list|]. cbv beta. intros r S1 W1 X1 R1. rewrite (vars_sts [] st SM L : map rho st_vars = st) in R1.
    eapply t_bind.
    { apply (sexec_sound rho RLT 0 false [] st0) with (e := e).
      - intros k K. lia.
      - discriminate.
      - destruct H as (H0 & H1 & _). destruct (LR _ _ _ _ R1 L) as [V0 V1]. intros x v G. unfold regs in G. cbn [app get] in G.
        destruct (String.eqb_spec x "state0") as [-> |_]; [injection G as <-; eauto|]. destruct (String.eqb_spec x "state1") as [-> |_]; [injection G as <-; eauto|discriminate]. }
    cbv beta. intros o S3 W3 X3 HO. apply (rl_ext _ _ _ _ _ X3) in R1. apply t_ret. intro CK. destruct o as [se|]; [|discriminate]. destruct (HO se eq_refl) as (e' & E & RE). exists e'. split; [exact E|].
    destruct (lay_arm_rel _ _ _ _ R1 L) as [V0 V1]. cbn [has_regs] in CK. apply andb_prop in CK as [CK _]. apply andb_prop in CK as [H0 H1].
    split; [exact (has_get _ _ _ _ _ _ _ RE H0 V0)|]. split; [exact (has_get _ _ _ _ _ _ _ RE H1 V1)|discriminate].
  Qed.
  Variables pre body post : list ins.
  Hypothesis CPre : fst (pre_check lay hasmask pre g_empty) = true.
  Hypothesis CBody : fst (body_check lay hasmask body g_empty) = true.
  Hypothesis CPost : fst (post_check lay post g_empty) = true.
  Lemma loop_ok : forall (cf : list N -> bytes -> list N), (forall st b, good ops256 st -> bytes_ok b -> lenN b = 64 -> cf st b = cword st (map (word_at b) (ix 16)) /\ good ops256 (cf st b)) -> forall ls fuel pre_bytes st e, full 64 ls -> Forall bytes_ok ls -> good ops256 st -> holds lay hasmask st e -> (List.length ls < fuel)%nat ->
    exists e', block_loop fuel body (pre_bytes ++ concat ls) (lenN pre_bytes) e = Ret e' /\ holds lay hasmask (fold_left cf ls st) e' /\ good ops256 (fold_left cf ls st).
  Proof.
    intros cf CF. induction ls as [|b ls IH]; intros fuel pb st e F OK G H FU; (destruct fuel as [|fuel]; [cbn [List.length] in FU; lia|]); cbn [block_loop concat fold_left].
    - rewrite app_nil_r, N.ltb_irrefl. exists e. auto.
    - apply Forall_cons_iff in OK as [OB OK]. unfold full in F. apply Forall_cons_iff in F as [LB F]. fold (full 64 ls) in F. cbn [List.length] in FU.
      rewrite !lenN_app, LB. destruct (N.ltb_spec (lenN pb) (lenN pb + (64 + lenN (concat ls)))); [|lia]. rewrite dropN_app_ge by lia. rewrite N.sub_diag, dropN_0.
      assert (OK' : bytes_ok (concat ls)) by (clear -OK; induction OK; cbn [concat]; [constructor|apply bytes_ok_app; auto]).
      destruct (body_ok body CBody (b ++ concat ls) st e G ltac:(apply bytes_ok_app; auto) ltac:(rewrite lenN_app; lia) H) as (e' & E & H'). match goal with |- context [rbind ?x _] => replace x with (Ret e') by (symmetry; exact E) end. cbn [rbind].
      destruct (CF st b G OB LB) as [CE G'].
      assert (EC : cword st (map (word_at (b ++ concat ls)) (ix 16)) = cf st b).
      { rewrite CE. f_equal. unfold ix. rewrite !map_map. apply map_ext_in. intros j J. apply in_seq in J. unfold word_at. f_equal.
        rewrite dropN_app_le by (clear -LB J; lia). rewrite takeN_app_le by (rewrite lenN_dropN; clear -LB J; lia). reflexivity. }
      rewrite EC in H'. apply Nat.succ_lt_mono in FU. destruct (IH fuel (pb ++ b) _ e' F OK G' H' FU) as (e'' & E'' & H''). rewrite lenN_app, LB in E''. rewrite <- (app_assoc pb b) in E''. exists e''. split; [exact E''|exact H''].
  Qed.
  Lemma process_ok : forall ls st, full 64 ls -> Forall bytes_ok ls -> good ops256 st ->
    simd_process_blocks pre body post "state0" "state1" st (concat ls) = Ret (fold_left (compress sha256_std) ls st).
  Proof.
    intros ls st F OK G. unfold simd_process_blocks. destruct (pre_ok pre CPre st G) as (e & E & H). rewrite E. cbn [rbind].
    destruct (loop_ok (compress sha256_std) (fun st b G OB LB => conj (compress_at st b G OB LB) (proj2 (comp256_spec st b G OB LB))) ls (S (List.length (concat ls))) [] st e F OK G H) as (e1 & E1 & H1 & G1).
    { pose proof (full_len 64 ls F) as FL. unfold lenN in FL. lia. }
    change (lenN []) with 0 in E1. cbn [app] in E1. rewrite E1. cbn [rbind]. destruct (post_ok post CPost _ st e1 G1 H1) as (e2 & E2 & (G0 & G1' & _)). rewrite E2. cbn [rbind]. unfold rd. rewrite G0. cbn [rbind]. rewrite G1'. cbn [rbind].
    f_equal. destruct G1 as [_ L]. apply len8 in L as (a & b & c & d & e' & f & g & h & ->). reflexivity.
  Qed.
End Ok.
Lemma ni_process_ok : forall ls st, full 64 ls -> Forall bytes_ok ls -> good ops256 st -> ni_process_blocks st (concat ls) = Ret (fold_left (compress sha256_std) ls st).
Proof. exact (process_ok lay_ni true lay_ni_rel ni_pre ni_body ni_post ni_pre_check ni_body_check ni_post_check). Qed.
Lemma arm_process_ok : forall ls st, full 64 ls -> Forall bytes_ok ls -> good ops256 st -> arm_process_blocks st (concat ls) = Ret (fold_left (compress sha256_std) ls st).
Proof. exact (process_ok lay_arm false lay_arm_rel arm_pre arm_body [] arm_pre_check arm_body_check arm_post_check). Qed.
