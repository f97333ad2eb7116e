(** Lemmas for the statements about midstates. *)
From Verif Require Import Base MDec LDec LU256 MHash SHash LHash MSha2 SSha2 LSha2 SHashApi LSha2b LSha2c LSha2d MHash2 SHash2 LHash2 LHash3 MHmac SHmac LHmac.
Local Open Scope N_scope.

Lemma aligned_split : forall p, lenN p mod 64 = 0 -> exists ls, p = concat ls /\ full 64 ls.
Proof.
  intros p M. destruct (split_blocks 64 p ltac:(lia)) as (ls & r & -> & F & R). rewrite aligned_rest in M by auto.
  assert (r = []) by (destruct r; auto; rewrite lenN_cons in M; lia). subst r. rewrite app_nil_r in *. eauto.
Qed.
Lemma resume_spec : forall p ps, bytes_ok p -> lenN p mod 64 = 0 -> bytes_ok (concat ps) -> lenN p + lenN (concat ps) < 2 ^ 61 ->
  hash_byte_chunks (sha256t_h (midstate_of p)) ps = Ret (SHA256 (p ++ concat ps)).
Proof.
  intros p ps OK M OP L. destruct (aligned_split p M) as (ls & -> & F). unfold hash_byte_chunks. rewrite (feed_input_all (sha256t_h (midstate_of (concat ls))) 64 sha256_comp eq_refl). cbn [sha256t_h h_default h_finalize].
  pose proof (to_engine_absorbed ls F OK) as A. destruct (input_all_absorbed 64 sha256_comp ltac:(lia) _ _ ps [] _ A) as (e & E & A2); [rewrite lenN_nil, p64_61; lia|].
  cbn [app] in A2. rewrite E. cbn [rbind].
  apply finalize256_spec; [|apply bytes_ok_app; auto|rewrite lenN_app; auto].
  exact (absorbed_prefix 64 sha256_comp ltac:(lia) sha256_iv (concat ls) (concat ps) e ls eq_refl F A2).
Qed.
Lemma const_update_spec : forall p b, bytes_ok p -> bytes_ok b -> lenN p mod 64 = 0 -> lenN b = 64 -> lenN p + 64 < 2 ^ 64 ->
  update_midstate_unoptimized (midstate_of p) b false = Ret (midstate_of (p ++ b)).
Proof.
  intros p b OK OB M LB L. destruct (aligned_split p M) as (ls & -> & F). assert (FB : full 64 [b]) by (constructor; [auto|constructor]).
  assert (OB' : bytes_ok (concat [b])) by (cbn [concat]; now rewrite app_nil_r).
  replace b with (concat [b] ++ []) at 1 by (cbn [concat]; now rewrite !app_nil_r).
  rewrite update_unopt; auto; rewrite ?app_nil_r; auto; try (cbn [concat]; rewrite ?app_nil_r, ?LB, ?lenN_nil; lia || reflexivity).
  set (bits := be_bytes 8 _). change (firstn (length ([b] ++ tail_blocks [] bits) - 1) ([b] ++ tail_blocks [] bits)) with [b].
  assert (FA : full 64 (ls ++ [b])) by (apply full_app; auto). assert (OA : bytes_ok (concat (ls ++ [b]))) by (rewrite concat_app; apply bytes_ok_app; auto).
  destruct (fold_good (ls ++ [b]) FA OA) as [E _]. rewrite fold_left_app in E. cbn [fold_left] in E |- *.
  eapply eq_trans; [apply (f_equal (fun w => Ret (Mid (to_be_words 4 w) (lenN (concat ls) + lenN (concat [b]))))); exact E|]. rewrite out_to. unfold midstate_of.
  rewrite concat_app. cbn [concat]. rewrite !app_nil_r, lenN_app. reflexivity.
Qed.
Lemma tagged_spec : forall tag s ps, bytes_ok tag -> lenN tag < 2 ^ 61 -> hash_tag tag = Ret s -> bytes_ok (concat ps) -> lenN (concat ps) + 64 < 2 ^ 61 ->
  hash_byte_chunks (sha256t_h s) ps = Ret (tagged_hash tag (concat ps)).
Proof.
  intros tag s ps OT LT E OP L. rewrite hash_tag_spec in E by auto. assert (s = midstate_of (SHA256 tag ++ SHA256 tag)) as -> by congruence.
  destruct (SHA256_len tag OT) as [HL HO]. assert (L64 : lenN (SHA256 tag ++ SHA256 tag) = 64) by (rewrite lenN_app, HL; reflexivity).
  rewrite resume_spec; [unfold tagged_hash; now rewrite app_assoc|apply bytes_ok_app; auto|rewrite L64; reflexivity|auto|rewrite L64; lia].
Qed.
Lemma input_total : forall e m x, history e m -> (lenN m + lenN x < 2 ^ 64 -> exists e', sha256_input e x = Ret e') /\ (2 ^ 64 <= lenN m + lenN x -> sha256_input e x = Panic).
Proof.
  intros e m x H. destruct (history_absorbed e m H) as [OK A]. split; intro L.
  - destruct (input_absorbed 64 sha256_comp ltac:(lia) sha256_iv 0 m e x A ltac:(lia)) as (e2 & E2 & _). eauto.
  - destruct A as (ls & r & _ & _ & _ & _ & _ & EN & _). unfold sha256_input, input, u64_ck. rewrite EN. destruct (N.ltb_spec (0 + lenN m + lenN x) (2 ^ 64)) as [X|X]; [lia|reflexivity].
Qed.
Lemma midstate_spec : forall e m, history e m ->
  (lenN m mod 64 = 0 /\ engine_midstate e = Ok (midstate_of m)) \/
  (lenN m mod 64 <> 0 /\ exists er p r, engine_midstate e = Err er /\ m = p ++ r /\ lenN p mod 64 = 0 /\ lenN r < 64 /\
     me_n er = lenN m /\ me_mid er = midstate_of p /\ takeN (me_len er) (me_bytes er) = r).
Proof.
  intros e m H. destruct (history_absorbed e m H) as [OK A]. destruct (midstate_cases m e A OK) as (ls & r & ME & F & R & MR & TB & EM). destruct (N.eqb_spec (lenN r) 0) as [Z|NZ].
  - left. split; [congruence|auto].
  - right. split; [congruence|]. eexists _, (concat ls), r. split; [exact EM|]. split; [exact ME|]. split; [rewrite (full_len 64) by auto; rewrite N.mul_comm; apply N.mod_mul; lia|].
    split; [auto|]. cbn [me_n me_mid me_len me_bytes]. auto.
Qed.
Lemma many_spec : forall ins, Forall (fun b => bytes_ok b /\ lenN b = 64) ins -> map software_sha256d_64 ins = map SHA256d ins.
Proof. intros ins F. induction F as [|b ls [OK L] F IH]; [reflexivity|]. cbn [map]. now rewrite IH, sha256d_64_spec. Qed.
Lemma overflow_finalize : forall st, length st = 32%nat -> exists s, midstate_new st (2 ^ 61) = Ret s /\ sha256_finalize (to_engine s) = Panic.
Proof.
  intros st L. exists (Mid st (2 ^ 61)). split; [reflexivity|]. unfold sha256_finalize, finalize_md, to_engine, incomplete_block_len. cbn [mid_n mid_bytes e_n e_buf e_h].
  change (2 ^ 61 mod 64) with 0. rewrite copy_in_ok by (vm_compute; discriminate). cbn [rbind]. unfold fill_from. match goal with |- context [if ?c then _ else _] => change c with true end. cbn [rbind].
  match goal with |- context [if ?c then _ else _] => change c with false end. cbn [rbind]. unfold u64_ck. match goal with |- context [if ?c then _ else _] => change c with false end. reflexivity.
Qed.
