(** Lemmas: the SHA-2 engines compute the standard's hash. *)
From Verif Require Import Base MDec LDec LU256 MHash SHash LHash MSha2 SSha2 LSha2 SHashApi.
Local Open Scope N_scope.

Lemma agree256 : agree ops256 sha256_std.
Proof.
  constructor; [reflexivity| | | |]; intros x X; unfold ops256, sha256_std; cbn [S0 S1 s0 s1 wd fS0 fS1 fs0 fs1] in *; unfold xor3, shr; rewrite ?N.shiftr_div_pow2;
  repeat match goal with |- context [rotl 32 ?k x] => change k with (32 - (32 - k)); let v := eval vm_compute in (32 - k) in change (32 - k) with v; rewrite (rotl_rotr 32 v x X) by lia end; reflexivity.
Qed.
Lemma agree512 : agree ops512 sha512_std.
Proof.
  constructor; [reflexivity| | | |]; intros x X; unfold ops512, sha512_std; cbn [S0 S1 s0 s1 wd fS0 fS1 fs0 fs1] in *; unfold xor3, shr; rewrite ?N.shiftr_div_pow2;
  repeat match goal with |- context [rotl 64 ?k x] => change k with (64 - (64 - k)); let v := eval vm_compute in (64 - k) in change (64 - k) with v; rewrite (rotl_rotr 64 v x X) by lia end; reflexivity.
Qed.
Lemma table256 : sha256_rounds = std_table (fK sha256_std).
Proof. vm_compute. reflexivity. Qed.
Lemma table_const : sha256_const_rounds = std_table (fK sha256_std).
Proof. vm_compute. reflexivity. Qed.
Lemma table512 : sha512_rounds = std_table (fK sha512_std).
Proof. vm_compute. reflexivity. Qed.
Lemma ivs : sha256_iv = iv256 /\ sha512_iv = iv512 /\ sha384_iv = iv384 /\ sha512_256_iv = iv512_256.
Proof. split; [|split; [|split]]; vm_compute; reflexivity. Qed.
Definition good (o : sha2_ops) (st : list N) : Prop := small o st /\ length st = 8%nat.
Lemma good_iv : good ops256 iv256 /\ good ops512 iv512 /\ good ops512 iv384 /\ good ops512 iv512_256.
Proof.
  destruct ivs as (<- & <- & <- & <-). unfold good, small.
  split; [|split; [|split]]; (split; [repeat (constructor; [vm_compute; reflexivity|]); constructor|reflexivity]).
Qed.
Lemma len_K : length (fK sha256_std) = 64%nat /\ length (fK sha512_std) = 80%nat.
Proof. split; vm_compute; reflexivity. Qed.
Lemma comp256_spec : forall st b, good ops256 st -> bytes_ok b -> lenN b = 64 ->
  sha256_comp st b = compress sha256_std st b /\ good ops256 (compress sha256_std st b).
Proof.
  intros st b [SM L] OK LB. unfold sha256_comp. destruct len_K as [LK _].
  destruct (sha2_block_spec ops256 sha256_std agree256 ltac:(exists 4; split; [reflexivity|lia]) ltac:(rewrite LK; lia) ltac:(rewrite LK; reflexivity) _ st b table256 SM L OK LB) as (E & A & B).
  split; [exact E|split; assumption].
Qed.
Lemma comp512_spec : forall st b, good ops512 st -> bytes_ok b -> lenN b = 128 ->
  sha512_comp st b = compress sha512_std st b /\ good ops512 (compress sha512_std st b).
Proof.
  intros st b [SM L] OK LB. unfold sha512_comp. destruct len_K as [_ LK].
  destruct (sha2_block_spec ops512 sha512_std agree512 ltac:(exists 8; split; [reflexivity|lia]) ltac:(rewrite LK; lia) ltac:(rewrite LK; reflexivity) _ st b table512 SM L OK LB) as (E & A & B).
  split; [exact E|split; assumption].
Qed.

Lemma iterate_ext : forall (St : Type) (P : St -> Prop) bs c1 c2 iv p, bs <> 0 -> lenN p mod bs = 0 -> bytes_ok p -> P iv ->
  (forall st b, P st -> bytes_ok b -> lenN b = bs -> c1 st b = c2 st b /\ P (c2 st b)) ->
  iterate bs c1 iv p = iterate bs c2 iv p /\ P (iterate bs c2 iv p).
Proof.
  intros St P bs c1 c2 iv p B M OK PI H. unfold iterate. destruct (split_blocks bs p B) as (ls & r & -> & F & R).
  rewrite lenN_app, (full_len bs) in M by auto. rewrite N.add_comm, N.mul_comm, N.mod_add in M by auto. rewrite N.mod_small in M by auto.
  destruct r; [|rewrite lenN_cons in M; lia]. rewrite app_nil_r in *. rewrite blocks_full by auto. clear M R.
  revert iv PI. induction F as [|x ls L F IH]; intros iv PI; cbn [fold_left]; [auto|]. cbn [concat] in OK. apply bytes_ok_app in OK as [O1 O2].
  destruct (H iv x PI O1 L) as [-> P2]. now apply IH.
Qed.
Lemma fill_mod : forall bs n, bs <> 0 -> (n + fill bs n) mod bs = 0.
Proof.
  intros bs n B. unfold fill. rewrite N.add_mod_idemp_r by auto. pose proof (N.mod_lt n bs B). rewrite <- N.add_mod_idemp_l by auto.
  replace (n mod bs + (bs - n mod bs)) with bs by lia. now apply N.mod_same.
Qed.
Lemma be_bytes_len : forall n v, lenN (be_bytes n v) = N.of_nat n.
Proof. intros. unfold lenN, be_bytes. now rewrite rev_length, le_bytes_length. Qed.
Lemma be_bytes_ok : forall n v, bytes_ok (be_bytes n v).
Proof. intros. unfold be_bytes. apply Forall_rev. apply le_bytes_ok. Qed.
Lemma repeat0_ok : forall n, bytes_ok (repeat 0 n).
Proof. induction n; constructor; auto. unfold byte_ok. lia. Qed.
Lemma md_pad_mod : forall bs lf enc m, bs <> 0 -> (forall v, lenN (enc v) = lf) -> lenN (md_pad bs lf enc m) mod bs = 0.
Proof.
  intros bs lf enc m B EL. unfold md_pad. rewrite lenN_app, lenN_cons, lenN_app, EL, repeat0_len, N2Nat.id.
  replace (lenN m + (1 + (fill bs (lenN m + 1 + lf) + lf))) with ((lenN m + 1 + lf) + fill bs (lenN m + 1 + lf)) by lia. now apply fill_mod.
Qed.
Lemma md_pad_ok : forall bs lf enc m, (forall v, bytes_ok (enc v)) -> bytes_ok m -> bytes_ok (md_pad bs lf enc m).
Proof.
  intros bs lf enc m EO OK. unfold md_pad. apply bytes_ok_app. split; auto. apply bytes_ok_cons. split; [unfold byte_ok; lia|].
  apply bytes_ok_app. split; [apply repeat0_ok|auto].
Qed.
Lemma be_bytes_16 : forall v, v < 2 ^ 64 -> be_bytes 16 v = repeat 0 8 ++ be_bytes 8 v.
Proof.
  intros v V. unfold be_bytes. assert (E : le_bytes 16 v = le_bytes 8 v ++ repeat 0 8).
  { rewrite <- (le_bytes_val (le_bytes 8 v ++ repeat 0 8)) by (apply bytes_ok_app; split; [apply le_bytes_ok|apply repeat0_ok]).
    assert (LE : length (le_bytes 8 v ++ repeat 0 8) = 16%nat) by (rewrite app_length, le_bytes_length; reflexivity). rewrite LE. f_equal.
    rewrite le_val_app, le_val_bytes by exact V. change (le_val (repeat 0 8)) with 0. lia. }
  rewrite E, rev_app_distr. reflexivity.
Qed.

Lemma fold_good : forall ls, full 64 ls -> bytes_ok (concat ls) ->
  fold_left sha256_comp ls sha256_iv = iterate 64 (compress sha256_std) iv256 (concat ls) /\ good ops256 (fold_left sha256_comp ls sha256_iv).
Proof.
  intros ls F OK. rewrite (proj1 ivs).
  destruct (iterate_ext _ (good ops256) 64 sha256_comp (compress sha256_std) iv256 (concat ls) ltac:(lia)
    ltac:(rewrite (full_len 64) by auto; rewrite N.mul_comm; apply N.mod_mul; lia) OK (proj1 good_iv) comp256_spec) as [E G].
  rewrite <- E in *. unfold iterate in *. rewrite blocks_full in * by (auto; lia). auto.
Qed.
Lemma iterate_app256 : forall ls b, full 64 ls -> lenN b = 64 ->
  iterate 64 (compress sha256_std) iv256 (concat ls ++ b) = compress sha256_std (iterate 64 (compress sha256_std) iv256 (concat ls)) b.
Proof.
  intros ls b F L. replace (concat ls ++ b) with (concat (ls ++ [b])) by (rewrite concat_app; cbn [concat]; now rewrite app_nil_r).
  unfold iterate. rewrite !blocks_full; [|lia|auto|lia|apply full_app; split; auto; constructor; [auto|constructor]]. rewrite fold_left_app. reflexivity.
Qed.
(** * SHA-256 *)
#[global] Opaque sha256_comp sha512_comp compress iv256 iv512 iv384 iv512_256 sha256_iv sha512_iv sha384_iv sha512_256_iv iterate.
Notation absorbed256 := (absorbed 64 sha256_comp).
Lemma finalize256_spec : forall m e, absorbed256 sha256_iv 0 m e -> bytes_ok m -> lenN m < 2 ^ 61 -> sha256_finalize e = Ret (SHA256 m).
Proof.
  intros m e A OK L. unfold sha256_finalize. rewrite (finalize_md_spec 64 sha256_comp ltac:(lia) 8 (be_bytes 8) sha256_iv m e ltac:(lia) ltac:(lia) (be_bytes_len 8) A L).
  cbn [rbind]. rewrite N.sub_diag, N.add_0_r. fold (md_pad 64 8 (be_bytes 8) m).
  rewrite (proj1 ivs).
  rewrite (proj1 (iterate_ext _ (good ops256) 64 sha256_comp (compress sha256_std) iv256 (md_pad 64 8 (be_bytes 8) m) ltac:(lia)
    (md_pad_mod 64 8 (be_bytes 8) m ltac:(lia) (be_bytes_len 8)) (md_pad_ok 64 8 (be_bytes 8) m (be_bytes_ok 8) OK) (proj1 good_iv) comp256_spec)).
  reflexivity.
Qed.
Lemma hash256_spec : forall m, bytes_ok m -> lenN m < 2 ^ 61 -> sha256_hash m = Ret (SHA256 m).
Proof.
  intros m OK L. unfold sha256_hash, sha256_input.
  destruct (input_absorbed 64 sha256_comp ltac:(lia) sha256_iv 0 [] sha256_new m (new_absorbed 64 sha256_comp ltac:(lia) sha256_iv) ltac:(rewrite lenN_nil; change (2 ^ 64) with (8 * 2 ^ 61); lia)) as (e & E & A).
  rewrite E. cbn [rbind]. now apply finalize256_spec.
Qed.
Lemma sha512_pad : forall m, lenN m < 2 ^ 61 ->
  m ++ 128 :: repeat 0 (N.to_nat (fill 128 (lenN m + 1 + 16) + (16 - 8))) ++ be_bytes 8 (8 * lenN m) = md_pad 128 16 (be_bytes 16) m.
Proof.
  intros m L. unfold md_pad. rewrite be_bytes_16 by (change (2 ^ 64) with (8 * 2 ^ 61); lia). rewrite N2Nat.inj_add, repeat_app, <- app_assoc. reflexivity.
Qed.
Lemma finalize512_spec : forall iv iv' m e, iv = iv' -> good ops512 iv' -> absorbed 128 sha512_comp iv 0 m e -> bytes_ok m -> lenN m < 2 ^ 61 ->
  sha512_finalize e = Ret (hash_with sha512_std iv' m).
Proof.
  intros iv iv' m e <- G A OK L. unfold sha512_finalize. rewrite (finalize_md_spec 128 sha512_comp ltac:(lia) 16 (be_bytes 8) iv m e ltac:(lia) ltac:(lia) (be_bytes_len 8) A L).
  cbn [rbind]. rewrite sha512_pad by auto.
  rewrite (proj1 (iterate_ext _ (good ops512) 128 sha512_comp (compress sha512_std) iv (md_pad 128 16 (be_bytes 16) m) ltac:(lia)
    (md_pad_mod 128 16 (be_bytes 16) m ltac:(lia) (be_bytes_len 16)) (md_pad_ok 128 16 (be_bytes 16) m (be_bytes_ok 16) OK) G comp512_spec)).
  reflexivity.
Qed.

(** * Midstates *)
Lemma be_val_bytes4 : forall v, v < 2 ^ 32 -> be_val (be_bytes 4 v) = v.
Proof. intros v V. unfold be_val, be_bytes. rewrite rev_involutive. apply le_val_bytes. exact V. Qed.
Lemma be_words_to : forall st, good ops256 st -> be_words 4 (to_be_words 4 st) = st.
Proof.
  intros st [SM _]. unfold be_words, to_be_words. rewrite chunks_full; [|lia|].
  - rewrite map_map. unfold small in SM. change (2 ^ wd ops256) with (2 ^ 32) in SM. clear -SM. induction SM as [|x l X _ IH]; [reflexivity|]. cbn [map]. rewrite IH. now rewrite be_val_bytes4.
  - clear. unfold full. induction st; cbn [map]; constructor; [apply be_bytes_len|auto].
Qed.
Lemma out_to : forall st, to_be_words 4 st = out sha256_std st.
Proof. reflexivity. Qed.
Lemma aligned_rest : forall (ls : list bytes) (r : bytes) (b : N), full b ls -> lenN r < b -> lenN (concat ls ++ r) mod b = lenN r.
Proof. intros ls r b F R. pose proof (mod_rest b ltac:(lia) 0 ls r ltac:(apply N.mod_0_l; lia) F R) as M. exact M. Qed.
Lemma midstate_cases : forall m e, absorbed256 sha256_iv 0 m e -> bytes_ok m -> exists ls r,
  m = concat ls ++ r /\ full 64 ls /\ lenN r < 64 /\ lenN m mod 64 = lenN r /\ takeN (lenN r) (e_buf e) = r /\
  engine_midstate e = if lenN r =? 0 then Ok (midstate_of m) else Err (MErr (lenN m) (midstate_of (concat ls)) (e_buf e) (lenN r)).
Proof.
  intros m e (ls & r & ME & F & R & _ & H & EN & LB & TB) OK. exists ls, r.
  assert (MR : lenN m mod 64 = lenN r) by (rewrite ME; now apply aligned_rest).
  split; [auto|]. split; [auto|]. split; [auto|]. split; [auto|]. split; [auto|].
  assert (OL : bytes_ok (concat ls)) by (rewrite ME in OK; now apply bytes_ok_app in OK).
  destruct (fold_good ls F OL) as [FG _]. rewrite N.add_0_l in EN. unfold engine_midstate, midstate_unchecked. rewrite EN, MR, H, FG.
  destruct (N.eqb_spec (lenN r) 0) as [Z|NZ]; cbn [negb].
  - assert (r = []) by (destruct r; auto; rewrite lenN_cons in Z; lia). subst r. rewrite app_nil_r in ME. rewrite ME. reflexivity.
  - f_equal. f_equal. unfold midstate_of. f_equal. rewrite ME, lenN_app. lia.
Qed.
Lemma to_engine_absorbed : forall ls, full 64 ls -> bytes_ok (concat ls) -> absorbed256 (fold_left sha256_comp ls sha256_iv) (lenN (concat ls)) [] (to_engine (midstate_of (concat ls))).
Proof.
  intros ls F OK. destruct (fold_good ls F OK) as [FG G]. exists [], []. split; [reflexivity|]. split; [constructor|]. split; [rewrite lenN_nil; lia|].
  split; [rewrite (full_len 64) by auto; rewrite N.mul_comm; apply N.mod_mul; lia|]. unfold to_engine, midstate_of. cbn [mid_bytes mid_n e_h e_n e_buf fold_left].
  split; [rewrite <- out_to, <- FG; now apply be_words_to|]. split; [rewrite lenN_nil; lia|]. split; reflexivity.
Qed.
Lemma history_absorbed : forall e m, history e m -> bytes_ok m /\ absorbed256 sha256_iv 0 m e.
Proof.
  induction 1 as [|e m x e' H [OK A] OX E|e m s H [OK A] E|e m er e' H [OK A] E E'].
  - split; [constructor|]. apply new_absorbed. lia.
  - assert (L : lenN m + lenN x < 2 ^ 64).
    { destruct A as (ls & r & _ & _ & _ & _ & _ & EN & _). unfold sha256_input, input, u64_ck in E. rewrite EN in E. destruct (N.ltb_spec (0 + lenN m + lenN x) (2 ^ 64)) as [L|L]; [lia|discriminate]. }
    destruct (input_absorbed 64 sha256_comp ltac:(lia) sha256_iv 0 m e x A ltac:(lia)) as (e2 & E2 & A2). unfold sha256_input in E. assert (e' = e2) as -> by congruence.
    split; auto. apply bytes_ok_app. auto.
  - split; auto. destruct (midstate_cases m e A OK) as (ls & r & ME & F & R & MR & TB & EM). rewrite E in EM. destruct (N.eqb_spec (lenN r) 0) as [Z|NZ]; [|discriminate].
    assert (s = midstate_of m) as -> by congruence. assert (r = []) by (destruct r; auto; rewrite lenN_cons in Z; lia). subst r. rewrite app_nil_r in ME. rewrite ME in OK |- *.
    pose proof (absorbed_prefix 64 sha256_comp ltac:(lia) sha256_iv (concat ls) [] _ ls eq_refl F (to_engine_absorbed ls F OK)) as P. now rewrite app_nil_r in P.
  - split; auto. destruct (midstate_cases m e A OK) as (ls & r & ME & F & R & MR & TB & EM). rewrite E in EM. destruct (N.eqb_spec (lenN r) 0) as [Z|NZ]; [discriminate|].
    assert (er = MErr (lenN m) (midstate_of (concat ls)) (e_buf e) (lenN r)) as -> by congruence. cbn [me_mid me_len me_bytes] in E'. rewrite TB in E'.
    assert (OL : bytes_ok (concat ls)) by (rewrite ME in OK; now apply bytes_ok_app in OK). pose proof (to_engine_absorbed ls F OL) as A0.
    assert (L : lenN (concat ls) + lenN r < 2 ^ 64).
    { unfold sha256_input, input, u64_ck, to_engine, midstate_of in E'. cbn [e_n mid_n] in E'. destruct (N.ltb_spec (lenN (concat ls) + lenN r) (2 ^ 64)) as [L|L]; [lia|discriminate]. }
    destruct (input_absorbed 64 sha256_comp ltac:(lia) _ _ [] _ r A0 ltac:(rewrite lenN_nil; lia)) as (e2 & E2 & A2). unfold sha256_input in E'. assert (e' = e2) as -> by congruence.
    rewrite ME. exact (absorbed_prefix 64 sha256_comp ltac:(lia) sha256_iv (concat ls) r e2 ls eq_refl F A2).
Qed.
Lemma update_64_spec : forall m b, bytes_ok m -> bytes_ok b -> lenN m mod 64 = 0 -> lenN b = 64 -> lenN m + 64 < 2 ^ 64 ->
  update_64 (midstate_of m) b = Ret (midstate_of (m ++ b)).
Proof.
  intros m b OK OB M LB L. destruct (split_blocks 64 m ltac:(lia)) as (ls & r & -> & F & R). rewrite aligned_rest in M by auto.
  assert (r = []) by (destruct r; auto; rewrite lenN_cons in M; lia). subst r. rewrite app_nil_r in *. destruct (fold_good ls F OK) as [FG G].
  unfold update_64, to_engine. cbn [e_h]. unfold midstate_of at 1. cbn [mid_bytes]. rewrite <- out_to, <- FG. rewrite be_words_to by auto.
  rewrite process_one by (auto; lia). cbn [rbind]. unfold u64_ck, midstate_of at 1. cbn [mid_n]. destruct (N.ltb_spec (lenN (concat ls) + 64) (2 ^ 64)); [|lia]. cbn [rbind].
  destruct (comp256_spec _ b G OB LB) as [-> _]. unfold midstate_of. rewrite iterate_app256 by auto. rewrite FG, out_to, lenN_app, LB. reflexivity.
Qed.
