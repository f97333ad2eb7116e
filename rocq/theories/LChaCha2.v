(** Lemmas on the ChaCha20 key stream. *)
From Verif Require Import Base MDec LDec LU256 MHash SHash LHash MSha2 SHash2 LSha2 LHash2 MChaCha SChaCha LChaCha.
Local Open Scope N_scope.
Global Opaque chacha20_block.

Lemma xor_from_app : forall key nonce a b pos, xor_from key nonce pos (a ++ b) = xor_from key nonce pos a ++ xor_from key nonce (pos + lenN a) b.
Proof.
  intros key nonce. induction a as [|x a IH]; intros b pos; cbn [app xor_from]; [rewrite lenN_nil, N.add_0_r; reflexivity|]. rewrite IH, lenN_cons. f_equal. f_equal. f_equal. lia.
Qed.
Lemma xor_from_len : forall key nonce a pos, lenN (xor_from key nonce pos a) = lenN a.
Proof. intros key nonce. induction a as [|x a IH]; intros pos; cbn [xor_from]; [reflexivity|]. rewrite !lenN_cons, IH. reflexivity. Qed.
Lemma xor_from_twice : forall key nonce a pos, xor_from key nonce pos (xor_from key nonce pos a) = a.
Proof.
  intros key nonce. induction a as [|x a IH]; intros pos; cbn [xor_from]; [reflexivity|]. rewrite IH. f_equal. now rewrite N.lxor_assoc, N.lxor_nilpotent, N.lxor_0_r.
Qed.
Lemma block_len : forall key nonce n, bytes_ok key -> bytes_ok nonce -> lenN key = 32 -> lenN nonce = 12 -> n < 2 ^ 32 ->
  lenN (chacha20_block key nonce n) = 64 /\ bytes_ok (chacha20_block key nonce n).
Proof.
  intros key nonce n OK ON LK LN B. rewrite <- (keystream_spec key nonce 0 n 0) by auto. unfold keystream_at_block, chacha_keystream, x4_bytes. cbn [cc_key cc_nonce].
  generalize (chacha_block (chacha_state_new key nonce n)). intro s. split.
  - rewrite !lenN_app. unfold lenN. rewrite !le_bytes_length. reflexivity.
  - repeat (apply bytes_ok_app; split); apply le_bytes_ok.
Qed.
Lemma skipn_nth : forall (l : bytes) k, (k < length l)%nat -> skipn k l = nth k l 0 :: skipn (S k) l.
Proof. induction l as [|x l IH]; intros k K; cbn [length] in K; [lia|]. destruct k; [reflexivity|]. cbn [skipn nth]. rewrite IH by lia. reflexivity. Qed.
Lemma dropN_nth : forall (l : bytes) k, k < lenN l -> dropN k l = nth (N.to_nat k) l 0 :: dropN (k + 1) l.
Proof.
  intros l k K. unfold dropN. rewrite skipn_nth by (unfold lenN in K; lia). f_equal. f_equal. lia.
Qed.
Lemma xor_block : forall key nonce m b off, lenN (chacha20_block key nonce b) = 64 -> off + lenN m <= 64 ->
  xor_stream m (dropN off (chacha20_block key nonce b)) = xor_from key nonce (64 * b + off) m.
Proof.
  intros key nonce. induction m as [|x m IH]; intros b off L LM; [reflexivity|]. rewrite lenN_cons in LM.
  rewrite dropN_nth by lia. cbn [xor_stream xor_from]. rewrite IH by (auto; lia). unfold key_byte.
  assert ((64 * b + off) mod 64 = off) as -> by (rewrite N.add_comm, N.mul_comm, N.mod_add by lia; apply N.mod_small; lia).
  assert ((64 * b + off) / 64 = b) as -> by (rewrite N.mul_comm, N.div_add_l by lia; rewrite N.div_small by lia; lia).
  rewrite N.add_assoc. reflexivity.
Qed.

Section C.
  Variables key nonce : bytes.
  Hypothesis OK : bytes_ok key. Hypothesis ON : bytes_ok nonce. Hypothesis LK : lenN key = 32. Hypothesis LN : lenN nonce = 12.
  Lemma ks : forall b off blk, b < 2 ^ 32 -> keystream_at_block (mk_chacha key nonce blk off) b = chacha20_block key nonce b.
  Proof. intros. now apply keystream_spec. Qed.
  Lemma chunks_spec : forall ls b off, full 64 ls -> b < 2 ^ 32 ->
    chacha_chunks (mk_chacha key nonce b off) ls =
    if b + lenN ls <? 2 ^ 32 then Ret (mk_chacha key nonce (b + lenN ls) off, xor_from key nonce (64 * b) (concat ls)) else Panic.
  Proof.
    intros ls b off F. revert b. induction F as [|c ls C F IH]; intros b B; cbn [chacha_chunks concat].
    - rewrite lenN_nil, N.add_0_r, (proj2 (N.ltb_lt _ _) B). reflexivity.
    - cbn [cc_block cc_key cc_nonce cc_off]. rewrite ks by auto. unfold u32_ck. rewrite lenN_cons. destruct (N.ltb_spec (b + 1) (2 ^ 32)) as [B1|B1]; cbn [rbind].
      + rewrite IH by auto. change bytes with (list N) in *. replace (b + 1 + lenN ls) with (b + (1 + lenN ls)) by lia. destruct (N.ltb_spec (b + (1 + lenN ls)) (2 ^ 32)) as [B2|B2]; [|reflexivity]. cbn [rbind].
        destruct (block_len key nonce b OK ON LK LN B) as [L64 _].
        pose proof (xor_block key nonce c b 0 L64 ltac:(rewrite C; lia)) as X. rewrite dropN_0, N.add_0_r in X. rewrite X, xor_from_app, C. do 3 f_equal. f_equal. lia.
      + rewrite (proj2 (N.ltb_ge _ _)) by lia. reflexivity.
  Qed.
  Lemma concat_chunks : forall (m : bytes), exists ls r, m = concat ls ++ r /\ full 64 ls /\ lenN r < 64 /\ takeN (lenN m / 64 * 64) m = concat ls /\ dropN (lenN m / 64 * 64) m = r /\ lenN ls = lenN m / 64.
  Proof.
    intro m. destruct (split_blocks 64 m ltac:(lia)) as (ls & r & E & F & R). exists ls, r. split; [exact E|]. split; [exact F|]. split; [exact R|].
    assert (Q : lenN m / 64 = lenN ls).
    { rewrite E, lenN_app, (full_len 64) by auto. rewrite N.mul_comm, N.div_add_l by lia. rewrite N.div_small by lia. apply N.add_0_r. }
    rewrite Q. assert (L : lenN (concat ls) = lenN ls * 64) by (rewrite (full_len 64) by auto; apply N.mul_comm).
    split; [rewrite E, takeN_app_le by lia; apply takeN_all; lia|]. split; [rewrite E, dropN_app_ge by lia; rewrite L, N.sub_diag; apply dropN_0|]. reflexivity.
  Qed.
  Lemma aligned_spec : forall b m, b < 2 ^ 32 ->
    chacha_aligned (mk_chacha key nonce b 0) m =
    if b + lenN m / 64 <? 2 ^ 32 then Ret (mk_chacha key nonce (b + lenN m / 64) (lenN m mod 64), xor_from key nonce (64 * b) m) else Panic.
  Proof.
    intros b m B. destruct (concat_chunks m) as (ls & r & E & F & R & T & D & Q). unfold chacha_aligned. rewrite T, D.
    rewrite chunks_full by (auto; lia). rewrite chunks_spec by auto. change bytes with (list N) in *. rewrite Q. destruct (N.ltb_spec (b + lenN m / 64) (2 ^ 32)) as [B2|B2]; [|reflexivity]. cbn [rbind].
    assert (M : lenN m mod 64 = lenN r) by (rewrite E, lenN_app, (full_len 64) by auto; rewrite N.add_comm, N.mul_comm, N.mod_add by lia; now apply N.mod_small).
    rewrite M. destruct (N.eqb_spec (lenN r) 0) as [Z|NZ].
    - rewrite Z. f_equal. f_equal. destruct r; [|rewrite lenN_cons in Z; lia]. rewrite app_nil_r in E. now rewrite E.
    - cbn [cc_key cc_nonce cc_block]. rewrite ks by auto. destruct (block_len key nonce _ OK ON LK LN B2) as [L64 _].
      pose proof (xor_block key nonce r _ 0 L64 ltac:(lia)) as X. rewrite dropN_0, N.add_0_r in X. rewrite X. do 2 f_equal. rewrite E at 2. rewrite xor_from_app. f_equal. f_equal.
      rewrite (full_len 64) by auto. change bytes with (list N) in *. rewrite Q. lia.
  Qed.
  (** the position in the key stream after [len] bytes *)
  Lemma apply_spec : forall b off m, b < 2 ^ 32 -> off < 64 -> let pos := 64 * b + off in
    apply_keystream (mk_chacha key nonce b off) m =
    if pos + lenN m <? 2 ^ 38 then Ret (mk_chacha key nonce ((pos + lenN m) / 64) ((pos + lenN m) mod 64), xor_from key nonce pos m) else Panic.
  Proof.
    intros b off m B O pos. unfold apply_keystream. cbn [cc_off cc_block cc_key cc_nonce].
    assert (P38 : 2 ^ 38 = 64 * 2 ^ 32) by reflexivity.
    destruct (N.eqb_spec off 0) as [Z|NZ]; cbn [negb].
    - rewrite Z. rewrite aligned_spec by auto. unfold pos. rewrite Z, !N.add_0_r.
      assert (D : (64 * b + lenN m) / 64 = b + lenN m / 64) by (rewrite N.mul_comm, N.div_add_l by lia; reflexivity).
      assert (M : (64 * b + lenN m) mod 64 = lenN m mod 64) by (rewrite N.add_comm, N.mul_comm, N.mod_add by lia; reflexivity).
      rewrite D, M. destruct (N.ltb_spec (b + lenN m / 64) (2 ^ 32)) as [X|X]; destruct (N.ltb_spec (64 * b + lenN m) (2 ^ 38)) as [Y|Y]; auto; exfalso;
      generalize dependent (lenN m); intros; pose proof (N.div_mod n 64 ltac:(lia)); pose proof (N.mod_lt n 64 ltac:(lia)); lia.
    - rewrite (proj2 (N.ltb_ge _ _)) by lia. rewrite ks by auto. destruct (block_len key nonce b OK ON LK LN B) as [L64 _].
      destruct (N.ltb_spec (N.min (lenN m) (64 - off)) (64 - off)) as [X|X].
      + replace (N.min (lenN m) (64 - off)) with (lenN m) by lia. rewrite takeN_all by lia. rewrite (dropN_all (lenN m) m) by lia. rewrite app_nil_r.
        rewrite xor_block by (auto; lia). fold pos. rewrite (proj2 (N.ltb_lt _ _)) by (unfold pos; lia).
        assert ((pos + lenN m) / 64 = b) as -> by (unfold pos; symmetry; apply (N.div_unique _ 64 b (off + lenN m)); lia).
        assert ((pos + lenN m) mod 64 = off + lenN m) as -> by (unfold pos; symmetry; apply (N.mod_unique _ 64 b (off + lenN m)); lia). reflexivity.
      + replace (N.min (lenN m) (64 - off)) with (64 - off) by lia. unfold u32_ck. destruct (N.ltb_spec (b + 1) (2 ^ 32)) as [B1|B1]; cbn [rbind].
        * rewrite aligned_spec by auto. rewrite lenN_dropN. set (n := lenN m - (64 - off)).
          assert (EP : pos + lenN m = 64 * (b + 1) + n) by (unfold pos, n; lia). rewrite EP.
          assert (D : (64 * (b + 1) + n) / 64 = b + 1 + n / 64) by (rewrite N.mul_comm, N.div_add_l by lia; reflexivity).
          assert (M : (64 * (b + 1) + n) mod 64 = n mod 64) by (rewrite N.add_comm, N.mul_comm, N.mod_add by lia; reflexivity).
          rewrite D, M. destruct (N.ltb_spec (b + 1 + n / 64) (2 ^ 32)) as [Y|Y]; destruct (N.ltb_spec (64 * (b + 1) + n) (2 ^ 38)) as [W|W]; cbn [rbind]; auto;
          try (exfalso; clearbody n; pose proof (N.div_mod n 64 ltac:(lia)); pose proof (N.mod_lt n 64 ltac:(lia)); lia).
          do 2 f_equal. rewrite xor_block by (auto; rewrite lenN_takeN; lia). fold pos. rewrite <- (takeN_dropN (64 - off) m) at 3. rewrite xor_from_app. do 2 f_equal. rewrite lenN_takeN. unfold pos. lia.
        * rewrite (proj2 (N.ltb_ge _ _)) by (unfold pos; lia). reflexivity.
  Qed.
End C.
