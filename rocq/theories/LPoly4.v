(** Lemmas: the Poly1305 engine absorbs a message in any pieces; the AEAD tag. *)
From Verif Require Import Base MDec LDec LU256 MHash SHash LHash LHash2 MSha2 LHmac MChaCha SChaCha LChaCha LChaCha2 LPoly LPoly2 LPoly3.
Local Open Scope N_scope.

Section Key.
  Variable key : bytes.
  Hypothesis OK : bytes_ok key.
  Hypothesis LK : lenN key = 32.
  Let R := clamp (le_val (takeN 16 key)).
  Definition pabs (m : bytes) (p : poly) : Prop :=
    exists ls r, m = concat ls ++ r /\ full 16 ls /\ lenN r < 16 /\ bytes_ok m /\ p_r p = p_r (poly_new key) /\ p_s p = p_s (poly_new key) /\ limbs_ok 63 (p_acc p) /\
      val (p_acc p) mod P1305 = fold_left (pstep R) ls 0 /\ lenN (p_left p) = 16 /\ takeN (lenN r) (p_left p) = r /\ p_len p = lenN r.
  Lemma new_pabs : pabs [] (poly_new key).
  Proof.
    exists [], []. split; [reflexivity|]. split; [constructor|]. split; [rewrite lenN_nil; lia|]. split; [constructor|]. split; [reflexivity|]. split; [reflexivity|].
    split; [exists 0, 0, 0, 0, 0; split; [reflexivity|unfold X26; lia]|]. repeat split.
  Qed.
  (** the tail of [input], from a state whose buffer is empty or that will not fill *)
  Lemma tail_spec : forall m0 p x, pabs m0 p -> bytes_ok x -> p_len p = 0 \/ p_len p + lenN x < 16 ->
    exists p', rbind (poly_blocks (p_r p) (p_acc p) (chunks_exact 16 x)) (fun acc =>
      let k := lenN x mod 16 in
      if 0 <? k then
        let i := lenN x - k in
        rbind (copy_in (p_len p) (dropN i x) (p_left p)) (fun l => Ret (mk_poly (p_r p) (p_s p) acc l (p_len p + k)))
      else Ret (mk_poly (p_r p) (p_s p) acc (p_left p) (p_len p))) = Ret p' /\ pabs (m0 ++ x) p'.
  Proof.
    intros m0 p x (ls & r & ME & F & LR & OM & ER & ES & LA & VA & LB & TB & EL) OX C.
    destruct (split_blocks 16 x ltac:(discriminate)) as (ls2 & r2 & EX & F2 & R2).
    assert (LX : lenN x = 16 * lenN ls2 + lenN r2) by (rewrite EX, lenN_app, (full_len 16) by auto; reflexivity).
    assert (CH : chunks_exact 16 x = ls2).
    { unfold chunks_exact. replace (lenN x / 16) with (lenN ls2) by lia. unfold lenN at 1. rewrite Nat2N.id, EX. now apply chunks_n_full. }
    assert (OX2 := OX). rewrite EX in OX2. apply bytes_ok_app in OX2. destruct OX2 as [O2 OR2].
    destruct (r_spec key OK LK) as (r0 & r1 & q2 & r3 & r4 & PR & VR & B0 & B1 & B2 & B3 & B4).
    destruct (blocks_spec r0 r1 q2 r3 r4 B0 B1 B2 B3 B4 ls2 (p_acc p) F2 O2 LA) as (acc & EB & KB & VB).
    rewrite CH, ER, PR, EB. cbn [rbind]. cbv zeta. replace (lenN x mod 16) with (lenN r2) by lia.
    assert (RZ : r = [] \/ ls2 = []). { destruct C as [C|C]; [left|right]; [destruct r; [reflexivity|rewrite lenN_cons in EL; lia]|destruct ls2; [reflexivity|rewrite lenN_cons in LX; lia]]. }
    assert (SHAPE : m0 ++ x = concat (ls ++ ls2) ++ (r ++ r2)).
    { rewrite ME, EX, concat_app. destruct RZ as [-> | ->]; [rewrite app_nil_r; cbn [app]; now rewrite app_assoc|cbn [concat app]; rewrite !app_nil_r, app_assoc; reflexivity]. }
    assert (L2 : lenN (r ++ r2) < 16) by (rewrite lenN_app; destruct RZ as [-> | ->]; [rewrite lenN_nil; lia|rewrite lenN_nil in LX; destruct C; lia]).
    assert (COMMON : bytes_ok (m0 ++ x)) by (apply bytes_ok_app; auto).
    rewrite VA, VR in VB. fold R in VB. rewrite <- fold_left_app in VB. assert (FF : full 16 (ls ++ ls2)) by now apply full_app.
    destruct (N.ltb_spec 0 (lenN r2)) as [NZ|Z].
    - assert (DX : dropN (lenN x - lenN r2) x = r2) by (rewrite EX at 2; apply dropN_pref; rewrite LX, (full_len 16) by auto; symmetry; apply N.add_sub).
      rewrite DX, EL. rewrite copy_in_ok by (rewrite lenN_app in L2; lia). cbn [rbind]. eexists. split; [reflexivity|]. exists (ls ++ ls2), (r ++ r2). cbn [p_r p_s p_acc p_left p_len].
      rewrite PR. repeat (split; [first [assumption|reflexivity|idtac]|]). all: try assumption. 1: { rewrite copy_in_len; [auto|rewrite lenN_app in L2; lia]. }
      all: try (rewrite TB, app_assoc, takeN_pref by reflexivity; reflexivity). all: now rewrite lenN_app.
    - assert (r2 = []) as -> by (destruct r2; [reflexivity|rewrite lenN_cons in Z; lia]). rewrite app_nil_r in *. eexists. split; [reflexivity|]. exists (ls ++ ls2), r. cbn [p_r p_s p_acc p_left p_len].
      rewrite PR. repeat split; assumption.
  Qed.
  Lemma input_pabs : forall m p x, pabs m p -> bytes_ok x -> exists p', poly_input p x = Ret p' /\ pabs (m ++ x) p'.
  Proof.
    intros m p x A OX. assert (A0 := A). destruct A as (ls & r & ME & F & LR & OM & ER & ES & LA & VA & LB & TB & EL). unfold poly_input.
    destruct (N.leb_spec 16 (p_len p + lenN x)) as [G|S].
    - destruct (N.leb_spec (p_len p) 16) as [_|]; [|lia]. cbn [rbind]. destruct (N.ltb_spec 0 (16 - p_len p)) as [_|]; [|lia].
      destruct (N.leb_spec (16 - p_len p) (lenN x)) as [_|]; [|lia]. set (f := takeN (16 - p_len p) x). set (x' := dropN (16 - p_len p) x).
      assert (EX : x = f ++ x') by (symmetry; apply takeN_dropN). assert (LF : lenN f = 16 - p_len p) by (unfold f; rewrite lenN_takeN; lia).
      rewrite copy_in_ok by lia. cbn [rbind]. rewrite (dropN_all (p_len p + lenN f)) by lia. rewrite app_nil_r, EL, TB.
      assert (OFX := OX). rewrite EX in OFX. apply bytes_ok_app in OFX. destruct OFX as [OF OX'].
      assert (OR : bytes_ok r) by (rewrite ME in OM; apply bytes_ok_app in OM; tauto).
      destruct (r_spec key OK LK) as (r0 & r1 & q2 & r3 & r4 & PR & VR & B0 & B1 & B2 & B3 & B4).
      assert (L16 : lenN (r ++ f) = 16) by (rewrite lenN_app; lia).
      destruct (block_spec r0 r1 q2 r3 r4 (p_acc p) (r ++ f) false B0 B1 B2 B3 B4 LA) as (acc & EB & KB & VB); [apply bytes_ok_app; auto|auto|discriminate|].
      rewrite ER, PR, EB. cbn [rbind].
      assert (A1 : pabs (m ++ f) (mk_poly [r0; r1; q2; r3; r4] (p_s p) acc (r ++ f) 0)).
      { exists (ls ++ [r ++ f]), []. cbn [p_r p_s p_acc p_left p_len]. rewrite PR, ES. split; [rewrite ME, concat_app; cbn [concat]; rewrite !app_nil_r, app_assoc; reflexivity|].
        split; [apply full_app; split; [auto|constructor; [auto|constructor]]|]. split; [rewrite lenN_nil; lia|]. split; [apply bytes_ok_app; auto|].
        repeat (split; [first [assumption|reflexivity|idtac]|]); [|reflexivity]. rewrite VB, VA, VR, fold_left_app. reflexivity. }
      destruct (tail_spec _ _ x' A1 OX' (or_introl eq_refl)) as (p' & E' & A'). exists p'. split; [exact E'|]. rewrite EX, app_assoc. exact A'.
    - cbn [rbind]. replace (0 <? 0) with false by reflexivity. rewrite dropN_0. cbn [rbind]. exact (tail_spec m p x A0 OX (or_intror S)).
  Qed.
  Lemma feed_pabs : forall ps m p, pabs m p -> bytes_ok (concat ps) -> exists p', poly_feed p ps = Ret p' /\ pabs (m ++ concat ps) p'.
  Proof.
    induction ps as [|x ps IH]; intros m p A O; cbn [poly_feed concat] in *; [exists p; rewrite app_nil_r; auto|].
    apply bytes_ok_app in O. destruct O as [O1 O2]. destruct (input_pabs m p x A O1) as (p1 & E1 & A1). rewrite E1. cbn [rbind].
    destruct (IH _ p1 A1 O2) as (p2 & E2 & A2). exists p2. split; [exact E2|]. now rewrite app_assoc.
  Qed.
  Lemma tag_spec : forall m p, pabs m p -> poly_tag p = Ret (Poly1305 key m).
  Proof.
    intros m p (ls & r & ME & F & LR & OM & ER & ES & LA & VA & LB & TB & EL). unfold poly_tag.
    destruct (r_spec key OK LK) as (r0 & r1 & q2 & r3 & r4 & PR & VR & B0 & B1 & B2 & B3 & B4).
    destruct (s_spec key OK LK) as (s0 & s1 & s2 & s3 & PS & VS & S0 & S1 & S2 & S3).
    assert (LAST : exists acc, (if 0 <? p_len p then if p_len p <=? lenN (p_left p) then poly_block (p_r p) (p_acc p) (takeN (p_len p) (p_left p)) true else Panic else Ret (p_acc p)) = Ret acc /\
      limbs_ok 63 acc /\ val acc mod P1305 = fold_left (pstep R) (blocks 16 m) 0).
    { rewrite EL. destruct (N.ltb_spec 0 (lenN r)) as [NZ|Z].
      - destruct (N.leb_spec (lenN r) (lenN (p_left p))) as [_|]; [|lia]. rewrite TB.
        destruct (block_spec r0 r1 q2 r3 r4 (p_acc p) r true B0 B1 B2 B3 B4 LA) as (acc & EB & KB & VB); [rewrite ME in OM; apply bytes_ok_app in OM; tauto|discriminate|auto|].
        rewrite ER, PR. exists acc. split; [exact EB|]. split; [exact KB|]. unfold blocks. rewrite ME at 2.
        assert (FU : (length ls < length m)%nat).
        { rewrite ME. cut (lenN ls < lenN (concat ls ++ r)); [unfold lenN; clear; intro; lia|]. rewrite lenN_app. eapply N.lt_le_trans; [|apply N.add_le_mono_r; rewrite (full_len 16 ls F); apply N.le_refl].
          change bytes with (list N). generalize (lenN ls). clear -NZ. lia. }
        rewrite (cut_full 16 ls (length m) r) by first [discriminate|assumption].
        destruct r as [|b r]; [rewrite lenN_nil in NZ; lia|]. rewrite fold_left_app, VB, VA, VR. reflexivity.
      - assert (r = []) as -> by (destruct r; [reflexivity|rewrite lenN_cons in Z; lia]). rewrite app_nil_r in ME. exists (p_acc p). split; [reflexivity|]. split; [exact LA|].
        rewrite ME, blocks_full by first [discriminate|assumption]. exact VA. }
    destruct LAST as (acc & EA & KA & VA'). rewrite EA. cbn [rbind].
    destruct (reduce_spec acc KA) as (b0 & b1 & b2 & b3 & b4 & E2 & C0 & C1 & C2 & C3 & C4 & V2). rewrite E2. cbn [rbind]. rewrite ES, PS.
    rewrite out_spec by assumption. rewrite V2, VA', VS. reflexivity.
  Qed.
  Lemma pad_input : forall m p x, pabs m p -> exists p', (if 0 <? lenN x mod 16 then poly_input p (repeat 0 (N.to_nat (16 - lenN x mod 16))) else Ret p) = Ret p' /\ pabs (m ++ pad16 x) p'.
  Proof.
    intros m p x A. unfold pad16. assert (B : lenN x mod 16 < 16) by (apply N.mod_lt; discriminate). destruct (N.ltb_spec 0 (lenN x mod 16)) as [NZ|Z].
    - rewrite (N.mod_small (16 - _)) by lia. apply input_pabs; [exact A|]. apply zeros_ok.
    - replace (lenN x mod 16) with 0 by lia. exists p. split; [reflexivity|]. replace (N.to_nat ((16 - 0) mod 16)) with O by reflexivity. cbn [repeat]. now rewrite app_nil_r.
  Qed.
  Lemma aead_tag_spec : forall content aad, bytes_ok content -> bytes_ok aad -> forall o : option bytes, match o with Some a => a | None => [] end = aad ->
    aead_tag key content o = Ret (Poly1305 key (mac_data aad content)).
  Proof.
    intros content aad OC OA o EO. unfold aead_tag. rewrite EO. cbv zeta.
    destruct (input_pabs [] (poly_new key) aad new_pabs OA) as (p1 & E1 & A1). rewrite E1. cbn [rbind].
    destruct (pad_input _ p1 aad A1) as (p2 & E2 & A2). rewrite E2. cbn [rbind].
    destruct (input_pabs _ p2 content A2 OC) as (p3 & E3 & A3). rewrite E3. cbn [rbind].
    destruct (pad_input _ p3 content A3) as (p4 & E4 & A4). rewrite E4. cbn [rbind].
    destruct (input_pabs _ p4 (encode_lengths (lenN aad) (lenN content)) A4) as (p5 & E5 & A5); [unfold encode_lengths; apply bytes_ok_app; split; apply le_bytes_ok|].
    rewrite E5. cbn [rbind]. rewrite (tag_spec _ _ A5). unfold mac_data, encode_lengths. cbn [app]. rewrite <- !app_assoc. reflexivity.
  Qed.
End Key.
Lemma poly_len : forall key m, lenN (Poly1305 key m) = 16. Proof. intros. unfold Poly1305. apply le_bytes_len. Qed.
Lemma poly_ok : forall key m, bytes_ok (Poly1305 key m). Proof. intros. unfold Poly1305. apply le_bytes_ok. Qed.
Lemma cte_spec : forall a b, bytes_ok a -> bytes_ok b -> lenN a = lenN b -> constant_time_eq a b = true <-> a = b.
Proof.
  intros a b A B L. unfold constant_time_eq. rewrite <- (combine_eq a b) by (unfold lenN in L; lia). rewrite N.eqb_eq. pose proof (lor_fold (combine a b) 0) as LF. rewrite LF. tauto.
Qed.
Lemma key_byte_lt : forall key nonce p, key_nonce key nonce -> p < 2 ^ 38 -> key_byte key nonce p < 256.
Proof.
  intros key nonce p (OK & ON & LK & LN) P. unfold key_byte. destruct (block_len key nonce (p / 64) OK ON LK LN) as [L O].
  - apply N.div_lt_upper_bound; [discriminate|]. exact P.
  - unfold bytes_ok in O. rewrite Forall_forall in O. apply O. apply nth_In. assert (p mod 64 < 64) by (apply N.mod_lt; discriminate). unfold lenN in L. lia.
Qed.
Lemma xor_from_ok : forall key nonce m p, key_nonce key nonce -> p + lenN m <= 2 ^ 38 -> bytes_ok m -> bytes_ok (xor_from key nonce p m).
Proof.
  intros key nonce m p KN. revert p. induction m as [|x m IH]; intros p L O; cbn [xor_from]; [constructor|]. rewrite lenN_cons in L. inversion O; subst. constructor.
  - change (N.lxor x (key_byte key nonce p) < 2 ^ 8). apply lxor_lt; [assumption|]. apply key_byte_lt; [assumption|lia].
  - apply IH; [lia|assumption].
Qed.
Lemma otk_ok : forall key nonce, key_nonce key nonce -> bytes_ok (otk key nonce) /\ lenN (otk key nonce) = 32.
Proof.
  intros key nonce (OK & ON & LK & LN). unfold otk. destruct (block_len key nonce 0 OK ON LK LN ltac:(reflexivity)) as [L O]. split; [now apply takeN_ok|]. rewrite lenN_takeN, L. reflexivity.
Qed.
