(** Lemmas: the choice of implementation and the engine on any machine. *)
From Coq Require Import String.
From Verif Require Import Base MDec LDec LU256 MHash SHash LHash MSha2 SSha2 LSha2 SHashApi LSha2b LSha2c LSha2d LHmac LBip32b LHashP MSimd SSimd LSimd LSimd2 LSimd3 LSimd4 LSimd5 LSimd6.
Local Open Scope list_scope.
Local Open Scope N_scope.
Lemma d_len : forall y, bytes_ok y -> lenN (SHA256d y) = 32 /\ bytes_ok (SHA256d y).
Proof. intros y O. unfold SHA256d. exact (SHA256_len _ (proj2 (SHA256_len y O))). Qed.
#[local] Opaque compress sha256_comp SHA256d.
Ltac feats H := repeat match goal with X : (_ && _)%bool = true |- _ => apply andb_prop in X as [? ?] end;
  repeat match goal with X : m_std_detects _ _ = true |- _ => apply (proj1 H) in X | X : m_cpuf_detects _ _ = true |- _ => apply (proj2 H) in X end;
  unfold needs, ni_features, arm_features, avx_features, sse_features; cbn [forallb];
  repeat match goal with X : m_has _ _ = true |- _ => rewrite X; clear X end; cbn [andb].
Lemma needs_ni : forall A m (r : rust A), honest m -> std_ni m = true \/ cpuf_ni m = true -> needs m ni_features r = r.
Proof. intros A m r H [E|E]; unfold std_ni, cpuf_ni in E; feats H; reflexivity. Qed.
Lemma needs_arm : forall A m (r : rust A), honest m -> std_arm m = true \/ cpuf_arm m = true -> needs m arm_features r = r.
Proof. intros A m r H [E|E]; unfold std_arm, cpuf_arm in E; feats H; reflexivity. Qed.
Lemma needs_avx : forall A m (r : rust A), honest m -> std_avx m = true \/ cpuf_avx m = true -> needs m avx_features r = r.
Proof. intros A m r H [E|E]; unfold std_avx, cpuf_avx in E; feats H; reflexivity. Qed.
Lemma needs_sse : forall A m (r : rust A), honest m -> std_sse m = true \/ cpuf_sse m = true -> needs m sse_features r = r.
Proof. intros A m r H [E|E]; unfold std_sse, cpuf_sse in E; feats H; reflexivity. Qed.
Lemma fold_gen : forall (c1 c2 : list N -> bytes -> list N) (G : list N -> Prop), (forall st b, G st -> bytes_ok b -> lenN b = 64 -> c1 st b = c2 st b /\ G (c2 st b)) ->
  forall ls st, full 64 ls -> Forall bytes_ok ls -> G st -> fold_left c1 ls st = fold_left c2 ls st /\ G (fold_left c2 ls st).
Proof.
  intros c1 c2 G HG. induction ls as [|b ls IH]; intros st F O GS; cbn [fold_left]; [auto|]. inversion F as [|? ? L F']; subst. inversion O as [|? ? OB O']; subst. destruct (HG st b GS OB L) as [E G']. rewrite E. apply IH; auto.
Qed.
Lemma fold_comp : forall ls st, full 64 ls -> Forall bytes_ok ls -> good ops256 st ->
  fold_left sha256_comp ls st = fold_left (compress sha256_std) ls st /\ good ops256 (fold_left (compress sha256_std) ls st).
Proof. exact (fold_gen sha256_comp (compress sha256_std) (good ops256) comp256_spec). Qed.
Lemma blocks_on : forall m ls st, honest m -> ls <> [] -> full 64 ls -> Forall bytes_ok ls -> good ops256 st ->
  process_blocks_on m st (concat ls) = Ret (fold_left (compress sha256_std) ls st).
Proof.
  intros m ls st H NE F O G. unfold process_blocks_on.
  destruct (std_ni m) eqn:E1; [rewrite needs_ni by auto; exact (ni_process_ok ls st F O G)|]. destruct (cpuf_ni m) eqn:E2; [rewrite needs_ni by auto; exact (ni_process_ok ls st F O G)|].
  destruct (std_arm m) eqn:E3; [rewrite needs_arm by auto; exact (arm_process_ok ls st F O G)|]. destruct (cpuf_arm m) eqn:E4; [rewrite needs_arm by auto; exact (arm_process_ok ls st F O G)|].
  rewrite (process_full 64 sha256_comp ltac:(lia) st ls F NE). rewrite (proj1 (fold_comp ls st F O G)). reflexivity.
Qed.
(** any whole number of blocks *)
Lemma split_blocks : forall k (b : bytes), lenN b = 64 * N.of_nat k -> bytes_ok b -> exists ls, b = concat ls /\ full 64 ls /\ Forall bytes_ok ls /\ List.length ls = k.
Proof.
  induction k as [|k IH]; intros b L O.
  - exists []. destruct b; [|rewrite lenN_cons in L; lia]. repeat split; constructor.
  - destruct (IH (dropN 64 b)) as (ls & E & F & OL & LL); [rewrite lenN_dropN; lia|now apply dropN_ok'|]. exists (takeN 64 b :: ls). split; [cbn [concat]; rewrite <- E; symmetry; apply takeN_dropN|].
    split; [constructor; [rewrite lenN_takeN; lia|exact F]|]. split; [constructor; [now apply takeN_ok'|exact OL]|]. cbn [List.length]. now rewrite LL.
Qed.
Lemma pb_eq : forall m b k st, honest m -> lenN b = 64 * k -> 0 < k -> bytes_ok b -> good ops256 st ->
  process_blocks_on m st b = process_blocks 64 sha256_comp st b /\ exists h, process_blocks 64 sha256_comp st b = Ret h /\ good ops256 h.
Proof.
  intros m b k st H L K O G. destruct (split_blocks (N.to_nat k) b ltac:(lia) O) as (ls & -> & F & OL & LL). assert (NE : ls <> []) by (intros ->; cbn in LL; lia).
  destruct (fold_comp ls st F OL G) as [E G']. rewrite (process_full 64 sha256_comp ltac:(lia) st ls F NE). rewrite (blocks_on m ls st H NE F OL G), E. split; [reflexivity|]. eexists. split; [reflexivity|exact G'].
Qed.
(** * The engine *)
Lemma state_good : forall h0 n0 m e, absorbed 64 sha256_comp h0 n0 m e -> good ops256 h0 -> bytes_ok m -> good ops256 (e_h e) /\ exists r, bytes_ok r /\ lenN r < 64 /\ lenN (e_buf e) = 64 /\ takeN (lenN r) (e_buf e) = r /\ e_n e mod 64 = lenN r.
Proof.
  intros h0 n0 m e (ls & r & E & F & R & Z & EH & EN & LB & TB) G OK. subst m. apply bytes_ok_app in OK as [OL OR].
  assert (FO : Forall bytes_ok ls).
  { clear -OL. induction ls as [|b ls IH]; constructor; cbn [concat] in OL; apply bytes_ok_app in OL as [A B]; auto. }
  split; [rewrite EH; destruct (fold_comp ls h0 F FO G) as [-> G']; exact G'|]. exists r. repeat split; auto. rewrite EN. now apply mod_rest.
Qed.
Lemma input_eq : forall m h0 n0 msg e x, honest m -> absorbed 64 sha256_comp h0 n0 msg e -> good ops256 h0 -> bytes_ok msg -> bytes_ok x -> input_on m e x = sha256_input e x.
Proof.
  intros m h0 n0 msg e x H A G OK OX. destruct (state_good _ _ _ _ A G OK) as (GH & r & OR & LR & LB & TB & EN). unfold input_on, sha256_input, input, incomplete_block_len. rewrite EN.
  destruct (u64_ck (e_n e + lenN x)) as [n|]; cbn [rbind]; [|reflexivity]. destruct (lenN r + lenN x <? 64) eqn:S; [reflexivity|]. apply N.ltb_ge in S.
  assert (TAIL : forall b h y, good ops256 h -> bytes_ok y ->
    rbind (if 0 <? lenN y / 64 * 64 then process_blocks_on m h (takeN (lenN y / 64 * 64) y) else Ret h) (fun h => rbind (copy_in 0 (dropN (lenN y / 64 * 64) y) b) (fun b => Ret (mk_engine b h n))) =
    rbind (if 0 <? lenN y / 64 * 64 then process_blocks 64 sha256_comp h (takeN (lenN y / 64 * 64) y) else Ret h) (fun h => rbind (copy_in 0 (dropN (lenN y / 64 * 64) y) b) (fun b => Ret (mk_engine b h n)))).
  { intros b h y GG OY. destruct (N.ltb_spec 0 (lenN y / 64 * 64)) as [P|P]; [|reflexivity].
    assert (LE : lenN y / 64 * 64 <= lenN y) by (rewrite N.mul_comm; apply N.mul_div_le; discriminate). set (q := lenN y / 64) in *. clearbody q.
    rewrite (proj1 (pb_eq m (takeN (q * 64) y) q h H ltac:(rewrite lenN_takeN; lia) ltac:(lia) (takeN_ok' _ _ OY) GG)). reflexivity. }
  destruct (N.ltb_spec 0 (lenN r)) as [P|P]; cbn [rbind].
  - destruct (N.leb_spec (64 - lenN r) (lenN x)) as [Q|]; [|reflexivity]. 
    assert (LT : lenN (takeN (64 - lenN r) x) = 64 - lenN r) by (rewrite lenN_takeN; lia).
    assert (B : copy_in (lenN r) (takeN (64 - lenN r) x) (e_buf e) = Ret (r ++ takeN (64 - lenN r) x)).
    { rewrite copy_in_ok by (rewrite LT; lia). rewrite TB, LT. rewrite (dropN_all _ (e_buf e)) by lia. now rewrite app_nil_r. }
    rewrite B. cbn [rbind]. destruct (pb_eq m (r ++ takeN (64 - lenN r) x) 1 (e_h e) H) as (E & h & EH & GG); [rewrite lenN_app, LT; lia|lia|apply bytes_ok_app; split; [exact OR|now apply takeN_ok']|exact GH|].
    rewrite E, EH. cbn [rbind]. apply TAIL; [exact GG|now apply dropN_ok'].
  - apply TAIL; auto.
Qed.
Lemma zeros_ok : forall n, bytes_ok (repeat 0 n).
Proof. intro n. unfold bytes_ok. apply Forall_forall. intros x I. apply repeat_spec in I. subst. reflexivity. Qed.
Lemma finalize_eq : forall m h0 n0 msg e, honest m -> absorbed 64 sha256_comp h0 n0 msg e -> good ops256 h0 -> bytes_ok msg -> finalize_on m e = sha256_finalize e.
Proof.
  intros m h0 n0 msg e H A G OK. destruct (state_good _ _ _ _ A G OK) as (GH & r & OR & LR & LB & TB & EN). unfold finalize_on, sha256_finalize, finalize_md, incomplete_block_len. rewrite EN.
  rewrite copy_in_ok by (change (lenN [128]) with 1; lia). change (lenN [128]) with 1. cbn [rbind]. rewrite TB. set (b1 := r ++ [128] ++ dropN (lenN r + 1) (e_buf e)).
  assert (L1 : lenN b1 = 64) by (unfold b1; rewrite !lenN_app, lenN_dropN; change (lenN [128]) with 1; lia).
  assert (T1 : takeN (lenN r + 1) b1 = r ++ [128]) by (unfold b1; rewrite app_assoc; rewrite takeN_app_le by (rewrite lenN_app; change (lenN [128]) with 1; lia); apply takeN_all; rewrite lenN_app; change (lenN [128]) with 1; lia).
  unfold fill_from. destruct (N.leb_spec (lenN r + 1) (lenN b1)); [|lia]. cbn [rbind]. rewrite T1, L1. clearbody b1. set (b2 := (r ++ [128]) ++ repeat 0 (N.to_nat (64 - (lenN r + 1)))).
  assert (L2 : lenN b2 = 64) by (unfold b2; rewrite !lenN_app; unfold lenN at 3; rewrite repeat_length; change (lenN [128]) with 1; lia).
  assert (O2 : bytes_ok b2) by (unfold b2; apply bytes_ok_app; split; [apply bytes_ok_app; split; [exact OR|constructor; [reflexivity|constructor]]|apply zeros_ok]). clearbody b2.
  assert (LAST : forall h b, good ops256 h -> bytes_ok b -> lenN b = 64 ->
    rbind (u64_ck (8 * e_n e)) (fun bits => rbind (copy_in (64 - 8) (be_bytes 8 bits) b) (fun b => rbind (process_blocks_on m h b) (fun h => Ret (to_be_words 4 h)))) =
    rbind (rbind (u64_ck (8 * e_n e)) (fun bits => rbind (copy_in (64 - 8) (be_bytes 8 bits) b) (fun b => process_blocks 64 sha256_comp h b))) (fun st => Ret (to_be_words 4 st))).
  { intros h b GG OB L. destruct (u64_ck (8 * e_n e)) as [bits|]; cbn [rbind]; [|reflexivity]. assert (L8 : lenN (be_bytes 8 bits) = 8) by apply be_bytes_len.
    assert (O8 : bytes_ok (be_bytes 8 bits)) by apply be_bytes_ok. set (e8 := be_bytes 8 bits) in *. clearbody e8.
    rewrite copy_in_ok by (rewrite L8; lia). cbn [rbind]. rewrite L8. set (b3 := takeN (64 - 8) b ++ e8 ++ dropN (64 - 8 + 8) b).
    assert (L3 : lenN b3 = 64 * 1) by (unfold b3; rewrite !lenN_app, lenN_takeN, lenN_dropN, L8; lia).
    assert (O3 : bytes_ok b3) by (unfold b3; apply bytes_ok_app; split; [apply takeN_ok'; exact OB|apply bytes_ok_app; split; [exact O8|apply dropN_ok'; exact OB]]). clearbody b3.
    rewrite (proj1 (pb_eq m b3 1 h H L3 ltac:(lia) O3 GG)). reflexivity. }
  destruct (N.leb_spec (64 - 8) (lenN r)) as [P|P]; cbn [rbind].
  - destruct (pb_eq m b2 1 (e_h e) H ltac:(lia) ltac:(lia) O2 GH) as (E & h & EH & GG). rewrite E, EH. cbn [rbind]. unfold fill_to. rewrite L2. change (64 - 8 <=? 64) with true. cbn match. cbn [rbind].
    apply LAST; [exact GG|apply bytes_ok_app; split; [apply zeros_ok|now apply dropN_ok']|]. rewrite lenN_app, lenN_dropN, L2. unfold lenN. rewrite repeat_length. reflexivity.
  - apply LAST; auto.
Qed.
Lemma iv_good : good ops256 sha256_iv.
Proof. rewrite (proj1 ivs). exact (proj1 good_iv). Qed.
Lemma input_all_eq : forall m pieces msg e, honest m -> absorbed 64 sha256_comp sha256_iv 0 msg e -> bytes_ok msg -> bytes_ok (concat pieces) -> lenN msg + lenN (concat pieces) < 2 ^ 64 ->
  exists e', input_all_on m e pieces = Ret e' /\ absorbed 64 sha256_comp sha256_iv 0 (msg ++ concat pieces) e'.
Proof.
  intros m. induction pieces as [|p ps IH]; intros msg e H A OM OP L; cbn [input_all_on concat] in *.
  - exists e. rewrite app_nil_r. auto.
  - apply bytes_ok_app in OP as [OP OPS]. rewrite lenN_app in L. rewrite (input_eq m _ _ _ _ _ H A iv_good OM OP). unfold sha256_input.
    destruct (input_absorbed 64 sha256_comp ltac:(lia) sha256_iv 0 msg e p A ltac:(lia)) as (e1 & E1 & A1). rewrite E1. cbn [rbind].
    destruct (IH (msg ++ p) e1 H A1 ltac:(apply bytes_ok_app; auto) OPS ltac:(rewrite lenN_app; lia)) as (e2 & E2 & A2). exists e2. split; [exact E2|]. now rewrite <- app_assoc in A2.
Qed.
Lemma hash_on_ok : forall m pieces, honest m -> bytes_ok (concat pieces) -> lenN (concat pieces) < 2 ^ 61 -> hash_chunks_on m pieces = Ret (SHA256 (concat pieces)).
Proof.
  intros m pieces H O L. unfold hash_chunks_on. destruct (input_all_eq m pieces [] sha256_new H (new_absorbed 64 sha256_comp ltac:(lia) sha256_iv) ltac:(constructor) O) as (e & E & A).
  - change (lenN (@nil N)) with 0. apply (N.lt_trans _ (2 ^ 61)); [lia|reflexivity].
  - rewrite E. cbn [rbind]. cbn [app] in A. rewrite (finalize_eq m _ _ _ _ H A iv_good O). now apply finalize256_spec.
Qed.
(** * The batches *)
Section Many.
  Variable inputs : list bytes.
  Hypothesis FI : Forall (fun b => bytes_ok b /\ lenN b = 64) inputs.
  Definition done (oi : list bytes * N) : Prop :=
    lenN (fst oi) = lenN inputs /\ Forall (fun o => lenN o = 32) (fst oi) /\ snd oi <= lenN inputs /\ takeN (snd oi) (fst oi) = map SHA256d (takeN (snd oi) inputs).
  Definition right (n : N) (way : list bytes -> list bytes -> rust (list bytes)) : Prop :=
    forall o i, lenN o = n -> lenN i = n -> Forall (fun x => lenN x = 32) o -> Forall (fun b => bytes_ok b /\ lenN b = 64) i -> way o i = Ret (map SHA256d i).
  Lemma in_takeN : forall A n (l : list A) x, In x (takeN n l) -> In x l.
  Proof. intros A n l x I. rewrite <- (takeN_dropN n l). apply in_or_app. auto. Qed.
  Lemma in_dropN : forall A n (l : list A) x, In x (dropN n l) -> In x l.
  Proof. intros A n l x I. rewrite <- (takeN_dropN n l). apply in_or_app. auto. Qed.
  Lemma sub_all : forall A (P : A -> Prop) n i l, Forall P l -> Forall P (takeN n (dropN i l)).
  Proof. intros A P n i l F. rewrite Forall_forall in *. intros x I. apply F. apply in_takeN in I. now apply in_dropN in I. Qed.
  Lemma take_more : forall A i n (l : list A), takeN (i + n) l = takeN i l ++ takeN n (dropN i l).
  Proof. intros A i n l. unfold takeN, dropN. replace (N.to_nat (i + n)) with (N.to_nat i + N.to_nat n)%nat by lia. revert l. induction (N.to_nat i) as [|k IH]; intro l; [reflexivity|]. destruct l; cbn [firstn skipn Nat.add app]; [now rewrite firstn_nil|]. f_equal. apply IH. Qed.
  Lemma many_loop_ok : forall n way fuel outs i, 0 < n -> right n way -> done (outs, i) -> lenN inputs - i < N.of_nat fuel ->
    exists oi, many_loop fuel n way inputs outs i = Ret oi /\ done oi /\ lenN inputs - snd oi < n.
  Proof.
    intros n way. induction fuel as [|f IH]; intros outs i N0 R D FU; [lia|]. cbn [many_loop]. destruct (N.leb_spec n (lenN inputs - i)) as [LE|GT].
    - destruct D as (L & F32 & I & T). cbn [fst snd] in *.
      assert (LO : lenN (takeN n (dropN i outs)) = n) by (rewrite lenN_takeN, lenN_dropN; lia). assert (LI : lenN (takeN n (dropN i inputs)) = n) by (rewrite lenN_takeN, lenN_dropN; lia).
      rewrite (R _ _ LO LI (sub_all _ _ n i outs F32) (sub_all _ _ n i inputs FI)). cbn [rbind].
      assert (LT : lenN (takeN i outs) = i) by (rewrite lenN_takeN; lia). assert (LM : lenN (map SHA256d (takeN n (dropN i inputs))) = n) by (unfold lenN; rewrite map_length; exact LI).
      apply IH; [exact N0|exact R| |lia]. split; [|split; [|split]]; cbn [fst snd].
      + rewrite !lenN_app, LT, LM, lenN_dropN. lia.
      + apply Forall_app. split; [rewrite Forall_forall in *; intros x X; apply F32; now apply in_takeN in X|]. apply Forall_app. split; [|rewrite Forall_forall in *; intros x X; apply F32; now apply in_dropN in X].
        apply Forall_forall. intros x X. apply in_map_iff in X as (y & <- & Y). rewrite Forall_forall in FI. destruct (FI y) as [OY LY]; [apply in_takeN in Y; now apply in_dropN in Y|]. exact (proj1 (d_len y OY)).
      + lia.
      + rewrite (take_more _ i n inputs), map_app, <- T. rewrite app_assoc. rewrite takeN_app_le by (rewrite lenN_app, LT, LM; lia). apply takeN_all. rewrite lenN_app, LT, LM. lia.
    - exists (outs, i). split; [reflexivity|]. split; [exact D|exact GT].
  Qed.
  Lemma many_if_ok : forall c n way oi, 0 < n -> (c = true -> right n way) -> done oi -> exists oi', many_if c n way inputs oi = Ret oi' /\ done oi' /\ (c = true -> lenN inputs - snd oi' < n).
  Proof.
    intros c n way [outs i] N0 R D. unfold many_if. destruct c; [|exists (outs, i); split; [reflexivity|]; split; [exact D|discriminate]].
    cbn [fst snd]. destruct (many_loop_ok n way (S (List.length inputs)) outs i N0 (R eq_refl) D) as (oi & E & D' & X); [unfold lenN; lia|]. exists oi. auto.
  Qed.
End Many.
Lemma len2 : forall A (l : list A), lenN l = 2 -> exists a b, l = [a; b].
Proof. intros A l L. destruct l as [|a l]; [discriminate|]. destruct l as [|b l]; [discriminate|]. destruct l as [|c l]; [|rewrite !lenN_cons in L; lia]. exists a, b. reflexivity. Qed.
Lemma many_on : forall m (outs inputs : list bytes), honest m -> lenN outs = lenN inputs -> Forall (fun o => lenN o = 32) outs -> Forall (fun b => bytes_ok b /\ lenN b = 64) inputs ->
  sha256d_64_on m outs inputs = Ret (map SHA256d inputs).
Proof.
  intros m outs inputs H L FO FI. unfold sha256d_64_on. rewrite (proj2 (N.eqb_eq _ _) L). cbn [negb]. cbv zeta.
  assert (two : forall way, (forall o1 o2 b1 b2, lenN o1 = 32 -> lenN o2 = 32 -> bytes_ok b1 -> bytes_ok b2 -> lenN b1 = 64 -> lenN b2 = 64 -> way [o1; o2] [b1; b2] = Ret [SHA256d b1; SHA256d b2]) -> right 2 way).
  { intros way W o i LO LI F32 F64. apply len2 in LO as (o1 & o2 & ->). apply len2 in LI as (b1 & b2 & ->). inversion F32 as [|? ? A1 F]; subst. inversion F; subst. inversion F64 as [|? ? [B1 C1] F']; subst. inversion F' as [|? ? [B2 C2] _]; subst. cbn [map]. apply W; auto. }
  assert (D0 : done inputs (outs, 0)) by (split; [exact L|]; split; [exact FO|]; split; [cbn [snd]; lia|reflexivity]).
  assert (RN : std_ni m = true \/ cpuf_ni m = true -> right 2 (fun o i => needs m ni_features (ni_sha256d_64_2way o i))).
  { intros X. apply two. intros. rewrite needs_ni by auto. now apply ni_two_ok. }
  assert (RA : std_arm m = true \/ cpuf_arm m = true -> right 2 (fun o i => needs m arm_features (arm_sha256d_64_2way o i))).
  { intros X. apply two. intros. rewrite needs_arm by auto. now apply arm_two_ok. }
  assert (RV : std_avx m = true \/ cpuf_avx m = true -> right 8 (fun o i => needs m avx_features (Ret (avx_sha256d_64_8way o i)))).
  { intros X o i LO LI A B. rewrite needs_avx by auto. f_equal. apply avx_ok; auto; unfold lenN in *; unfold bytes in *; lia. }
  assert (RS : std_sse m = true \/ cpuf_sse m = true -> right 4 (fun o i => needs m sse_features (Ret (sse_sha256d_64_4way o i)))).
  { intros X o i LO LI A B. rewrite needs_sse by auto. f_equal. apply sse_ok; auto; unfold lenN in *; unfold bytes in *; lia. }
  assert (R1 : right 1 soft_way).
  { intros o i LO LI A B. unfold soft_way. f_equal. apply map_ext_in. intros b I. rewrite Forall_forall in B. destruct (B b I). now apply sha256d_64_spec. }
  destruct (many_if_ok inputs FI (std_ni m) 2 _ (outs, 0) ltac:(lia) (fun E => RN (or_introl E)) D0) as (o1 & -> & D1 & _). cbn [rbind].
  destruct (many_if_ok inputs FI (cpuf_ni m) 2 _ o1 ltac:(lia) (fun E => RN (or_intror E)) D1) as (o2 & -> & D2 & _). cbn [rbind].
  destruct (many_if_ok inputs FI (std_arm m) 2 _ o2 ltac:(lia) (fun E => RA (or_introl E)) D2) as (o3 & -> & D3 & _). cbn [rbind].
  destruct (many_if_ok inputs FI (cpuf_arm m) 2 _ o3 ltac:(lia) (fun E => RA (or_intror E)) D3) as (o4 & -> & D4 & _). cbn [rbind].
  destruct (many_if_ok inputs FI (std_avx m) 8 _ o4 ltac:(lia) (fun E => RV (or_introl E)) D4) as (o5 & -> & D5 & _). cbn [rbind].
  destruct (many_if_ok inputs FI (cpuf_avx m) 8 _ o5 ltac:(lia) (fun E => RV (or_intror E)) D5) as (o6 & -> & D6 & _). cbn [rbind].
  destruct (many_if_ok inputs FI (std_sse m) 4 _ o6 ltac:(lia) (fun E => RS (or_introl E)) D6) as (o7 & -> & D7 & _). cbn [rbind].
  destruct (many_if_ok inputs FI (cpuf_sse m) 4 _ o7 ltac:(lia) (fun E => RS (or_intror E)) D7) as (o8 & -> & D8 & _). cbn [rbind].
  destruct (many_if_ok inputs FI true 1 _ o8 ltac:(lia) (fun _ => R1) D8) as (o9 & -> & D9 & X). cbn [rbind]. specialize (X eq_refl). destruct D9 as (LO & _ & I & T).
  f_equal. rewrite !takeN_all in T by lia. exact T.
Qed.
