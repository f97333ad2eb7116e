(** Lemmas for C30: canonical filters, sets of elements, sequences of reads and writes. *)
From Coq Require Import Permutation Sorting.Sorted.
From Verif Require Import Base MDec MWitness MTx MSip MScript MBip152 SWire SSip LDec LDrive LCompact LCodec LBuilt LWire PSip LBip152 MBip158 SBip158 LBip158 LBip158b LBip158c.
Local Open Scope N_scope.

Lemma sorted_unique : forall l l', StronglySorted N.le l -> StronglySorted N.le l' -> Permutation l l' -> l = l'.
Proof.
  induction l as [|a l IH]; intros l' S1 S2 P; [symmetry; now apply Permutation_nil|]. destruct l' as [|b l']; [apply Permutation_sym, Permutation_nil in P; discriminate|].
  assert (a = b) as ->. { assert (I : In b (a :: l)) by (apply (Permutation_in _ (Permutation_sym P)); left; reflexivity). assert (J : In a (b :: l')) by (apply (Permutation_in _ P); left; reflexivity).
    pose proof (sorted_head _ _ _ S1 I). pose proof (sorted_head _ _ _ S2 J). lia. }
  f_equal. inversion S1; subst. inversion S2; subst. apply IH; auto. now apply Permutation_cons_inv in P.
Qed.
Lemma filter_unique : forall k0 k1 m p els els' c c', Permutation els els' -> is_filter k0 k1 m p els c -> is_filter k0 k1 m p els' c' -> c = c'.
Proof.
  intros k0 k1 m p els els' c c' P (vs & pad & P1 & L1 & S1 & _ & body & -> & O1 & B1) (vs' & pad' & P2 & L2 & S2 & _ & body' & -> & O2 & B2).
  assert (LE : lenN els = lenN els') by (unfold lenN; now rewrite (Permutation_length P)).
  assert (vs = vs') as <-. { apply sorted_unique; auto. rewrite P1, P2, LE. apply Permutation_map. exact P. }
  f_equal. assert (LB := f_equal (@length _) B1). assert (LB' := f_equal (@length _) B2). rewrite bits_bytes_len, app_length, repeat_length in LB, LB'. assert (pad = pad') as <- by lia.
  rewrite <- B2 in B1. destruct (bytes_prefix body body' [] O1 O2) as (r & -> & _ & R); [now rewrite app_nil_r|]. destruct r as [|x r]; [apply app_nil_r|discriminate].
Qed.

(** ** Sets of elements *)
Lemma existsb_in : forall e els, existsb (beqb e) els = true <-> In e els.
Proof. intros e els. rewrite existsb_exists. split; [intros (x & I & B); apply beqb_eq in B; now subst|]. intro I. exists e. split; [exact I|now apply beqb_eq]. Qed.
Lemma add_element_spec : forall els e, NoDup els -> NoDup (add_element els e) /\ (forall x, In x (add_element els e) <-> In x els \/ x = e /\ x <> []) /\ lenN (add_element els e) <= lenN els + 1.
Proof.
  intros els e Nd. unfold add_element. destruct e as [|b e]; [split; [exact Nd|split; [intro x; intuition congruence|lia]]|]. set (s := b :: e). assert (Ns : s <> []) by discriminate. clearbody s.
  destruct (existsb (beqb s) els) eqn:Ex.
  - apply existsb_in in Ex. split; [exact Nd|]. split; [|lia]. intro x. split; [auto|]. intros [I|[-> _]]; auto.
  - assert (Ni : ~ In s els) by (rewrite <- existsb_in; congruence). split; [|split].
    + apply (Permutation_NoDup (l := s :: els)); [apply Permutation_cons_append|]. constructor; auto.
    + intro x. rewrite in_app_iff. cbn [In]. split; [intros [I|[<-|[]]]; auto|intros [I|[-> _]]; auto].
    + rewrite lenN_app. apply N.le_refl.
Qed.
Lemma add_all_spec : forall l els, NoDup els -> let r := fold_left add_element l els in NoDup r /\ (forall x, In x r <-> In x els \/ In x l /\ x <> []) /\ lenN r <= lenN els + lenN l.
Proof.
  induction l as [|e l IH]; intros els Nd; cbn [fold_left]; [split; [exact Nd|split; [intro x; cbn; tauto|rewrite lenN_nil; lia]]|].
  destruct (add_element_spec els e Nd) as (N1 & I1 & L1). destruct (IH _ N1) as (N2 & I2 & L2). cbn zeta in *. split; [exact N2|]. split; [|rewrite lenN_cons; lia]. intro x. rewrite I2, I1. cbn [In]. intuition (subst; auto).
Qed.
Definition kept (b : block) : list bytes := filter (fun s => negb (is_op_return s)) (map to_script (flat_map tx_outputs (b_txs b))).
Lemma outputs_fold : forall b els, add_output_scripts b els = fold_left add_element (kept b) els.
Proof.
  intros b els. unfold add_output_scripts, kept. revert els. induction (b_txs b) as [|tx txs IH]; intro els; [reflexivity|]. cbn [fold_left flat_map]. rewrite map_app, filter_app, fold_left_app, IH. f_equal.
  clear IH. revert els. induction (tx_outputs tx) as [|o os IHo]; intro els; [reflexivity|]. cbn [fold_left map filter]. destruct (is_op_return (to_script o)); cbn [negb fold_left]; apply IHo.
Qed.
Lemma op_return_iff : forall s, is_op_return s = false <-> forall r, s <> 106 :: r.
Proof.
  intros [|c s]; cbn [is_op_return]; [split; [discriminate|reflexivity]|]. change OP_RETURN with 106. destruct (N.eqb_spec c 106) as [->|Ne]; split; intro H; try discriminate; try reflexivity; [now destruct (H s)|congruence].
Qed.
Lemma kept_in : forall b s, In s (kept b) <-> output_script b s.
Proof.
  intros b s. unfold kept, output_script. rewrite filter_In, in_map_iff. split.
  - intros [(o & <- & I) Op]. apply in_flat_map in I. destruct I as (tx & T & I). exists tx, o. split; [exact T|]. split; [exact I|]. split; [reflexivity|]. apply op_return_iff. now destruct (is_op_return (to_script o)).
  - intros (tx & o & T & I & <- & Op). apply op_return_iff in Op. rewrite Op. split; [|reflexivity]. exists o. split; [reflexivity|]. apply in_flat_map. exists tx. auto.
Qed.
Lemma filter_len : forall A (f : A -> bool) l, lenN (filter f l) <= lenN l.
Proof. intros A f l. induction l as [|x l IH]; [cbn; lia|]. cbn [filter]. destruct (f x); rewrite ?lenN_cons; lia. Qed.
Lemma add_scripts_ok : forall E (coin : outpoint -> result bytes E) ops els, (forall o, In o ops -> exists s, coin o = Ok s) ->
  exists ss, Forall2 (fun o s => coin o = Ok s) ops ss /\ add_scripts coin ops els = Ok (fold_left add_element ss els).
Proof.
  intros E coin. induction ops as [|o ops IH]; intros els H; [exists []; split; [constructor|reflexivity]|]. destruct (H o (or_introl eq_refl)) as [s Es]. cbn [add_scripts]. rewrite Es.
  destruct (IH (add_element els s)) as (ss & F & ->); [intros o' I; apply H; right; exact I|]. exists (s :: ss). split; [constructor; auto|reflexivity].
Qed.
Lemma add_scripts_err : forall E (coin : outpoint -> result bytes E) pre o post e els, (forall o', In o' pre -> exists s, coin o' = Ok s) -> coin o = Err e -> add_scripts coin (pre ++ o :: post) els = Err e.
Proof.
  intros E coin. induction pre as [|a pre IH]; intros o post e els H He; cbn [app add_scripts]; [now rewrite He|]. destruct (H a (or_introl eq_refl)) as [s ->]. apply IH; auto. intros o' I. apply H. right. exact I.
Qed.
Lemma spent_coins_eq : forall b, flat_map (fun t => map ti_prevout (tx_inputs t)) (skipn 1 (b_txs b)) = spent_coins b.
Proof. intro b. unfold spent_coins. destruct (b_txs b); reflexivity. Qed.
Lemma fst_in : forall E (coin : outpoint -> result bytes E) ops ss, Forall2 (fun o s => coin o = Ok s) ops ss -> forall s, In s ss <-> exists o, In o ops /\ coin o = Ok s.
Proof.
  intros E coin ops ss F. induction F as [|o s ops ss H F IH]; intro x; [split; [intros []|intros (o & [] & _)]|]. cbn [In]. rewrite IH. split.
  - intros [<-|(o' & I & C)]; [exists o; auto|exists o'; auto].
  - intros (o' & [<-|I] & C); [left; congruence|right; exists o'; auto].
Qed.
Lemma f2_len : forall A B (R : A -> B -> Prop) l l', Forall2 R l l' -> lenN l = lenN l'.
Proof. intros A B R l l' F. induction F; [reflexivity|]. rewrite !lenN_cons. lia. Qed.

(** ** Sequences of reads and writes *)
Lemma write_all_spec : forall l w, w_ok w -> Forall (fun x => snd x <= 64) l ->
  exists w' k, write_all w l = Ok (w', k) /\ w_ok w' /\ wbits w' = wbits w ++ flat_map (fun x => bits_of (N.to_nat (snd x)) (fst x)) l /\ lenN (bw_out w') = lenN (bw_out w) + k.
Proof.
  induction l as [|[d n] l IH]; intros w W F; cbn [write_all flat_map fst snd]; [exists w, 0; rewrite app_nil_r, N.add_0_r; auto|].
  pose proof (Forall_inv F) as Fn. cbn [snd] in Fn. destruct (bw_write_spec w d n W Fn) as (w1 & k1 & -> & W1 & X1 & L1). destruct (IH w1 W1 (Forall_inv_tail F)) as (w2 & k2 & -> & W2 & X2 & L2).
  exists w2, (k1 + k2). rewrite X2, X1, <- app_assoc, L2, L1. split; [reflexivity|]. split; [exact W2|]. split; [reflexivity|lia].
Qed.
Lemma finish_bits : forall w out, w_ok w -> bytes_ok out -> forall s, wbits w = bits_of_bytes out ++ s ->
  exists body pad, fst (bw_flush w) = mk_bw (bw_buf (fst (bw_flush w))) 0 (out ++ body) /\ bytes_ok body /\ bits_of_bytes body = s ++ repeat false pad /\ (pad < 8)%nat /\
    lenN (out ++ body) = lenN (bw_out w) + snd (bw_flush w).
Proof.
  intros w out (O & H & L & B) Oo s E. pose proof (flush_spec w ltac:(lia) H L B) as FS. destruct (bw_flush w) as [w2 n]. cbn [fst snd]. destruct FS as ((_ & _ & _ & B2) & Z & X & Ln).
  rewrite E in X. unfold wbits in X. rewrite Z in X. change (N.to_nat 0) with 0%nat in X. cbn [bits_of] in X. rewrite app_nil_r, <- app_assoc in X. destruct (bytes_prefix _ _ _ B2 Oo X) as (body & Eb & Ob & Xb).
  exists body, (if bw_off w =? 0 then 0%nat else N.to_nat (8 - bw_off w)). split; [destruct w2 as [b2 o2 t2]; cbn [bw_buf bw_off bw_out] in *; congruence|]. split; [exact Ob|]. split; [exact Xb|]. split; [destruct (N.eqb_spec (bw_off w) 0); lia|]. rewrite <- Eb, Ln. reflexivity.
Qed.
Lemma read_all_spec : forall l r y, r_ok r -> Forall (fun n => n <= 64) l -> forall xs, Forall2 (fun n x => length x = N.to_nat n) l xs -> rbits r = concat xs ++ y ->
  exists vs r', read_all r l = Ok (vs, r') /\ r_ok r' /\ rbits r' = y /\ Forall2 (fun v x => v < 2 ^ N.of_nat (length x) /\ bits_of (length x) v = x) vs xs.
Proof.
  induction l as [|n l IH]; intros r y R F xs F2 E; inversion F2 as [|? x ? xs' Lx F2']; subst; cbn [read_all concat app] in *; [exists [], r; auto|].
  rewrite <- app_assoc in E. destruct (proj1 (br_read_spec r n R (Forall_inv F)) x _ E Lx) as (v & r1 & -> & R1 & V & B & Y). destruct (IH r1 y R1 (Forall_inv_tail F) xs' F2' Y) as (vs & r2 & -> & R2 & Y2 & F3).
  exists (v :: vs), r2. split; [reflexivity|]. split; [exact R2|]. split; [exact Y2|]. constructor; [|exact F3]. rewrite Lx, N2Nat.id. auto.
Qed.
Lemma read_all_eof : forall l r, r_ok r -> Forall (fun n => n <= 64) l -> (length (rbits r) < fold_right (fun n k => N.to_nat n + k) 0 l)%nat -> read_all r l = Err UnexpectedEof.
Proof.
  induction l as [|n l IH]; intros r R F L; cbn [fold_right read_all] in *; [lia|]. destruct (Nat.lt_ge_cases (length (rbits r)) (N.to_nat n)) as [S1|S1].
  - now rewrite (proj2 (br_read_spec r n R (Forall_inv F)) S1).
  - destruct (proj1 (br_read_spec r n R (Forall_inv F)) (firstn (N.to_nat n) (rbits r)) (skipn (N.to_nat n) (rbits r)) ltac:(now rewrite firstn_skipn) ltac:(rewrite firstn_length; lia)) as (v & r1 & -> & R1 & _ & _ & Y).
    rewrite IH; auto; [exact (Forall_inv_tail F)|]. rewrite Y, skipn_length. lia.
Qed.
Lemma encode_all_spec : forall p l w, p < 64 -> w_ok w ->
  exists w' k, encode_all p w l = Ret (Ok (w', k)) /\ w_ok w' /\ wbits w' = wbits w ++ flat_map (golomb p) l /\ lenN (bw_out w') = lenN (bw_out w) + k.
Proof.
  intros p. induction l as [|n l IH]; intros w P W; cbn [encode_all flat_map]; [exists w, 0; rewrite app_nil_r, N.add_0_r; auto|].
  destruct (golomb_encode_spec p w n W P) as (w1 & k1 & -> & W1 & X1 & L1). cbn [rbind]. destruct (IH w1 P W1) as (w2 & k2 & -> & W2 & X2 & L2). cbn [rbind].
  exists w2, (k1 + k2). rewrite X2, X1, <- app_assoc, L2, L1. split; [reflexivity|]. split; [exact W2|]. split; [reflexivity|lia].
Qed.
Lemma decode_all_spec : forall p l r y, p < 64 -> r_ok r -> Forall (fun n => n < 2 ^ 64) l -> rbits r = flat_map (golomb p) l ++ y ->
  exists r', decode_all p r (length l) = Ret (Ok (l, r')) /\ r_ok r' /\ rbits r' = y.
Proof.
  intros p. induction l as [|n l IH]; intros r y P R F E; cbn [decode_all flat_map length app] in *; [exists r; auto|]. rewrite <- app_assoc in E.
  destruct (golomb_decode_spec p r n _ R P (Forall_inv F) E) as (r1 & -> & R1 & Y1). cbn [rbind]. destruct (IH r1 y P R1 (Forall_inv_tail F) Y1) as (r2 & -> & R2 & Y2). cbn [rbind]. exists r2. auto.
Qed.
Lemma take_drop_ok : forall n l, bytes_ok l -> bytes_ok (takeN n l) /\ bytes_ok (dropN n l).
Proof. intros n l O. rewrite <- (takeN_dropN n l) in O. apply Forall_app in O. exact O. Qed.
Lemma take_ok : forall n l, bytes_ok l -> bytes_ok (takeN n l). Proof. intros n l O. apply take_drop_ok. exact O. Qed.
Lemma drop_ok : forall n l, bytes_ok l -> bytes_ok (dropN n l). Proof. intros n l O. apply (take_drop_ok n). exact O. Qed.
