(** Reading back, request by request *)
From Verif Require Import Base MDec MText MWitness MTx MKey MTaproot MHex SText LText LHex LDec LCodec LBuilt LWitness MSerde SSerde.
From Verif Require MP2p SP2p LP2p.
From Coq Require Import Lia.
Local Open Scope N_scope.
Notation flat := MSerde.flat.

Lemma take_exact : forall n x r, lenN x = n -> take n (x ++ r) = some (x, r).
Proof. intros n x r <-. unfold take. rewrite lenN_app. destruct (N.ltb_spec (lenN x + lenN r) (lenN x)); [lia|]. unfold some. now rewrite takeN_exact, dropN_exact. Qed.
Lemma take_inv : forall n b x r, take n b = Ret (Some (x, r)) <-> b = x ++ r /\ lenN x = n.
Proof.
  intros n b x r. split.
  - unfold take. destruct (N.ltb_spec (lenN b) n); [discriminate|]. intro E. assert (x = takeN n b /\ r = dropN n b) as [-> ->] by (unfold some in E; split; congruence).
    split; [symmetry; apply takeN_dropN|]. rewrite lenN_takeN. lia.
  - intros [-> L]. now apply take_exact.
Qed.
Definition ascii (s : str) : Prop := Forall (fun c => c < 128) s.
Lemma ascii_utf8 : forall s, ascii s -> MP2p.from_utf8 s = Some s /\ MP2p.as_bytes s = s.
Proof.
  intros s A. split.
  - apply LP2p.from_utf8_complete. exists (map (fun c => [c]) s). split.
    + induction A; cbn; constructor; auto. now constructor.
    + clear A. induction s; cbn; [reflexivity|]. cbn in IHs. now rewrite <- IHs.
  - apply as_bytes_ascii. unfold is_ascii. apply forallb_forall. unfold ascii in A. rewrite Forall_forall in A. intros c I. apply N.ltb_lt. now apply A.
Qed.
Lemma hex_ascii : forall up b, bytes_ok b -> ascii (hex_bytes up b).
Proof.
  intros up b B. assert (I : is_ascii (hex_bytes up b) = true) by (apply (hex_of_ascii _ b); now apply hex_bytes_of).
  unfold is_ascii in I. unfold ascii. rewrite Forall_forall. rewrite forallb_forall in I. intros c J. apply N.ltb_lt. now apply I.
Qed.
Lemma rd_len : forall n r, n < 2 ^ 64 -> rd_uint 64 (flat_len n ++ r) = some (n, r).
Proof.
  intros n r L. unfold rd_uint. change (64 / 8) with 8. rewrite take_exact by (unfold flat_len, lenN; now rewrite le_bytes_length).
  cbn [obind some]. unfold flat_len. rewrite le_val_bytes by exact L. reflexivity.
Qed.
Lemma rd_block_back : forall x r, lenN x < 2 ^ 64 -> rd_block (flat_len (lenN x) ++ x ++ r) = some (x, r).
Proof. intros x r L. unfold rd_block. rewrite rd_len by exact L. cbn [obind some]. now apply take_exact. Qed.

(** *** strings and bytes *)
Lemma str_self : forall A bt (k : str -> outcome A) s a, k s = some a -> reads_self (RStr bt k) (SvStr s) a.
Proof. intros A bt k s a K t. exact K. Qed.
Lemma str_compact : forall A bt (k : str -> outcome A) s a, ascii s -> lenN s < 2 ^ 64 -> k s = some a -> reads_compact (RStr bt k) (SvStr s) a.
Proof.
  intros A bt k s a As L K rest. cbn [compact flat]. destruct (ascii_utf8 s As) as [U ->]. rewrite <- app_assoc, rd_block_back by exact L. cbn [obind some].
  rewrite U. unfold keep. rewrite K. reflexivity.
Qed.
Lemma str_restores : forall A bt (k : str -> outcome A) s a, ascii s -> lenN s < 2 ^ 64 -> k s = some a -> restores (RStr bt k) (SvStr s) a.
Proof. intros. split; [now apply str_self|now apply str_compact]. Qed.
Lemma str_offers : forall A bt (k : str -> outcome A) t v a, self t (RStr bt k) v = Ret (Some a) <-> exists s, offers bt v s /\ k s = Ret (Some a).
Proof.
  intros A bt k t v a. split.
  - cbn [self]. destruct v; try discriminate.
    + intro K. exists s. split; [now left|exact K].
    + destruct bt; [|discriminate]. destruct (MP2p.from_utf8 b) as [s|] eqn:U; [|discriminate]. intro K. exists s. split; [right; eauto|exact K].
  - intros (s & [->|[-> (b & -> & U)]] & K); cbn [self]; [exact K|]. now rewrite U.
Qed.
Lemma str_safe : forall A bt (k : str -> outcome A), (forall s, k s <> Panic) -> safe (RStr bt k).
Proof.
  intros A bt k K. split.
  - intros t v. cbn [self]. destruct v; try discriminate; [apply K|]. destruct bt; [|discriminate]. destruct (MP2p.from_utf8 b); [apply K|discriminate].
  - intro b. cbn [compact]. unfold rd_block, rd_uint, take. destruct (_ <? _); [discriminate|]. cbn [obind some]. destruct (_ <? _); [discriminate|]. cbn [obind some].
    destruct (MP2p.from_utf8 _) as [s|]; [|discriminate]. unfold keep. pose proof (K s). destruct (k s) as [[x|]|]; [discriminate|discriminate|congruence].
Qed.
Lemma bytes_restores : forall A (k : bytes -> outcome A) b a, lenN b < 2 ^ 64 -> k b = some a -> restores (RBytes k) (SvBytes b) a.
Proof.
  intros A k b a L K. split; [intro t; exact K|]. intro rest. cbn [compact flat]. rewrite <- app_assoc, rd_block_back by exact L. cbn [obind some]. unfold keep. rewrite K. reflexivity.
Qed.
Lemma bytes_offers : forall A (k : bytes -> outcome A) t v a, self t (RBytes k) v = Ret (Some a) <-> exists b, v = SvBytes b /\ k b = Ret (Some a).
Proof. intros. split; [cbn [self]; destruct v; try discriminate; eauto|]. intros (b & -> & K). exact K. Qed.
Lemma rd_block_safe : forall b, rd_block b <> Panic.
Proof. intro b. unfold rd_block, rd_uint, take. destruct (_ <? _); [discriminate|]. cbn [obind some]. destruct (_ <? _); discriminate. Qed.
Lemma bytes_safe : forall A (k : bytes -> outcome A), (forall s, k s <> Panic) -> safe (RBytes k).
Proof.
  intros A k K. split.
  - intros t v. cbn [self]. destruct v; try discriminate. apply K.
  - intro b. cbn [compact]. pose proof (rd_block_safe b). destruct (rd_block b) as [[[x r]|]|]; [|discriminate|congruence]. cbn [obind]. unfold keep. pose proof (K x). destruct (k x) as [[y|]|]; [discriminate|discriminate|congruence].
Qed.

(** *** numbers *)
Definition width (bits : N) : Prop := bits = 8 \/ bits = 16 \/ bits = 32 \/ bits = 64.
Lemma uint_restores : forall A bits bits' (k : N -> outcome A) n a, width bits -> n < 2 ^ bits -> k n = some a ->
  reads_self (RUint bits k) (SvU bits' n) a /\ reads_compact (RUint bits k) (SvU bits n) a.
Proof.
  intros A bits bits' k n a W L K. split.
  - intro t. cbn [self]. destruct (N.ltb_spec n (2 ^ bits)); [exact K|lia].
  - intro rest. cbn [compact flat]. unfold rd_uint. rewrite take_exact by (unfold uint_bytes, lenN; rewrite le_bytes_length; lia). cbn [obind some].
    unfold uint_bytes. rewrite le_val_bytes. { unfold keep. rewrite K. reflexivity. }
    rewrite N2Nat.id. destruct W as [->|[->|[->| ->]]]; exact L.
Qed.
Lemma uint_offers : forall A bits (k : N -> outcome A) t v a, self t (RUint bits k) v = Ret (Some a) <-> exists w n, v = SvU w n /\ n < 2 ^ bits /\ k n = Ret (Some a).
Proof.
  intros. split.
  - cbn [self]. destruct v; try discriminate. destruct (N.ltb_spec n (2 ^ bits)); [|discriminate]. eauto.
  - intros (w & n & -> & L & K). cbn [self]. destruct (N.ltb_spec n (2 ^ bits)); [exact K|lia].
Qed.
Lemma uint_safe : forall A bits (k : N -> outcome A), (forall n, k n <> Panic) -> safe (RUint bits k).
Proof.
  intros A bits k K. split.
  - intros t v. cbn [self]. destruct v; try discriminate. destruct (N.ltb_spec n (2 ^ bits)); [now apply K|discriminate].
  - intro b. cbn [compact]. unfold rd_uint, take. destruct (N.ltb_spec (lenN b) (bits / 8)); [discriminate|]. cbn [obind some]. unfold keep.
    pose proof (K (le_val (takeN (bits / 8) b))). destruct (k _) as [[y|]|]; [discriminate|discriminate|congruence].
Qed.
Lemma int_restores : forall A bits bits' (k : Z -> outcome A) z a, (bits = 32 \/ bits = 64) -> SP2p.is_i (Z.of_N bits) z -> k z = some a ->
  reads_self (RInt bits k) (SvI bits' z) a /\ reads_compact (RInt bits k) (SvI bits z) a.
Proof.
  intros A bits bits' k z a W [L U] K. split.
  - intro t. cbn [self]. replace (_ && _)%bool with true; [exact K|]. symmetry. apply andb_true_intro. split; [apply Z.leb_le|apply Z.ltb_lt]; assumption.
  - intro rest. cbn [compact flat]. unfold int_bytes. change (MP2p.i_to_le ?n ?z) with (SP2p.twos n z). rewrite take_exact by (rewrite LP2p.twos_len; lia). cbn [obind some].
    rewrite LP2p.twos_back. { unfold keep. rewrite K. reflexivity. }
    all: destruct W as [->| ->]; cbn; try lia; split; assumption.
Qed.
Lemma int_safe : forall A bits (k : Z -> outcome A), (forall z, k z <> Panic) -> safe (RInt bits k).
Proof.
  intros A bits k K. split.
  - intros t v. cbn [self]. destruct v; try discriminate; [destruct (_ <? _)|destruct (_ && _)%bool]; try discriminate; apply K.
  - intro b. cbn [compact]. unfold take. destruct (_ <? _); [discriminate|]. cbn [obind some]. unfold keep. pose proof (K (MP2p.i_from_le (takeN (bits / 8) b))). destruct (k _) as [[y|]|]; [discriminate|discriminate|congruence].
Qed.

(** *** optional values, sequences, pairs, structures, variants *)
Lemma opt_restores_some : forall X (r : req X) v x, restores r v x -> restores (ROpt r) (SvSome v) (Some x).
Proof.
  intros X r v x [S C]. split.
  - intro t. cbn [self]. rewrite S. reflexivity.
  - intro rest. cbn [compact flat]. unfold rd_uint. change (8 / 8) with 1. change ((1 :: flat v) ++ rest) with ([1] ++ (flat v ++ rest)). rewrite take_exact by reflexivity. cbn [obind some].
    change (le_val [1] =? 0) with false. change (le_val [1] =? 1) with true. cbv iota. rewrite C. reflexivity.
Qed.
Lemma opt_restores_none : forall X (r : req X), restores (ROpt r) SvNone None.
Proof. intros X r. split; [intro t; reflexivity|]. intro rest. cbn [compact flat]. unfold rd_uint. change (8 / 8) with 1. change ([0] ++ rest) with ([0] ++ rest). rewrite take_exact by reflexivity. reflexivity. Qed.
Lemma take_safe : forall n b, take n b <> Panic.
Proof. intros. unfold take. destruct (_ <? _); discriminate. Qed.
Lemma rd_uint_safe : forall n b, rd_uint n b <> Panic.
Proof. intros. unfold rd_uint, take. destruct (_ <? _); discriminate. Qed.
Lemma obind_safe : forall A B (m : outcome A) (f : A -> outcome B), m <> Panic -> (forall a, f a <> Panic) -> obind m f <> Panic.
Proof. intros A B m f M F. destruct m as [[a|]|]; cbn [obind]; [apply F|discriminate|congruence]. Qed.
Lemma keep_safe : forall A r (m : outcome A), m <> Panic -> keep r m <> Panic.
Proof. intros. unfold keep. apply obind_safe; [assumption|]. discriminate. Qed.
Lemma opt_safe : forall X (r : req X), safe r -> safe (ROpt r).
Proof.
  intros X r [S C]. split.
  - intros t v. cbn [self]. destruct v; try (destruct t; [discriminate|]); try discriminate; apply obind_safe; try apply S; discriminate.
  - intro b. cbn [compact]. apply obind_safe; [apply rd_uint_safe|]. intros [t b']. destruct (t =? 0); [discriminate|]. destruct (t =? 1); [|discriminate]. apply obind_safe; [apply C|]. intros []; discriminate.
Qed.
Lemma read_all_back : forall X (f : sval -> outcome X) vs xs, Forall2 (fun v x => f v = some x) vs xs -> read_all f vs = some xs.
Proof. intros X f vs xs F. induction F as [|v x vs xs E F IH]; [reflexivity|]. cbn [read_all]. rewrite E. cbn [obind some]. rewrite IH. reflexivity. Qed.
Lemma rd_many_back : forall X (f : bytes -> outcome (X * bytes)) vs xs, Forall2 (fun v x => forall rest, f (flat v ++ rest) = some (x, rest)) vs xs ->
  forall rest, rd_many f (length vs) (flat_map flat vs ++ rest) = some (xs, rest).
Proof.
  intros X f vs xs F. induction F as [|v x vs xs E F IH]; intro rest; [reflexivity|]. cbn [length rd_many flat_map]. rewrite <- app_assoc, E. cbn [obind some]. rewrite IH. reflexivity.
Qed.
Lemma Forall2_impl' : forall A B (P Q : A -> B -> Prop) l m, (forall a b, P a b -> Q a b) -> Forall2 P l m -> Forall2 Q l m.
Proof. intros A B P Q l m I F. induction F; constructor; auto. Qed.
Lemma seq_restores : forall X A (r : req X) (k : list X -> outcome A) vs xs a, Forall2 (restores r) vs xs -> lenN vs < 2 ^ 64 -> k xs = some a -> restores (RSeq r k) (SvSeq vs) a.
Proof.
  intros X A r k vs xs a F L K. split.
  - intro t. cbn [self]. rewrite (read_all_back _ _ vs xs); [exact K|]. eapply Forall2_impl'; [|exact F]. intros v x [S _]. apply S.
  - intro rest. cbn [compact flat]. rewrite <- app_assoc, rd_len by exact L. cbn [obind some]. unfold lenN. rewrite Nat2N.id. rewrite (rd_many_back _ _ vs xs).
    + cbn [obind some]. unfold keep. rewrite K. reflexivity.
    + eapply Forall2_impl'; [|exact F]. intros v x [_ C]. apply C.
Qed.
Lemma read_all_inv : forall X (f : sval -> outcome X) l xs, read_all f l = Ret (Some xs) -> Forall2 (fun v x => f v = Ret (Some x)) l xs.
Proof.
  intros X f. induction l as [|v l IH]; intros xs E; cbn [read_all] in E.
  - assert (xs = []) as -> by (unfold some in E; congruence). constructor.
  - destruct (f v) as [[x|]|] eqn:V; try discriminate. cbn [obind] in E. destruct (read_all f l) as [[y|]|]; try discriminate. cbn [obind] in E.
    assert (xs = x :: y) as -> by (unfold some in E; congruence). constructor; [exact V|]. now apply IH.
Qed.
Lemma seq_offers : forall X A (r : req X) (k : list X -> outcome A) t v a,
  self t (RSeq r k) v = Ret (Some a) <-> exists vs xs, v = SvSeq vs /\ Forall2 (fun v x => self t r v = Ret (Some x)) vs xs /\ k xs = Ret (Some a).
Proof.
  intros X A r k t v a. split.
  - cbn [self]. destruct v; try discriminate. destruct (read_all (self t r) l) as [[xs|]|] eqn:E; try discriminate. cbn [obind]. intro K. exists l, xs. split; [reflexivity|]. split; [now apply read_all_inv|exact K].
  - intros (vs & xs & -> & F & K). cbn [self]. rewrite (read_all_back _ _ vs xs); [exact K|exact F].
Qed.
Lemma read_all_safe : forall X (f : sval -> outcome X) l, (forall v, f v <> Panic) -> read_all f l <> Panic.
Proof. intros X f l F. induction l as [|v l IH]; [discriminate|]. cbn [read_all]. apply obind_safe; [apply F|]. intro. apply obind_safe; [exact IH|]. discriminate. Qed.
Lemma rd_many_safe : forall X (f : bytes -> outcome (X * bytes)) n b, (forall v, f v <> Panic) -> rd_many f n b <> Panic.
Proof. intros X f n b F. revert b. induction n as [|n IH]; intro b; [discriminate|]. cbn [rd_many]. apply obind_safe; [apply F|]. intros []. apply obind_safe; [apply IH|]. intros []. discriminate. Qed.
Lemma seq_safe : forall X A (r : req X) (k : list X -> outcome A), safe r -> (forall l, k l <> Panic) -> safe (RSeq r k).
Proof.
  intros X A r k [S C] K. split.
  - intros t v. cbn [self]. destruct v; try discriminate. apply obind_safe; [now apply read_all_safe|exact K].
  - intro b. cbn [compact]. apply obind_safe; [apply rd_uint_safe|]. intros []. apply obind_safe; [now apply rd_many_safe|]. intros []. now apply keep_safe.
Qed.
Lemma arr_items : forall b, bytes_ok b -> read_all as_u8 (map (SvU 8) b) = some b.
Proof.
  intros b B. apply read_all_back. induction B as [|x b Hx B IH]; [constructor|]. cbn [map]. constructor; [|exact IH]. unfold as_u8. unfold byte_ok in Hx. destruct (N.ltb_spec x 256); [reflexivity|lia].
Qed.
Lemma u8_items : forall b, bytes_ok b -> flat_map flat (map (SvU 8) b) = b.
Proof. intros b B. induction B as [|x b Hx B IH]; [reflexivity|]. cbn [map flat_map flat]. rewrite IH. unfold uint_bytes. change (N.to_nat (8 / 8)) with 1%nat. cbn [le_bytes]. unfold byte_ok in Hx. rewrite N.mod_small by exact Hx. reflexivity. Qed.
Lemma arr_self_seq : forall A n (k : bytes -> outcome A) b a, bytes_ok b -> lenN b = n -> k b = some a -> reads_self (RArr n k) (ser_slice b) a /\ restores (RArr n k) (ser_array b) a.
Proof.
  intros A n k b a B L K.
  assert (S : forall t : bool, obind (read_all as_u8 (map (SvU 8) b)) (fun b => if lenN b =? n then k b else none) = Ret (Some a)) by (intros _; rewrite arr_items by exact B; cbn [obind some]; rewrite L, N.eqb_refl; exact K).
  split; [exact S|]. split; [exact S|]. intro rest. cbn [compact]. unfold ser_array. cbn [flat]. rewrite u8_items by exact B. rewrite take_exact by exact L. cbn [obind some]. unfold keep. rewrite K. reflexivity.
Qed.
Lemma arr_safe : forall A n (k : bytes -> outcome A), (forall s, k s <> Panic) -> safe (RArr n k).
Proof.
  intros A n k K. split.
  - intros t v. cbn [self]. destruct v; try discriminate; (apply obind_safe; [apply read_all_safe; intro w; destruct w; try discriminate; cbn [as_u8]; destruct (_ <? _); discriminate|]); intro b; destruct (_ =? _); try discriminate; apply K.
  - intro b. cbn [compact]. apply obind_safe; [apply take_safe|]. intros []. apply keep_safe. apply K.
Qed.
Lemma struct_safe : forall X Y A n1 n2 (s1 m1 : req X) (s2 m2 : req Y) (k : X -> Y -> A), safe s1 -> safe s2 -> safe m1 -> safe m2 -> safe (RStruct2 n1 n2 s1 s2 m1 m2 k).
Proof.
  intros X Y A n1 n2 s1 m1 s2 m2 k [S1 C1] [S2 C2] [M1 _] [M2 _]. split.
  - intros t v. cbn [self]. destruct v; try discriminate.
    + destruct l as [|a [|b [|]]]; try discriminate. apply obind_safe; [apply S1|]. intro. apply obind_safe; [apply S2|]. discriminate.
    + apply obind_safe; [|intros []; discriminate]. assert (G : forall a b, read_fields n1 n2 (self t m1) (self t m2) fields a b <> Panic); [|apply G].
      induction fields as [|[nm w] l IH]; intros a b; cbn [read_fields]; [destruct a, b; discriminate|]. destruct (str_eqb nm n1).
      * destruct a; [discriminate|]. apply obind_safe; [apply M1|]. intro. apply IH.
      * destruct (str_eqb nm n2); [|discriminate]. destruct b; [discriminate|]. apply obind_safe; [apply M2|]. intro. apply IH.
  - intro b. cbn [compact]. apply obind_safe; [apply C1|]. intros []. apply obind_safe; [apply C2|]. intros []. discriminate.
Qed.
Lemma enum_safe : forall X Y Z A n1 (r1 : req X) (r2 : req Y) n2 (r3 : req Z) (k1 : X -> Y -> A) k2, safe r1 -> safe r2 -> safe r3 -> safe (REnum2 n1 r1 r2 n2 r3 k1 k2).
Proof.
  intros X Y Z A n1 r1 r2 n2 r3 k1 k2 [S1 C1] [S2 C2] [S3 C3]. split.
  - intros t v. cbn [self]. destruct v; try discriminate. destruct (str_eqb name n1).
    + destruct fields as [|a [|b [|]]]; try discriminate. apply obind_safe; [apply S1|]. intro. apply obind_safe; [apply S2|]. discriminate.
    + destruct (str_eqb name n2); [|discriminate]. destruct fields as [|a [|]]; try discriminate. apply obind_safe; [apply S3|]. discriminate.
  - intro b. cbn [compact]. apply obind_safe; [apply rd_uint_safe|]. intros [i b']. destruct (i =? 0).
    + apply obind_safe; [apply C1|]. intros []. apply obind_safe; [apply C2|]. intros []. discriminate.
    + destruct (i =? 1); [|discriminate]. apply obind_safe; [apply C3|]. intros []. discriminate.
Qed.
Lemma pairs_safe : forall X Y A (r1 : req X) (r2 : req Y) (k : list (X * Y) -> outcome A), safe r1 -> safe r2 -> (forall l, k l <> Panic) -> safe (RPairs r1 r2 k).
Proof.
  intros X Y A r1 r2 k [S1 C1] [S2 C2] K. split.
  - intros t v. cbn [self]. destruct v; try discriminate. apply obind_safe; [|exact K].
    assert (G : forall n l, (length l <= n)%nat -> read_pairs (self t r1) (self t r2) l <> Panic); [|apply (G (length l)); lia].
    induction n as [|n IH]; intros [|v [|w l']] L; cbn [length] in L; try discriminate; try lia; cbn [read_pairs].
    + apply obind_safe; [apply S1|]. discriminate.
    + apply obind_safe; [apply S1|]. intro. apply obind_safe; [apply S2|]. intro. apply obind_safe; [apply IH; lia|]. discriminate.
  - intro b. cbn [compact]. apply obind_safe; [apply rd_uint_safe|]. intros [n b']. apply obind_safe; [|intros []; now apply keep_safe].
    assert (G : forall m n b, (n <= m)%nat -> rd_pairs (compact r1) (compact r2) n b <> Panic); [|apply (G (N.to_nat n)); lia].
    induction m as [|m IH]; intros [|[|n']] b2 L; try discriminate; try lia; cbn [rd_pairs].
    + apply obind_safe; [apply C1|]. discriminate.
    + apply obind_safe; [apply C1|]. intros []. apply obind_safe; [apply C2|]. intros []. apply obind_safe; [apply IH; lia|]. intros []. discriminate.
Qed.
