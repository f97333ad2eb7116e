(** The inner decoders as one lawful family; the header. *)
From Coq Require Import String.
From Verif Require Import Base MDec LDec LDec2 LPrefix LCompact LCodec MWitness SWitness LWitness LWitDec MTx MAmount MText LAmountText MPmt MBip152 LTx2 LWire LPmt3 LBip152 LTaproot LBip32b LSha2b MP2p MP2pMsg SWire SPmt SBip152 SP2p LP2p LP2p2 LP2p3 LP2p4.
Local Open Scope N_scope.

Definition kgd (k : kind) : Type := ((st (kind_dec k) -> Prop) * (st (kind_dec k) -> bytes -> outcome message unit))%type.
Lemma kinds : exists gd : forall k, kgd k, forall k, rlaws (kind_dec k) (kreads k) (gd k).
Proof.
  destruct (kind_rcodec KVersion) as [g1 H1], (kind_rcodec KAddr) as [g2 H2], (kind_rcodec KInv) as [g3 H3], (kind_rcodec KGetData) as [g4 H4],
    (kind_rcodec KNotFound) as [g5 H5], (kind_rcodec KGetBlocks) as [g6 H6], (kind_rcodec KGetHeaders) as [g7 H7], (kind_rcodec KTx) as [g8 H8],
    (kind_rcodec KBlock) as [g9 H9], (kind_rcodec KHeaders) as [g10 H10], (kind_rcodec KPing) as [g11 H11], (kind_rcodec KPong) as [g12 H12],
    (kind_rcodec KMerkleBlock) as [g13 H13], (kind_rcodec KFilterLoad) as [g14 H14], (kind_rcodec KFilterAdd) as [g15 H15],
    (kind_rcodec KGetCFilters) as [g16 H16], (kind_rcodec KCFilter) as [g17 H17], (kind_rcodec KGetCFHeaders) as [g18 H18],
    (kind_rcodec KCFHeaders) as [g19 H19], (kind_rcodec KGetCFCheckpt) as [g20 H20], (kind_rcodec KCFCheckpt) as [g21 H21],
    (kind_rcodec KSendCmpct) as [g22 H22], (kind_rcodec KCmpctBlock) as [g23 H23], (kind_rcodec KGetBlockTxn) as [g24 H24],
    (kind_rcodec KBlockTxn) as [g25 H25], (kind_rcodec KAlert) as [g26 H26], (kind_rcodec KReject) as [g27 H27], (kind_rcodec KFeeFilter) as [g28 H28],
    (kind_rcodec KSendTxRcnCl) as [g29 H29], (kind_rcodec KAddrV2) as [g30 H30], (kind_rcodec KFeature) as [g31 H31].
  exists (fun k => match k as k0 return kgd k0 with
    | KVersion => g1 | KAddr => g2 | KInv => g3 | KGetData => g4 | KNotFound => g5 | KGetBlocks => g6 | KGetHeaders => g7 | KTx => g8
    | KBlock => g9 | KHeaders => g10 | KPing => g11 | KPong => g12 | KMerkleBlock => g13 | KFilterLoad => g14 | KFilterAdd => g15
    | KGetCFilters => g16 | KCFilter => g17 | KGetCFHeaders => g18 | KCFHeaders => g19 | KGetCFCheckpt => g20 | KCFCheckpt => g21
    | KSendCmpct => g22 | KCmpctBlock => g23 | KGetBlockTxn => g24 | KBlockTxn => g25 | KAlert => g26 | KReject => g27 | KFeeFilter => g28
    | KSendTxRcnCl => g29 | KAddrV2 => g30 | KFeature => g31 end).
  intros []; assumption.
Qed.
Definition empty_den (c : bytes) (_ : unit) (l : bytes) : outcome message unit :=
  match lookup (command_str c) bares with Some b => Done (MBare b) l | None => Fail tt end.
Lemma empty_rlaws : forall c, rlaws (empty_dec c) (mreads (EmptyMode c)) (fun _ => True, empty_den c).
Proof.
  intros c. split; [|split; [|split]]; cbn [fst snd].
  - constructor; cbn [init push fin lim empty_dec]; unfold empty_den; destruct (lookup (command_str c) bares) as [b|]; auto; try discriminate.
    + intros s l _. split; [now exists []|]. reflexivity.
    + intros s l _. split; [now exists []|]. reflexivity.
    + intros s l v r _ H. injection H as <- <-. exists []. split; reflexivity.
    + intros s l v r _ H. injection H as <- <-. lia.
  - intros a p t (-> & b & L & ->). unfold empty_den. now rewrite L.
  - intros l a r _ H. unfold empty_den in H. exists []. destruct (lookup (command_str c) bares) as [b|] eqn:L; inv H. split; [reflexivity|]. split; eauto.
  - intros l _ _. unfold empty_den. destruct (lookup _ _); discriminate.
Qed.
Definition unknown_den (c : bytes) (s : N * bytes) (l : bytes) : outcome message unit :=
  if lenN l <? fst s then More tt else Done (MUnknown c (snd s ++ takeN (fst s) l)) (dropN (fst s) l).
Lemma unknown_rlaws : forall c n, rlaws (unknown_dec c n) (mreads (UnknownMode c n)) (fun _ => True, unknown_den c).
Proof.
  intros c n. split; [|split; [|split]]; cbn [fst snd].
  - constructor; cbn [init push fin lim unknown_dec]; auto.
    + intros [k b] l _. unfold unknown_push. cbn [fst snd]. destruct (N.ltb_spec 0 (k - N.min (lenN l) k)) as [P|P].
      * rewrite N.min_l by lia. rewrite dropN_all, takeN_all by lia. split; [auto|]. split; [exists l; now rewrite app_nil_r|].
        intros t. unfold unknown_den. cbn [fst snd app]. rewrite lenN_app. destruct (N.ltb_spec (lenN l + lenN t) k), (N.ltb_spec (lenN t) (k - lenN l)); try lia; [reflexivity|].
        rewrite takeN_app_ge, dropN_app_ge by lia. now rewrite app_assoc.
      * rewrite N.min_r by lia. split; [exists (takeN k l); now rewrite takeN_dropN|]. intros t. unfold unknown_den. cbn [fst snd]. rewrite lenN_app.
        destruct (N.ltb_spec (lenN l + lenN t) k); [lia|]. rewrite N.sub_diag, N.eqb_refl. cbn [of_fin of_res]. now rewrite takeN_app_le, dropN_app_le by lia.
    + intros [k b] _. unfold unknown_den. cbn [fst snd]. rewrite lenN_nil. destruct (N.ltb_spec 0 k).
      * destruct (N.eqb_spec k 0); [lia|reflexivity].
      * assert (k = 0) as -> by lia. cbn [N.eqb]. now rewrite app_nil_r.
    + intros [k b] l v r _ H. unfold unknown_den in H. cbn [fst snd] in H. destruct (N.ltb_spec (lenN l) k); [discriminate|]. injection H as <- <-.
      exists (takeN k l). split; [now rewrite takeN_dropN|]. intros t. unfold unknown_den. cbn [fst snd]. rewrite lenN_app, lenN_takeN, N.min_l by lia.
      destruct (N.ltb_spec (k + lenN t) k); [lia|]. rewrite takeN_app_le, dropN_app_ge by (rewrite lenN_takeN; lia). rewrite lenN_takeN, N.min_l, N.sub_diag by lia.
      f_equal. f_equal. f_equal. rewrite takeN_all; [reflexivity|]. rewrite lenN_takeN. lia.
    + intros [k b] l e t _ H. unfold unknown_den in H. destruct (_ <? _); discriminate.
    + intros [k b] l t _ H. unfold unknown_den in H. destruct (_ <? _); discriminate.
    + intros [k b] l v r _ H. unfold unknown_den in H. cbn [fst snd] in *. destruct (N.ltb_spec (lenN l) k); [discriminate|]. injection H as <- <-. rewrite lenN_dropN. lia.
    + intros [k b] _ H t. cbn [fst] in H. subst k. unfold unknown_den. cbn [fst snd N.eqb]. destruct (N.ltb_spec (lenN t) 0); [lia|]. cbn [of_fin of_res].
      f_equal. now rewrite app_nil_r.
  - intros a p t (-> & L). unfold unknown_den. cbn [init unknown_dec fst snd app]. rewrite lenN_app. destruct (N.ltb_spec (lenN p + lenN t) n); [lia|].
    rewrite <- L. now rewrite takeN_exact, dropN_exact.
  - intros l a r _ H. unfold unknown_den in H. cbn [init unknown_dec fst snd app] in H. destruct (N.ltb_spec (lenN l) n); [discriminate|]. injection H as <- <-.
    exists (takeN n l). split; [now rewrite takeN_dropN|]. split; [reflexivity|]. rewrite lenN_takeN. lia.
  - intros l _ _. unfold unknown_den. destruct (_ <? _); discriminate.
Qed.
Definition mgd (mo : mode) : Type := ((st (inner_dec mo) -> Prop) * (st (inner_dec mo) -> bytes -> outcome message unit))%type.
Lemma modes : exists gd : forall mo, mgd mo, forall mo, rlaws (inner_dec mo) (mreads mo) (gd mo).
Proof.
  destruct kinds as [gd H]. exists (fun mo => match mo as mo0 return mgd mo0 with
    | KindMode k => gd k | EmptyMode c => (fun _ => True, empty_den c) | UnknownMode c n => (fun _ => True, unknown_den c) end).
  intros [k|c|c n]; [apply H|apply empty_rlaws|apply unknown_rlaws].
Qed.

(** *** The header *)
Definition v1_header_ok (h : v1_header) : Prop :=
  is_array 4 (mh_magic h) /\ (exists s, field s (mh_command h)) /\ is_u32 (mh_length h) /\ is_array 4 (mh_checksum h).
Lemma v1_header_codec : codec v1_header_dec v1_header_encode v1_header_ok.
Proof.
  unfold v1_header_dec. eapply newtype_codec; [apply dec4_codec; [apply (array_codec 4); lia|apply command_codec|apply (array_codec 4); lia|apply (array_codec 4); lia]| |].
  - intros [m c n k] (W1 & W2 & W3 & W4). cbn [mh_magic mh_command mh_length mh_checksum] in *. exists (m, c, le_bytes 4 n, k). cbn [fst snd].
    split; [split; [exact W1|split; [exact W2|split; [apply (le_arr 4)|exact W4]]]|]. split; [|reflexivity]. rewrite le_val_bytes by exact W3. reflexivity.
  - intros [[[m c] n] k] h (W1 & W2 & W3 & W4) H. cbn [fst snd] in *. inv H. split.
    + split; [exact W1|]. split; [exact W2|]. split; [|exact W4]. destruct W3 as [L B]. cbn [mh_length]. unfold is_u32. apply le_val_lt in B. rewrite L in B. exact B.
    + unfold v1_header_encode. cbn [mh_magic mh_command mh_length mh_checksum]. destruct W3 as [L B]. rewrite (LCompact.le_bytes_of_val 4 n L B). reflexivity.
Qed.
