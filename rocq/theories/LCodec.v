(** Codecs: a lawful decoder together with the encoding it inverts. *)
From Verif Require Import Base MDec LDec LDec2 LPrefix LCompact MWitness SWitness LWitness LWitDec MTx MAmount.
Local Open Scope N_scope.

Definition roundtrips {A E} (D : decoder A E) (den : st D -> bytes -> outcome A E) (enc : A -> bytes) (wf : A -> Prop) : Prop :=
  forall a t, wf a -> den (init D) (enc a ++ t) = Done a t.
Definition canonical {A E} (D : decoder A E) (den : st D -> bytes -> outcome A E) (enc : A -> bytes) (wf : A -> Prop) : Prop :=
  forall l a r, bytes_ok l -> den (init D) l = Done a r -> l = enc a ++ r /\ wf a.
Definition no_boom {A E} (D : decoder A E) (den : st D -> bytes -> outcome A E) : Prop :=
  forall l, bytes_ok l -> lenN l <= U32_MAX -> den (init D) l <> Boom.

Definition codec {A E} (D : decoder A E) (enc : A -> bytes) (wf : A -> Prop) : Prop :=
  exists g den, lawful D g den /\ nontrivial g den /\ roundtrips D den enc wf /\ canonical D den enc wf /\ no_boom D den.

Lemma codec_ext : forall A E (D : decoder A E) enc enc' (wf wf' : A -> Prop), codec D enc wf ->
  (forall a, wf a -> enc a = enc' a) -> (forall a, wf a <-> wf' a) -> codec D enc' wf'.
Proof.
  intros A E D enc enc' wf wf' (g & den & L & NT & RT & CN & NB) H1 H2. exists g, den. repeat split; try apply L; auto.
  - intros a t W. apply H2 in W. rewrite <- H1; auto.
  - destruct (CN l a r H H0) as [-> W]. now rewrite H1.
  - destruct (CN l a r H H0) as [_ W]. now apply H2.
Qed.

(** bytes of known length *)
Definition is_array (n : N) (b : bytes) : Prop := lenN b = n /\ bytes_ok b.
Lemma array_codec : forall n, 0 < n -> codec (array_dec n) (fun b => b) (is_array n).
Proof.
  intros n Hn. exists (array_good n), (array_den n). split; [apply array_lawful|]. split; [now apply array_nontrivial|].
  repeat split.
  - intros a t [Ha _]. unfold array_den. cbn [init array_dec app].
    rewrite lenN_app. replace (_ <? _) with false by lia. now rewrite takeN_exact, dropN_exact.
  - unfold array_den in H0. cbn [init array_dec app] in H0. destruct (lenN l <? n); inv H0. now rewrite takeN_dropN.
  - unfold array_den in H0. cbn [init array_dec app] in H0. destruct (lenN l <? n) eqn:Hl; inv H0. rewrite lenN_takeN. lia.
  - unfold array_den in H0. cbn [init array_dec app] in H0. destruct (lenN l <? n) eqn:Hl; inv H0.
    rewrite <- (takeN_dropN n l) in H. now apply bytes_ok_app in H.
  - intros l _ _. unfold array_den. destr_if; discriminate.
Qed.

Lemma newtype_codec : forall A E B F (D : decoder A E) (me : E -> F) (f : A -> result B F) enc wf (enc' : B -> bytes) (wf' : B -> Prop),
  codec D enc wf ->
  (forall b, wf' b -> exists a, wf a /\ f a = Ok b /\ enc a = enc' b) ->
  (forall a b, wf a -> f a = Ok b -> wf' b /\ enc a = enc' b) ->
  codec (newtype_dec D me f) enc' wf'.
Proof.
  intros A E B F D me f enc wf enc' wf' (g & den & L & NT & RT & CN & NB) H1 H2.
  exists g, (nt_den D me f den). split; [now apply newtype_lawful|]. split; [now apply newtype_nontrivial|]. repeat split.
  - intros b t W. destruct (H1 b W) as (a & Wa & Hf & <-). unfold nt_den. cbn [init newtype_dec].
    rewrite RT by auto. cbn [nt_out]. now rewrite Hf.
  - unfold nt_den in H0. cbn [init newtype_dec] in H0. destruct (den (init D) l) eqn:Hd; cbn [nt_out] in H0; try discriminate.
    destruct (f v) eqn:Hf; inv H0. destruct (CN _ _ _ H Hd) as [-> W]. now destruct (H2 _ _ W Hf) as [_ <-].
  - unfold nt_den in H0. cbn [init newtype_dec] in H0. destruct (den (init D) l) eqn:Hd; cbn [nt_out] in H0; try discriminate.
    destruct (f v) eqn:Hf; inv H0. destruct (CN _ _ _ H Hd) as [-> W]. now destruct (H2 _ _ W Hf).
  - intros l Hok Hl. unfold nt_den. cbn [init newtype_dec]. specialize (NB l Hok Hl).
    destruct (den (init D) l); cbn [nt_out]; try discriminate; auto. destruct (f v); discriminate.
Qed.

Lemma dec2_codec : forall A EA B EB (DA : decoder A EA) (DB : decoder B EB) ea eb wa wb,
  codec DA ea wa -> codec DB eb wb ->
  codec (dec2 DA DB) (fun p => ea (fst p) ++ eb (snd p)) (fun p => wa (fst p) /\ wb (snd p)).
Proof.
  intros A EA B EB DA DB ea eb wa wb (ga & da & LA & NA & RA & CA & BA) (gb & db & LB & NTB & RB & CB & BB).
  exists (d2_good DA DB ga gb), (d2_den DA DB da db).
  split; [now apply dec2_lawful|]. split; [now apply dec2_nontrivial|]. repeat split.
  - intros [a b] t [Wa Wb]. cbn [fst snd] in *. cbn [init dec2 d2_den]. rewrite <- app_assoc, RA by auto. cbn [d2_then].
    rewrite RB by auto. reflexivity.
  - cbn [init dec2 d2_den] in H0. destruct (da (init DA) l) eqn:Ha; cbn [d2_then] in H0; try discriminate.
    destruct (CA _ _ _ H Ha) as [-> Wa]. apply bytes_ok_app in H as [_ Hr].
    destruct (db (init DB) rest) eqn:Hb; cbn [d2_second] in H0; try discriminate. inv H0.
    destruct (CB _ _ _ Hr Hb) as [-> Wb]. cbn [fst snd]. now rewrite app_assoc.
  - cbn [init dec2 d2_den] in H0. destruct (da (init DA) l) eqn:Ha; cbn [d2_then] in H0; try discriminate.
    destruct (CA _ _ _ H Ha) as [-> Wa]. apply bytes_ok_app in H as [_ Hr].
    destruct (db (init DB) rest) eqn:Hb; cbn [d2_second] in H0; try discriminate. now inv H0.
  - cbn [init dec2 d2_den] in H0. destruct (da (init DA) l) eqn:Ha; cbn [d2_then] in H0; try discriminate.
    destruct (CA _ _ _ H Ha) as [-> Wa]. apply bytes_ok_app in H as [_ Hr].
    destruct (db (init DB) rest) eqn:Hb; cbn [d2_second] in H0; try discriminate. inv H0.
    now destruct (CB _ _ _ Hr Hb).
  - intros l Hok Hl. cbn [init dec2 d2_den]. specialize (BA l Hok Hl).
    destruct (da (init DA) l) eqn:Ha; cbn [d2_then]; try discriminate; auto.
    destruct (CA _ _ _ Hok Ha) as [-> Wa]. apply bytes_ok_app in Hok as [_ Hr]. rewrite lenN_app in Hl.
    assert (lenN rest <= U32_MAX) as Hl' by lia. specialize (BB rest Hr Hl').
    destruct (db (init DB) rest) eqn:Hb; cbn [d2_second]; try discriminate; auto.
Qed.

Lemma cs_codec : forall limit, limit < U64 -> codec (cs_dec limit) cs_encode (fun v => v <= limit).
Proof.
  intros limit HL. exists cs_good, (cs_den (cs_fin limit)). split; [apply cs_lawful|]. split; [apply cs_nontrivial|]. repeat split.
  - intros v t W. apply cs_den_roundtrip; lia.
  - now apply cs_den_canon in H0.
  - now apply cs_den_canon in H0.
  - intros l _ _ H. pose proof (cs_den_inv (cs_fin limit) [] l) as K. cbn [init cs_dec] in H. rewrite H in K. contradiction.
Qed.
Lemma cs_u64_codec : codec cs_u64_dec cs_encode (fun v => v < U64).
Proof.
  exists cs_good, (cs_den cs_decode_u64). split; [apply cs_u64_lawful|]. split.
  { intros s G. now apply cs_den_nil. }
  repeat split.
  - intros v t W. cbn [init cs_u64_dec]. rewrite cs_den_encode, cs_decode_encode by auto. reflexivity.
  - now apply cs_den_canon_u64 in H0.
  - now apply cs_den_canon_u64 in H0.
  - intros l _ _ H. pose proof (cs_den_inv cs_decode_u64 [] l) as K. cbn [init cs_u64_dec] in H. rewrite H in K. contradiction.
Qed.

Definition is_bytevec (limit : N) (b : bytes) : Prop := lenN b <= limit /\ bytes_ok b.
Lemma bytevec_codec : forall limit, limit < U64 ->
  codec (bytevec_dec limit) (fun b => cs_encode (lenN b) ++ b) (is_bytevec limit).
Proof.
  intros limit HL. exists bv_good, (bv_den limit). split; [apply bytevec_lawful|]. split; [apply bytevec_nontrivial|].
  assert (K : forall l a r, bytes_ok l -> bv_den limit (init (bytevec_dec limit)) l = Done a r ->
              l = (cs_encode (lenN a) ++ a) ++ r /\ is_bytevec limit a).
  { intros l a r Hok H. cbn [init bytevec_dec] in H. unfold bv_den in H. cbn [bv_init bv_prefix] in H.
    destruct (cs_den _ [] l) as [n r1| | |] eqn:Hc; try discriminate.
    apply cs_den_canon in Hc as (-> & Hn & _); auto. apply bytes_ok_app in Hok as [_ Hok].
    destruct (N.ltb_spec (lenN r1) n).
    - rewrite bv_body_more in H by (rewrite lenN_nil; lia). discriminate.
    - rewrite bv_body_done in H by (rewrite lenN_nil; lia). cbn [app] in H. inv H.
      assert (lenN (takeN n r1) = n) as E by (rewrite lenN_takeN; lia). rewrite E.
      rewrite <- app_assoc, takeN_dropN. split; auto. split; [lia|].
      rewrite <- (takeN_dropN n r1) in Hok. now apply bytes_ok_app in Hok. }
  split; [|split; [exact K|]].
  - intros a t [Ha _]. cbn [init bytevec_dec]. unfold bv_den. cbn [bv_init bv_prefix].
    rewrite <- app_assoc, cs_den_roundtrip by lia. rewrite bv_body_done by (rewrite lenN_app, lenN_nil; lia).
    cbn [app]. now rewrite takeN_exact, dropN_exact.
  - intros l _ _ H. cbn [init bytevec_dec] in H. unfold bv_den in H. cbn [bv_init bv_prefix] in H.
    destruct (cs_den _ [] l) as [n r1| | |] eqn:Hc; try discriminate.
    + unfold bv_body, array_den in H. destr_if; discriminate.
    + pose proof (cs_den_inv (cs_fin limit) [] l) as Q. rewrite Hc in Q. contradiction.
Qed.

Section Vec.
Context {A E : Type} (D : decoder A E) (enc : A -> bytes) (wf : A -> Prop).
Context (g : st D -> Prop) (den : st D -> bytes -> outcome A E).
Context (L : lawful D g den) (NT : nontrivial g den) (RT : roundtrips D den enc wf) (CN : canonical D den enc wf) (NB : no_boom D den).

Lemma items_rt : forall xs acc t, Forall wf xs ->
  items_den D den (length xs) acc (init D) (flat_map enc xs ++ t) = Done (acc ++ xs) t.
Proof using RT.
  induction xs as [|x xs IH]; intros acc t W; cbn [length items_den flat_map].
  - now rewrite app_nil_r.
  - inv W. rewrite <- app_assoc, RT by auto. rewrite IH by auto. now rewrite <- app_assoc.
Qed.
Lemma items_cn : forall k acc l v r, bytes_ok l -> items_den D den k acc (init D) l = Done v r ->
  exists xs, length xs = k /\ v = acc ++ xs /\ Forall wf xs /\ l = flat_map enc xs ++ r.
Proof using CN.
  induction k; intros acc l v r Hok H; cbn [items_den] in H.
  - inv H. exists []. rewrite app_nil_r. auto.
  - destruct (den (init D) l) as [a r1| | |] eqn:Hd; try discriminate.
    destruct (CN _ _ _ Hok Hd) as [-> Wa]. apply bytes_ok_app in Hok as [_ Hr].
    destruct (IHk _ _ _ _ Hr H) as (xs & E1 & -> & W & ->).
    exists (a :: xs). cbn [length flat_map]. rewrite <- !app_assoc. auto.
Qed.
Lemma items_nb : forall k acc l, bytes_ok l -> lenN l <= U32_MAX -> items_den D den k acc (init D) l <> Boom.
Proof using CN NB.
  induction k; intros acc l Hok Hl; cbn [items_den]; [discriminate|].
  specialize (NB l Hok Hl). destruct (den (init D) l) eqn:Hd; try discriminate; auto.
  destruct (CN _ _ _ Hok Hd) as [-> Wa]. apply bytes_ok_app in Hok as [_ Hr]. rewrite lenN_app in Hl.
  apply IHk; auto. lia.
Qed.
End Vec.

Definition is_vec {A} (wf : A -> Prop) (limit : N) (xs : list A) : Prop := lenN xs <= limit /\ Forall wf xs.
Lemma vec_codec : forall A E (D : decoder A E) enc wf limit, limit < U64 -> codec D enc wf ->
  codec (vec_dec D limit) (slice_encode enc) (is_vec wf limit).
Proof.
  intros A E D enc wf limit HL (g & den & L & NT & RT & CN & NB).
  exists (vec_good D g), (vec_den D den limit). split; [now apply vec_lawful|]. split; [now apply vec_nontrivial|].
  assert (K : forall l a r, bytes_ok l -> vec_den D den limit (init (vec_dec D limit)) l = Done a r ->
              l = slice_encode enc a ++ r /\ is_vec wf limit a).
  { intros l a r Hok H. cbn [init vec_dec] in H. unfold vec_den in H. cbn [vd_prefix] in H.
    destruct (cs_den _ [] l) as [n r1| | |] eqn:Hc; try discriminate.
    apply cs_den_canon in Hc as (-> & Hn & _); auto. apply bytes_ok_app in Hok as [_ Hok].
    destruct (items_cn D enc wf den CN _ _ _ _ _ Hok H) as (xs & E1 & -> & W & ->). cbn [app].
    unfold slice_encode, is_vec. assert (lenN xs = n) as -> by (unfold lenN; lia). now rewrite <- app_assoc. }
  repeat split.
  - intros xs t [Hn W]. cbn [init vec_dec]. unfold vec_den. cbn [vd_prefix]. unfold slice_encode.
    rewrite <- app_assoc, cs_den_roundtrip by lia. replace (N.to_nat (lenN xs)) with (length xs) by (unfold lenN; lia).
    now rewrite (items_rt D enc wf den RT).
  - now apply K.
  - now apply (K l a r).
  - now apply (K l a r).
  - intros l Hok Hl. cbn [init vec_dec]. unfold vec_den. cbn [vd_prefix].
    destruct (cs_den _ [] l) as [n r1| | |] eqn:Hc; try discriminate.
    + apply cs_den_canon in Hc as (-> & Hn & _); auto. apply bytes_ok_app in Hok as [_ Hok]. rewrite lenN_app in Hl.
      apply (items_nb D enc wf den CN NB); auto. lia.
    + pose proof (cs_den_inv (cs_fin limit) [] l) as Q. rewrite Hc in Q. contradiction.
Qed.

(** *** Concrete codecs *)
Definition U32 : N := 4294967296.
Lemma u32_codec : codec u32_dec (le_bytes 4) (fun v => v < U32).
Proof.
  unfold u32_dec. eapply newtype_codec; [apply array_codec; lia| |].
  - intros v H. exists (le_bytes 4 v). repeat split.
    + apply le_bytes_ok.
    + now rewrite le_val_bytes.
  - intros a v [H1 H2] H. inv H. split.
    + apply le_val_lt in H2. rewrite H1 in H2. exact H2.
    + symmetry. now apply le_bytes_of_val.
Qed.
Lemma hash_codec : codec hash_dec (fun b => b) (is_array 32).
Proof.
  unfold hash_dec. eapply newtype_codec; [apply array_codec; lia| |].
  - intros b H. exists b. auto.
  - intros a b H Hb. inv Hb. auto.
Qed.

Definition wf_outpoint (o : outpoint) : Prop := is_array 32 (op_txid o) /\ op_vout o < U32.
Lemma outpoint_codec : codec outpoint_dec outpoint_encode wf_outpoint.
Proof.
  unfold outpoint_dec. eapply newtype_codec; [apply (array_codec 36); lia| |].
  - intros [t v] [[H1 H2] H3]. cbn [op_txid op_vout] in *. exists (t ++ le_bytes 4 v). repeat split.
    + rewrite lenN_app, H1, le_bytes_lenN. reflexivity.
    + apply bytes_ok_app. split; auto. apply le_bytes_ok.
    + now rewrite takeN_exact, dropN_exact, le_val_bytes.
  - intros a b [H1 H2] H. inv H. assert (E : a = takeN 32 a ++ dropN 32 a) by (now rewrite takeN_dropN).
    rewrite E in H2. apply bytes_ok_app in H2 as [H2 H3].
    assert (lenN (dropN 32 a) = 4) as H4 by (rewrite lenN_dropN; lia). repeat split; cbn [op_txid op_vout]; auto.
    + rewrite lenN_takeN. lia.
    + apply le_val_lt in H3. rewrite H4 in H3. exact H3.
    + unfold outpoint_encode. cbn [op_txid op_vout]. rewrite (le_bytes_of_val 4) by auto. exact E.
Qed.

Lemma script_codec : codec script_dec script_encode (is_bytevec MAX_VEC_SIZE).
Proof.
  unfold script_dec. eapply newtype_codec; [apply bytevec_codec; reflexivity| |].
  - intros b H. exists b. auto.
  - intros a b H Hb. inv Hb. auto.
Qed.

Lemma amount_codec : codec amount_dec (le_bytes 8) (fun v => v <= MAX_MONEY).
Proof.
  unfold amount_dec. eapply newtype_codec; [apply (array_codec 8); lia| |].
  - intros v H. exists (le_bytes 8 v). repeat split.
    + apply le_bytes_ok.
    + unfold MAX_MONEY, AMOUNT_MAX in H. change (Z.to_N _) with 2100000000000000 in H.
      rewrite le_val_bytes by (change (256 ^ N.of_nat 8) with U64; unfold U64; lia).
      unfold amount_from_sat. replace (Z.ltb AMOUNT_MAX (Z.of_N v)) with false; [now rewrite N2Z.id|].
      unfold AMOUNT_MAX. lia.
  - intros a v [H1 H2] H. unfold amount_from_sat in H. destruct (Z.ltb AMOUNT_MAX (Z.of_N (le_val a))) eqn:Hc; [discriminate|].
    inv H. rewrite N2Z.id. split.
    + unfold MAX_MONEY, AMOUNT_MAX in *. lia.
    + symmetry. now apply le_bytes_of_val.
Qed.

Definition wf_txin0 (i : txin) : Prop :=
  wf_outpoint (ti_prevout i) /\ is_bytevec MAX_VEC_SIZE (ti_script i) /\ ti_sequence i < U32 /\ ti_witness i = wit_new.
Lemma dec3_codec : forall A EA B EB C EC (DA : decoder A EA) (DB : decoder B EB) (DC : decoder C EC) ea eb ec wa wb wc,
  codec DA ea wa -> codec DB eb wb -> codec DC ec wc ->
  codec (dec3 DA DB DC) (fun p => ea (fst (fst p)) ++ eb (snd (fst p)) ++ ec (snd p))
    (fun p => wa (fst (fst p)) /\ wb (snd (fst p)) /\ wc (snd p)).
Proof.
  intros A EA B EB C EC DA DB DC ea eb ec wa wb wc HA HB HC. unfold dec3.
  eapply newtype_codec; [apply dec2_codec; [apply dec2_codec; eassumption|eassumption]| |].
  - intros b W. exists b. cbn beta. rewrite <- app_assoc. tauto.
  - intros a b W H. inv H. cbn beta in *. rewrite <- app_assoc. tauto.
Qed.
Lemma txin_codec : codec txin_dec txin_encode wf_txin0.
Proof.
  unfold txin_dec. eapply newtype_codec; [apply dec3_codec; [apply outpoint_codec|apply script_codec|apply u32_codec]| |].
  - intros [o s q w] (W1 & W2 & W3 & W4). cbn [ti_prevout ti_script ti_sequence ti_witness] in *. subst w.
    exists (o, s, q). auto.
  - intros [[o s] q] b (W1 & W2 & W3) H. inv H. cbn [fst snd] in *. repeat split; auto; try apply W1; try apply W2.
Qed.

Definition wf_txout (o : txout) : Prop := to_amount o <= MAX_MONEY /\ is_bytevec MAX_VEC_SIZE (to_script o).
Lemma txout_codec : codec txout_dec txout_encode wf_txout.
Proof.
  unfold txout_dec. eapply newtype_codec; [apply dec2_codec; [apply amount_codec|apply script_codec]| |].
  - intros [a s] [W1 W2]. exists (a, s). auto.
  - intros [a s] b [W1 W2] H. inv H. split; [split; auto|reflexivity].
Qed.
Lemma ins_codec : codec ins_dec (slice_encode txin_encode) (is_vec wf_txin0 MAX_VEC_SIZE).
Proof. apply vec_codec; [reflexivity|apply txin_codec]. Qed.
Lemma outs_codec : codec outs_dec (slice_encode txout_encode) (is_vec wf_txout MAX_VEC_SIZE).
Proof. apply vec_codec; [reflexivity|apply txout_codec]. Qed.

(** a witness that the library can decode *)
Definition wf_witness (w : witness) : Prop :=
  exists ls, w = layout ls /\ small ls /\ lenN ls <= MAX_WITNESS_STACK_ITEMS /\ fits ls /\ Forall bytes_ok ls.
Lemma flat_ok : forall ls, bytes_ok (flat ls) -> Forall bytes_ok ls.
Proof.
  induction ls; intro H; constructor; rewrite flat_cons in H; apply bytes_ok_app in H as [H1 H2]; auto.
  unfold elem_bytes in H1. now apply bytes_ok_app in H1.
Qed.
Lemma witness_codec : codec witness_dec wit_encode wf_witness.
Proof.
  exists wd_good, wd_den. split; [apply witness_lawful|]. split; [apply witness_nontrivial|].
  assert (K : forall l a r, bytes_ok l -> wd_den (init witness_dec) l = Done a r -> l = wit_encode a ++ r /\ wf_witness a).
  { intros l a r Hok H. pose proof (wd_canon l Hok) as C. cbn [init witness_dec] in H. rewrite H in C.
    destruct C as (ls & S & Hn & -> & F & ->). rewrite wit_encode_layout. split; auto.
    exists ls. repeat split; auto. apply bytes_ok_app in Hok as [Hok _]. unfold stack_bytes in Hok.
    apply bytes_ok_app in Hok as [_ Hok]. now apply flat_ok. }
  repeat split.
  - intros w t (ls & -> & S & Hn & F & Hok). rewrite wit_encode_layout. cbn [init witness_dec].
    rewrite wd_roundtrip by auto. unfold fits in F. apply fitsb_spec in F. now rewrite F.
  - now apply K.
  - now apply (K l a r).
  - intros l Hok Hl. now apply wd_no_boom.
Qed.
