(** Consequences of the decoder laws for every built decoder, in terms of the drivers. *)
From Verif Require Import Base MDec LDec LDec2 LDrive LPrefix LCompact MWitness SWitness LWitness LWitDec MTx MAmount LCodec LTx LTx2 SDec.
Local Open Scope N_scope.

Lemma built_lawful : forall A E b (D : decoder A E), built b D ->
  exists g den, lawful D g den /\ (b = true -> nontrivial g den).
Proof.
  induction 1.
  - exists (array_good 0), (array_den 0). split; [apply array_lawful|discriminate].
  - exists (array_good n), (array_den n). split; [apply array_lawful|intros _; now apply array_nontrivial].
  - exists cs_good, (cs_den (cs_fin limit)). split; [apply cs_lawful|intros _; apply cs_nontrivial].
  - exists cs_good, (cs_den cs_decode_u64). split; [apply cs_u64_lawful|intros _ s G; now apply cs_den_nil].
  - exists bv_good, (bv_den limit). split; [apply bytevec_lawful|intros _; apply bytevec_nontrivial].
  - destruct IHbuilt1 as (ga & da & La & Na), IHbuilt2 as (gb & db & Lb & Nb).
    exists (d2_good DA DB ga gb), (d2_den DA DB da db). split; [now apply dec2_lawful|].
    intro Hb. apply andb_true_iff in Hb as [-> ->]. apply dec2_nontrivial; auto.
  - destruct IHbuilt as (g & den & L & NT). exists g, (nt_den D me f den). split; [now apply newtype_lawful|].
    intro. apply newtype_nontrivial. auto.
  - destruct IHbuilt as (g & den & L & NT). exists (ev_good D g), (ev_den D den). split; [|discriminate].
    apply exactvec_lawful; auto.
  - destruct IHbuilt as (g & den & L & NT). exists (vec_good D g), (vec_den D den limit). split; [apply vec_lawful|intros _; apply vec_nontrivial]; auto.
  - exists wd_good, wd_den. split; [apply witness_lawful|intros _; apply witness_nontrivial].
  - destruct tx_codec as (g & den & L & NT & _). eauto.
Qed.

Section One.
Context {A E : Type} (D : decoder A E) (g : st D -> Prop) (den : st D -> bytes -> outcome A E) (L : lawful D g den).
Let G0 := law_init _ _ _ L.

Lemma whole : forall l, feed_chunks D (init D) [l] = run_of (den (init D) l).
Proof. intro l. rewrite (feed_chunks_den D g den L); auto. cbn [concat]. now rewrite app_nil_r. Qed.
Lemma chunks_whole : forall cs, feed_chunks D (init D) cs = feed_chunks D (init D) [concat cs].
Proof. intro cs. rewrite whole. now rewrite (feed_chunks_den D g den L). Qed.

Lemma asks_consumed : forall c s s' r, g s -> feed D (length c) s c = (s', r, NeedsMore) -> r = [] /\ g s'.
Proof. intros c s s' r G H. pose proof (feed_law D g den L (length c) s c G (le_n _)) as K. rewrite H in K. tauto. Qed.

Lemma run_done : forall o v r, @run_of A E o = RDone v r <-> o = Done v r.
Proof. intros [] v' r'; cbn; split; intro H; inv H; auto. Qed.
Lemma run_panic : forall o, @run_of A E o = RPanic <-> o = Boom.
Proof. intros []; cbn; split; intro H; inv H; auto. Qed.

Lemma exact_consumption : forall l v r, feed_chunks D (init D) [l] = RDone v r ->
  exists p, l = p ++ r /\ (forall t, feed_chunks D (init D) [p ++ t] = RDone v t) /\
    forall q v' r', (exists x t, p = q ++ x :: t) -> feed_chunks D (init D) [q] <> RDone v' r'.
Proof.
  intros l v r H. rewrite whole, run_done in H. destruct (law_done _ _ _ L _ _ _ _ G0 H) as (p & -> & Ht).
  exists p. split; auto. split.
  - intro t. rewrite whole, Ht. reflexivity.
  - intros q v' r' (x & t & ->) Hq. rewrite whole, run_done in Hq.
    destruct (law_done _ _ _ L _ _ _ _ G0 Hq) as (p & -> & Hp).
    specialize (Ht []). rewrite app_nil_r, <- app_assoc, Hp in Ht. inv Ht.
    destruct r'; discriminate.
Qed.

Lemma limit_sound : forall p s t v r, feed D (length p) (init D) p = (s, [], NeedsMore) ->
  feed_chunks D (init D) [p ++ t] = RDone v r -> lim D s + lenN r <= lenN t.
Proof.
  intros p s t v r Hf H. rewrite whole, run_done in H.
  pose proof (feed_law D g den L (length p) (init D) p G0 (le_n _)) as K. rewrite Hf in K. destruct K as (G & _ & Hd).
  rewrite Hd in H. apply (law_lim _ _ _ L _ _ _ _ G H).
Qed.
Lemma limit_zero : forall p s t, feed D (length p) (init D) p = (s, [], NeedsMore) -> lim D s = 0 ->
  feed_chunks D (init D) [p ++ t] = match fin D s with Panic => RPanic | Ret (Ok v) => RDone v t | Ret (Err e) => RErr e end.
Proof.
  intros p s t Hf Hz. rewrite whole.
  pose proof (feed_law D g den L (length p) (init D) p G0 (le_n _)) as K. rewrite Hf in K. destruct K as (G & _ & Hd).
  rewrite Hd, (law_lim0 _ _ _ L _ G Hz). destruct (fin D s) as [[]|]; reflexivity.
Qed.

Lemma slice_unbounded_whole : forall l,
  match feed_chunks D (init D) [l] with
  | RDone v r => decode_from_slice_unbounded D l = Ret (Ok v, r)
  | RErr e => exists r, decode_from_slice_unbounded D l = Ret (Err e, r)
  | RPanic => decode_from_slice_unbounded D l = Panic
  end.
Proof. intro l. rewrite whole. pose proof (slice_unbounded_den D g den L l) as K. destruct (den (init D) l); exact K. Qed.
Lemma slice_whole : forall l,
  decode_from_slice D l = match feed_chunks D (init D) [l] with
  | RDone v [] => Ret (Ok v)
  | RDone _ (_ :: _) => Ret (Err DeUnconsumed)
  | RErr e => Ret (Err (DeParse e))
  | RPanic => Panic
  end.
Proof.
  intro l. pose proof (slice_unbounded_whole l) as K. unfold decode_from_slice.
  destruct (feed_chunks D (init D) [l]) as [v r|e|].
  - rewrite K. destruct r; reflexivity.
  - destruct K as [r ->]. reflexivity.
  - now rewrite K.
Qed.
Lemma read_whole : forall es, Forall data_ok es ->
  match feed_chunks D (init D) [events_bytes es] with
  | RDone v r => exists b es', decode_from_read D es = Ret (Ok v, b, es') /\ b ++ events_bytes es' = r
  | RErr e => exists b es', decode_from_read D es = Ret (Err (ReDecode e), b, es')
  | RPanic => decode_from_read D es = Panic
  end.
Proof. intros es F. rewrite whole. pose proof (decode_from_read_den D g den L es F) as K. destruct (den (init D) _); exact K. Qed.
Lemma unbuffered_whole : forall bs src want, 0 < bs ->
  match feed_chunks D (init D) [src] with
  | RDone v r => decode_from_read_unbuffered D bs src want = Ret (Ok v, r)
  | RErr e => exists r, decode_from_read_unbuffered D bs src want = Ret (Err (ReDecode e), r)
  | RPanic => decode_from_read_unbuffered D bs src want = Panic
  end.
Proof. intros bs src want H. rewrite whole. pose proof (decode_unbuffered_den D g den L bs src want H) as K. destruct (den (init D) _); exact K. Qed.
Lemma hex_whole : forall l v, decode_from_hex D (map Some l) = Ret (Ok v) <-> feed_chunks D (init D) [l] = RDone v [].
Proof.
  intros l v. rewrite whole, run_done. unfold decode_from_hex. pose proof (hex_loop_den D g den L l (init D) [] G0) as K. cbn [app] in K.
  destruct (den (init D) l) as [v' [|x r]| | |].
  - rewrite K. split; intro H; inv H; auto.
  - rewrite K. split; discriminate.
  - rewrite K. split; discriminate.
  - destruct K as (e' & -> & _). split; discriminate.
  - destruct K as [-> | ->]; split; discriminate.
Qed.
Lemma hex_bad : forall l tl v, decode_from_hex D (map Some l ++ None :: tl) <> Ret (Ok v).
Proof. intros. apply (decode_hex_bad D g den L); auto. Qed.
End One.

(** a codec, seen through the slice driver *)
Section Codec.
Context {A E : Type} {D : decoder A E} {enc : A -> bytes} {wf : A -> Prop} (C : codec D enc wf).
Lemma codec_prefix : forall l v r, bytes_ok l ->
  (decode_from_slice_unbounded D l = Ret (Ok v, r) <-> l = enc v ++ r /\ wf v).
Proof using C.
  destruct C as (g & den & L & _ & RT & CN & _). intros l v r Hok.
  pose proof (slice_unbounded_den D g den L l) as K. split.
  - intro H. destruct (den (init D) l) as [v' r'|e|e|] eqn:Hd.
    + rewrite K in H. inv H. now apply CN.
    + destruct K as [? K]. congruence.
    + destruct K as [? K]. congruence.
    + congruence.
  - intros [-> W]. rewrite RT in K by auto. exact K.
Qed.
Lemma codec_slice : forall l v, bytes_ok l -> (decode_from_slice D l = Ret (Ok v) <-> l = enc v /\ wf v).
Proof using C.
  intros l v Hok. pose proof (codec_prefix l v [] Hok) as K. rewrite app_nil_r in K. rewrite <- K. unfold decode_from_slice.
  destruct (decode_from_slice_unbounded D l) as [[[v'|e] [|x r]]|]; split; intro H; inv H; auto.
Qed.
Lemma codec_no_panic : forall l, bytes_ok l -> lenN l < 2 ^ 32 ->
  decode_from_slice_unbounded D l <> Panic /\ decode_from_slice D l <> Panic.
Proof using C.
  destruct C as (g & den & L & _ & _ & _ & NB). intros l Hok Hl.
  assert (Hl' : lenN l <= U32_MAX) by (unfold U32_MAX; change (2 ^ 32) with 4294967296 in Hl; lia).
  specialize (NB l Hok Hl'). pose proof (slice_unbounded_den D g den L l) as K. unfold decode_from_slice.
  destruct (den (init D) l) as [v' r'|e|e|] eqn:Hd.
  - rewrite K. split; [discriminate|]. destruct r'; discriminate.
  - destruct K as [? ->]. split; discriminate.
  - destruct K as [? ->]. split; discriminate.
  - contradiction.
Qed.
End Codec.
Lemma decodes_codec : forall A E (D : decoder A E) enc ok, built true D -> decodes D enc ok -> codec D enc ok.
Proof.
  intros A E D enc ok HB [H1 H2 H3]. destruct (built_lawful _ _ _ _ HB) as (g & den & L & NT).
  exists g, den. split; [auto|]. split; [auto|].
  assert (K : forall l v r, bytes_ok l -> (den (init D) l = Done v r <-> l = enc v ++ r /\ ok v)).
  { intros l v r Hl. rewrite <- H2 by auto. pose proof (slice_unbounded_den D g den L l) as K.
    destruct (den (init D) l) as [v' r'|e|e|].
    - rewrite K; split; intro H; inv H; auto.
    - destruct K as [r' K]. rewrite K; split; intro H; inv H.
    - destruct K as [r' K]. rewrite K; split; intro H; inv H.
    - rewrite K; split; intro H; inv H. }
  split; [|split].
  - intros a t Ha. assert (Hd : den (init D) (enc a) = Done a []) by (apply K; auto; now rewrite app_nil_r).
    destruct (law_done _ _ _ L _ _ _ _ (law_init _ _ _ L) Hd) as (p & Hp & Ht). rewrite app_nil_r in Hp. subst p. apply Ht.
  - intros l a r Hl. now apply K.
  - intros l Hl Hlen Hb. apply (H3 l); auto; [unfold U32_MAX in Hlen; change (2 ^ 32) with 4294967296; lia|].
    pose proof (slice_unbounded_den D g den L l) as Q. now rewrite Hb in Q.
Qed.
Lemma codec_decodes : forall A E (D : decoder A E) enc (ok : A -> Prop), (forall v, ok v -> bytes_ok (enc v)) -> codec D enc ok -> decodes D enc ok.
Proof.
  intros A E D enc ok H C. constructor; auto.
  - now apply codec_prefix.
  - intros l Hl Hlen. now apply (codec_no_panic C).
Qed.
