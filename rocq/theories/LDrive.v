(** The drivers compute the denotation, whatever the chunking or the read schedule. *)
From Verif Require Import Base MDec LDec LDec2.
Local Open Scope N_scope.

Section Drive.
Context {A E : Type} (D : decoder A E) (g : st D -> Prop) (den : st D -> bytes -> outcome A E).
Context (L : lawful D g den).

Lemma feed_law : forall fuel s l, g s -> (length l <= fuel)%nat ->
  match feed D fuel s l with
  | (s', r, NeedsMore) => g s' /\ r = [] /\ forall t, den s (l ++ t) = den s' t
  | (s', r, Ready) => (exists p, l = p ++ r) /\
      forall t, den s (l ++ t) = of_fin (fin D s') (r ++ t)
  | (s', r, PErr e) => (exists p, l = p ++ r) /\ forall t, den s (l ++ t) = Fail e
  | (_, _, PPanic) => forall t, den s (l ++ t) = Boom
  end.
Proof.
  induction fuel as [|fuel IH]; intros s l G Hf.
  - destruct l; [|cbn in Hf; lia]. cbn. auto.
  - destruct l as [|x l]; [cbn; auto|]. cbn [feed].
    pose proof (law_push _ _ _ L s (x :: l) G) as H.
    destruct (push D s (x :: l)) as [[s' r] []]; auto.
    destruct H as (G' & (p & Hp & Hne) & Hd).
    assert (Hlen : (length r <= fuel)%nat).
    { assert (p <> []) by (apply Hne; discriminate). apply (f_equal (@length N)) in Hp.
      rewrite app_length in Hp. cbn in *. destruct p; [congruence|]. cbn in Hp. lia. }
    specialize (IH s' r G' Hlen). destruct (feed D fuel s' r) as [[s'' r'] []]; auto.
    + destruct IH as (I1 & I2 & I3). repeat split; auto. intro t. now rewrite Hd, I3.
    + destruct IH as ((q & ->) & Id). split.
      * exists (p ++ q). rewrite Hp. now rewrite app_assoc.
      * intro t. now rewrite Hd, Id.
    + destruct IH as ((q & ->) & Id). split.
      * exists (p ++ q). rewrite Hp. now rewrite app_assoc.
      * intro t. now rewrite Hd, Id.
    + intro t. now rewrite Hd, IH.
Qed.

Definition run_of (o : outcome A E) : run A E :=
  match o with Done v r => RDone v r | More e | Fail e => RErr e | Boom => RPanic end.

Lemma done_nil : forall s v r, g s -> den s [] = Done v r -> r = [].
Proof.
  intros s v r G H. destruct (law_done _ _ _ L _ _ _ _ G H) as (p & Hp & _).
  symmetry in Hp. now apply app_eq_nil in Hp as [_ ->].
Qed.

Lemma feed_chunks_den : forall cs s, g s -> feed_chunks D s cs = run_of (den s (concat cs)).
Proof.
  induction cs as [|c cs IH]; intros s G; cbn [feed_chunks concat].
  - pose proof (law_fin _ _ _ L s G) as Hd.
    destruct (den s []) eqn:Hs; rewrite Hd; cbn; auto. now rewrite (done_nil _ _ _ G Hs).
  - pose proof (feed_law (length c) s c G (le_n _)) as H.
    destruct (feed D (length c) s c) as [[s' r] []].
    + destruct H as (G' & _ & Hd). rewrite Hd. auto.
    + destruct H as (_ & Hd). rewrite Hd. destruct (fin D s') as [[]|]; reflexivity.
    + destruct H as (_ & Hd). now rewrite Hd.
    + now rewrite H.
Qed.

Lemma slice_unbounded_den : forall l,
  match den (init D) l with
  | Done v r => decode_from_slice_unbounded D l = Ret (Ok v, r)
  | More e | Fail e => exists r, decode_from_slice_unbounded D l = Ret (Err e, r)
  | Boom => decode_from_slice_unbounded D l = Panic
  end.
Proof.
  intro l. pose proof (law_init _ _ _ L) as G. unfold decode_from_slice_unbounded.
  pose proof (feed_law (length l) (init D) l G (le_n _)) as H.
  destruct (feed D (length l) (init D) l) as [[s' r] []].
  - destruct H as (G' & -> & Hd). specialize (Hd []). rewrite app_nil_r in Hd. rewrite Hd.
    pose proof (law_fin _ _ _ L s' G') as Hx.
    destruct (den s' []) eqn:Hs; rewrite Hx; eauto. now rewrite (done_nil _ _ _ G' Hs).
  - destruct H as (_ & Hd). specialize (Hd []). rewrite !app_nil_r in Hd. rewrite Hd.
    destruct (fin D s') as [[]|]; cbn; eauto.
  - destruct H as (_ & Hd). specialize (Hd []). rewrite app_nil_r in Hd. rewrite Hd. eauto.
  - specialize (H []). rewrite app_nil_r in H. now rewrite H.
Qed.

Definition data_ok (e : io_event) : Prop :=
  match e with EvData l => l <> [] | EvInterrupted => True | EvIoError => False end.

Lemma read_loop_den : forall fuel s buf es, g s -> Forall data_ok es ->
  (length buf + length es + length (events_bytes es) < fuel)%nat ->
  match den s (buf ++ events_bytes es) with
  | Done v r => exists b es', read_loop D fuel s buf es = Ret (Ok v, b, es') /\ b ++ events_bytes es' = r
  | More e | Fail e => exists b es', read_loop D fuel s buf es = Ret (Err (ReDecode e), b, es')
  | Boom => read_loop D fuel s buf es = Panic
  end.
Proof.
  induction fuel as [|fuel IH]; intros s buf es G F Hf; [lia|].
  cbn [read_loop]. destruct buf as [|x buf].
  - destruct es as [|[l| |] es].
    + cbn [events_bytes flat_map app]. pose proof (law_fin _ _ _ L s G) as Hx.
      destruct (den s []) eqn:Hs; rewrite Hx; eauto.
      do 2 eexists. split; eauto. cbn. symmetry. now apply (done_nil _ _ _ G Hs).
    + inv F. cbn [data_ok] in H1. destruct l as [|y l]; [congruence|].
      cbn [app]. change (events_bytes (EvData (y :: l) :: es)) with ((y :: l) ++ events_bytes es) in *.
      apply IH; auto. rewrite app_length in Hf. cbn [length] in *. lia.
    + inv F. change (events_bytes (EvInterrupted :: es)) with (events_bytes es) in *.
      apply (IH s [] es); auto. cbn [length] in *. lia.
    + inv F. contradiction.
  - set (b0 := x :: buf) in *. assert (Hne : b0 <> []) by discriminate. clearbody b0. clear x buf.
    pose proof (law_push _ _ _ L s b0 G) as H. destruct (push D s b0) as [[s' r] []].
    + destruct H as (G' & (p & -> & Hp) & Hd). rewrite Hd. apply IH; auto.
      specialize (Hp Hne). destruct p; [congruence|]. rewrite app_length in Hf. cbn [length] in Hf. lia.
    + destruct H as (_ & Hd). rewrite Hd. destruct (fin D s') as [[]|]; cbn; eauto.
    + destruct H as (_ & Hd). rewrite Hd. eauto.
    + now rewrite H.
Qed.

Lemma decode_from_read_den : forall es, Forall data_ok es ->
  match den (init D) (events_bytes es) with
  | Done v r => exists b es', decode_from_read D es = Ret (Ok v, b, es') /\ b ++ events_bytes es' = r
  | More e | Fail e => exists b es', decode_from_read D es = Ret (Err (ReDecode e), b, es')
  | Boom => decode_from_read D es = Panic
  end.
Proof.
  intros es F. unfold decode_from_read.
  refine (read_loop_den _ _ [] es (law_init _ _ _ L) F _). cbn [length]. lia.
Qed.

(** whatever the events (including I/O errors), a success can only be the right value *)
Lemma unbuffered_den : forall fuel bs s src want, g s -> 0 < bs ->
  (length src + length want < fuel)%nat ->
  match den s src with
  | Done v r => unbuffered_loop D fuel bs s src want = Ret (Ok v, r)
  | More e | Fail e => exists r, unbuffered_loop D fuel bs s src want = Ret (Err (ReDecode e), r)
  | Boom => unbuffered_loop D fuel bs s src want = Panic
  end.
Proof.
  induction fuel as [|fuel IH]; intros bs s src want G Hbs Hf; [lia|].
  cbn [unbuffered_loop]. destruct (lim D s =? 0) eqn:Hz.
  { apply N.eqb_eq in Hz. rewrite (law_lim0 _ _ _ L s G Hz).
    destruct (fin D s) as [[]|]; cbn; eauto. }
  apply N.eqb_neq in Hz. set (cap := N.min (lim D s) bs). assert (Hcap : 0 < cap) by (unfold cap; lia).
  (* one non-interrupted read of at most [w] *)
  assert (Main : forall w want', 0 < w -> (length want' <= length want)%nat ->
    match den s src with
    | Done v r =>
        match takeN (N.min (N.min w cap) (lenN src)) src with
        | [] => match fin D s with Panic => Panic | Ret (Ok v0) => Ret (Ok v0, dropN (N.min (N.min w cap) (lenN src)) src)
                | Ret (Err e) => Ret (Err (ReDecode e), dropN (N.min (N.min w cap) (lenN src)) src) end
        | _ :: _ => match feed D (length (takeN (N.min (N.min w cap) (lenN src)) src)) s (takeN (N.min (N.min w cap) (lenN src)) src) with
           | (s', _, NeedsMore) => unbuffered_loop D fuel bs s' (dropN (N.min (N.min w cap) (lenN src)) src) want'
           | (s', _, Ready) => match fin D s' with Panic => Panic | Ret (Ok v0) => Ret (Ok v0, dropN (N.min (N.min w cap) (lenN src)) src)
                | Ret (Err e) => Ret (Err (ReDecode e), dropN (N.min (N.min w cap) (lenN src)) src) end
           | (_, _, PErr e) => Ret (Err (ReDecode e), dropN (N.min (N.min w cap) (lenN src)) src)
           | (_, _, PPanic) => Panic end
        end = Ret (Ok v, r)
    | More e | Fail e => exists r,
        match takeN (N.min (N.min w cap) (lenN src)) src with
        | [] => match fin D s with Panic => Panic | Ret (Ok v0) => Ret (Ok v0, dropN (N.min (N.min w cap) (lenN src)) src)
                | Ret (Err e) => Ret (Err (ReDecode e), dropN (N.min (N.min w cap) (lenN src)) src) end
        | _ :: _ => match feed D (length (takeN (N.min (N.min w cap) (lenN src)) src)) s (takeN (N.min (N.min w cap) (lenN src)) src) with
           | (s', _, NeedsMore) => unbuffered_loop D fuel bs s' (dropN (N.min (N.min w cap) (lenN src)) src) want'
           | (s', _, Ready) => match fin D s' with Panic => Panic | Ret (Ok v0) => Ret (Ok v0, dropN (N.min (N.min w cap) (lenN src)) src)
                | Ret (Err e) => Ret (Err (ReDecode e), dropN (N.min (N.min w cap) (lenN src)) src) end
           | (_, _, PErr e) => Ret (Err (ReDecode e), dropN (N.min (N.min w cap) (lenN src)) src)
           | (_, _, PPanic) => Panic end
        end = Ret (Err (ReDecode e), r)
    | Boom =>
        match takeN (N.min (N.min w cap) (lenN src)) src with
        | [] => match fin D s with Panic => Panic | Ret (Ok v0) => Ret (Ok v0, dropN (N.min (N.min w cap) (lenN src)) src)
                | Ret (Err e) => Ret (Err (ReDecode e), dropN (N.min (N.min w cap) (lenN src)) src) end
        | _ :: _ => match feed D (length (takeN (N.min (N.min w cap) (lenN src)) src)) s (takeN (N.min (N.min w cap) (lenN src)) src) with
           | (s', _, NeedsMore) => unbuffered_loop D fuel bs s' (dropN (N.min (N.min w cap) (lenN src)) src) want'
           | (s', _, Ready) => match fin D s' with Panic => Panic | Ret (Ok v0) => Ret (Ok v0, dropN (N.min (N.min w cap) (lenN src)) src)
                | Ret (Err e) => Ret (Err (ReDecode e), dropN (N.min (N.min w cap) (lenN src)) src) end
           | (_, _, PErr e) => Ret (Err (ReDecode e), dropN (N.min (N.min w cap) (lenN src)) src)
           | (_, _, PPanic) => Panic end
        end = Panic
    end).
  { intros w want' Hw Hlw. set (n := N.min (N.min w cap) (lenN src)).
    pose proof (takeN_dropN n src) as Hsplit.
    assert (Hlen : lenN (takeN n src) = n) by (rewrite lenN_takeN; unfold n; lia).
    destruct (takeN n src) as [|x got0] eqn:Hgot.
    - (* end of input *)
      rewrite lenN_nil in Hlen. assert (src = []) by (apply lenN_nil_inv; unfold n in Hlen; lia). subst src.
      pose proof (law_fin _ _ _ L s G) as Hy. destruct (den s []) eqn:Hs; rewrite Hy; eauto.
      rewrite (done_nil _ _ _ G Hs). f_equal. f_equal. unfold dropN. destruct (N.to_nat n); reflexivity.
    - set (got := x :: got0) in *. assert (Hgne : got <> []) by discriminate.
      pose proof (feed_law (length got) s got G (le_n _)) as H.
      destruct (feed D (length got) s got) as [[s' r] []].
      + destruct H as (G' & _ & Hd). replace (den s src) with (den s (got ++ dropN n src)) by (now rewrite Hsplit). rewrite Hd. apply IH; auto.
        apply (f_equal (@length N)) in Hsplit. rewrite app_length in Hsplit.
        unfold got in Hsplit. cbn [length] in Hsplit. lia.
      + destruct H as ((p & Hp) & Hd). replace (den s src) with (den s (got ++ dropN n src)) by (now rewrite Hsplit). rewrite Hd. destruct (fin D s') as [[v|e]|]; cbn [of_fin of_res]; eauto.
        enough (r = []) by (subst r; reflexivity).
        specialize (Hd []). rewrite !app_nil_r in Hd. cbn [of_fin of_res] in Hd.
        pose proof (law_lim _ _ _ L _ _ _ _ G Hd). apply lenN_nil_inv. unfold n, cap in *. lia.
      + destruct H as (_ & Hd). replace (den s src) with (den s (got ++ dropN n src)) by (now rewrite Hsplit). rewrite Hd. eauto.
      + replace (den s src) with (den s (got ++ dropN n src)) by (now rewrite Hsplit). now rewrite H. }
  destruct want as [|w want'].
  - apply (Main cap []); auto.
  - destruct w as [|w].
    + apply IH; auto. cbn [length] in Hf. lia.
    + apply (Main (N.pos w) want'); [lia|cbn; lia].
Qed.

Lemma decode_unbuffered_den : forall bs src want, 0 < bs ->
  match den (init D) src with
  | Done v r => decode_from_read_unbuffered D bs src want = Ret (Ok v, r)
  | More e | Fail e => exists r, decode_from_read_unbuffered D bs src want = Ret (Err (ReDecode e), r)
  | Boom => decode_from_read_unbuffered D bs src want = Panic
  end.
Proof.
  intros. unfold decode_from_read_unbuffered.
  refine (unbuffered_den _ _ _ _ _ (law_init _ _ _ L) H _). lia.
Qed.

(** the flush of a full buffer reports surplus bytes without calling [end] *)
Lemma hex_loop_den : forall bs s buf, g s ->
  match den s (buf ++ bs) with
  | Done v [] => hex_loop D s buf (map Some bs) = Ret (Ok v)
  | Done v (_ :: _) => hex_loop D s buf (map Some bs) = Ret (Err (HeDecode DeUnconsumed))
  | More e => hex_loop D s buf (map Some bs) = Ret (Err (HeDecode (DeParse e)))
  | Fail e => exists e', hex_loop D s buf (map Some bs) = Ret (Err (HeDecode e')) /\ (e' = DeParse e \/ e' = DeUnconsumed)
  | Boom => hex_loop D s buf (map Some bs) = Panic \/ hex_loop D s buf (map Some bs) = Ret (Err (HeDecode DeUnconsumed))
  end.
Proof.
  induction bs as [|b bs IH]; intros s buf G; cbn [map hex_loop].
  - rewrite app_nil_r. pose proof (feed_law (length buf) s buf G (le_n _)) as H.
    destruct (feed D (length buf) s buf) as [[s' r] []].
    + destruct H as (G' & -> & Hd). specialize (Hd []). rewrite app_nil_r in Hd. rewrite Hd.
      pose proof (law_fin _ _ _ L s' G') as Hy. destruct (den s' []) eqn:Hs; rewrite Hy; eauto.
      now rewrite (done_nil _ _ _ G' Hs).
    + destruct H as (_ & Hd). specialize (Hd []). rewrite !app_nil_r in Hd. rewrite Hd.
      destruct r; destruct (fin D s') as [[]|]; cbn; eauto.
    + destruct H as (_ & Hd). specialize (Hd []). rewrite app_nil_r in Hd. rewrite Hd. destruct r; eauto.
    + specialize (H []). rewrite app_nil_r in H. rewrite H. destruct r; auto.
  - destruct (lenN buf =? 4096) eqn:Hb.
    + pose proof (feed_law (length buf) s buf G (le_n _)) as H.
      destruct (feed D (length buf) s buf) as [[s' r] []].
      * destruct H as (G' & _ & Hd). rewrite Hd. apply (IH s' [b] G').
      * destruct H as (_ & Hd). rewrite Hd. destruct (fin D s') as [[v|e]|]; cbn [of_fin of_res]; eauto.
        destruct (r ++ b :: bs) eqn:Hr; auto. now apply app_eq_nil in Hr as [_ ?].
      * destruct H as (_ & Hd). rewrite Hd. eauto.
      * rewrite H. auto.
    + replace (buf ++ b :: bs) with ((buf ++ [b]) ++ bs) by (now rewrite <- app_assoc).
      apply IH; auto.
Qed.

Lemma decode_hex_bad : forall bs s buf tl v, g s ->
  hex_loop D s buf (map Some bs ++ None :: tl) <> Ret (Ok v).
Proof.
  induction bs as [|b bs IH]; intros s buf tl v G; cbn [map app hex_loop]; [discriminate|].
  destruct (lenN buf =? 4096); auto.
  pose proof (feed_law (length buf) s buf G (le_n _)) as H.
  destruct (feed D (length buf) s buf) as [[s' r] []]; try discriminate.
  destruct H as (G' & _). auto.
Qed.
End Drive.
