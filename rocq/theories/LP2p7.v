(** The callers of a decoder do not see the difference made by [calm] when they succeed. *)
From Verif Require Import Base MDec LDec LDec2 LDrive LBuilt LPrefix LCompact LCodec MWitness SWitness LWitness LWitDec MTx MAmount MText LAmountText MPmt MBip152 LTx2 LWire LPmt3 LBip152 LTaproot LBip32b LSha2b MP2p MP2pMsg SWire SPmt SBip152 SP2p LP2p LP2p2 LP2p3 LP2p4 LP2p5 LP2p6.
Local Open Scope N_scope.

Ltac both := try congruence; split; let X := fresh in intros X; first [discriminate X | injection X; intros; subst; reflexivity].
Section Calm.
Context {A E : Type} (D : decoder A E).
Lemma calm_fin : forall s v, fin (calm D) s = Ret (Ok v) <-> fin D s = Ret (Ok v).
Proof. intros s v. cbn [fin calm]. destruct (fin D s) as [[]|]; both. Qed.
Lemma calm_feed : forall fuel s l,
  match feed D fuel s l with
  | (s', r, NeedsMore) => feed (calm D) fuel s l = (s', r, NeedsMore)
  | (s', r, Ready) => feed (calm D) fuel s l = (s', r, Ready)
  | _ => exists s' r p, feed (calm D) fuel s l = (s', r, p) /\ p <> NeedsMore /\ p <> Ready
  end.
Proof.
  induction fuel as [|fuel IH]; intros s l; destruct l as [|x l]; cbn [feed]; auto.
  - exists s, (x :: l), PPanic. repeat split; discriminate.
  - cbn [push calm]. destruct (push D s (x :: l)) as [[s' r] []]; auto.
    + apply IH.
    + exists s', (x :: l), (PErr tt). repeat split; discriminate.
    + exists s', (x :: l), (PErr tt). repeat split; discriminate.
Qed.
Lemma calm_chunks : forall cs s v r, feed_chunks (calm D) s cs = RDone v r <-> feed_chunks D s cs = RDone v r.
Proof.
  induction cs as [|c cs IH]; intros s v r; cbn [feed_chunks].
  - cbn [fin calm]. destruct (fin D s) as [[]|]; both.
  - pose proof (calm_feed (length c) s c) as H. destruct (feed D (length c) s c) as [[s' r'] []].
    + rewrite H. apply IH.
    + rewrite H. cbn [fin calm]. destruct (fin D s') as [[]|]; both.
    + destruct H as (s2 & r2 & p2 & -> & N1 & N2). destruct p2; both.
    + destruct H as (s2 & r2 & p2 & -> & N1 & N2). destruct p2; both.
Qed.
Lemma calm_slice : forall l v r, decode_from_slice_unbounded (calm D) l = Ret (Ok v, r) <-> decode_from_slice_unbounded D l = Ret (Ok v, r).
Proof.
  intros l v r. unfold decode_from_slice_unbounded. cbn [init calm]. pose proof (calm_feed (length l) (init D) l) as H. destruct (feed D (length l) (init D) l) as [[s' r'] []].
  - rewrite H. cbn [fin calm]. destruct (fin D s') as [[]|]; both.
  - rewrite H. cbn [fin calm]. destruct (fin D s') as [[]|]; both.
  - destruct H as (s2 & r2 & p2 & -> & N1 & N2). destruct p2; both.
  - destruct H as (s2 & r2 & p2 & -> & N1 & N2). destruct p2; both.
Qed.
Lemma calm_read : forall fuel s buf es v b es', read_loop (calm D) fuel s buf es = Ret (Ok v, b, es') <-> read_loop D fuel s buf es = Ret (Ok v, b, es').
Proof.
  induction fuel as [|fuel IH]; intros s buf es v b es'; cbn [read_loop]; [split; discriminate|]. destruct buf as [|x buf].
  - destruct es as [|[[|y l]| |] es]; try apply IH; try (split; discriminate); (cbn [fin calm]; destruct (fin D s) as [[]|]; both).
  - cbn [push calm]. destruct (push D s (x :: buf)) as [[s' r'] []]; try apply IH; try (split; discriminate).
    cbn [fin calm]. destruct (fin D s') as [[]|]; both.
Qed.
Lemma calm_unbuffered : forall fuel bs s src want v r, unbuffered_loop (calm D) fuel bs s src want = Ret (Ok v, r) <-> unbuffered_loop D fuel bs s src want = Ret (Ok v, r).
Proof.
  induction fuel as [|fuel IH]; intros bs s src want v r; cbn [unbuffered_loop]; [split; discriminate|].
  assert (F : forall s src, match fin (calm D) s with Panic => Panic | Ret (Ok v) => Ret (Ok v, src) | Ret (Err e) => Ret (Err (ReDecode e), src) end = Ret (Ok v, r) <->
              match fin D s with Panic => Panic | Ret (Ok v) => Ret (Ok v, src) | Ret (Err e) => Ret (Err (ReDecode e), src) end = Ret (Ok v, r)).
  { intros s0 src0. cbn [fin calm]. destruct (fin D s0) as [[]|]; both. }
  change (lim (calm D) s) with (lim D s). destruct (lim D s =? 0); [apply F|].
  set (k := N.min (N.min match want with [] => N.min (lim D s) bs | x :: _ => x end (N.min (lim D s) bs)) (lenN src)).
  assert (B : match takeN k src with
            | [] => match fin (calm D) s with Panic => Panic | Ret (Ok v) => Ret (Ok v, dropN k src) | Ret (Err e) => Ret (Err (ReDecode e), dropN k src) end
            | _ :: _ => match feed (calm D) (length (takeN k src)) s (takeN k src) with
                | (s', _, NeedsMore) => unbuffered_loop (calm D) fuel bs s' (dropN k src) (tl want)
                | (s', _, Ready) => match fin (calm D) s' with Panic => Panic | Ret (Ok v) => Ret (Ok v, dropN k src) | Ret (Err e) => Ret (Err (ReDecode e), dropN k src) end
                | (_, _, PErr e) => Ret (Err (ReDecode e), dropN k src)
                | (_, _, PPanic) => Panic
                end
            end = Ret (Ok v, r) <->
            match takeN k src with
            | [] => match fin D s with Panic => Panic | Ret (Ok v) => Ret (Ok v, dropN k src) | Ret (Err e) => Ret (Err (ReDecode e), dropN k src) end
            | _ :: _ => match feed D (length (takeN k src)) s (takeN k src) with
                | (s', _, NeedsMore) => unbuffered_loop D fuel bs s' (dropN k src) (tl want)
                | (s', _, Ready) => match fin D s' with Panic => Panic | Ret (Ok v) => Ret (Ok v, dropN k src) | Ret (Err e) => Ret (Err (ReDecode e), dropN k src) end
                | (_, _, PErr e) => Ret (Err (ReDecode e), dropN k src)
                | (_, _, PPanic) => Panic
                end
            end = Ret (Ok v, r)).
  { destruct (takeN k src) as [|x y] eqn:T; [apply F|]. pose proof (calm_feed (length (x :: y)) s (x :: y)) as H. destruct (feed D (length (x :: y)) s (x :: y)) as [[s' r'] []].
    - rewrite H. apply IH.
    - rewrite H. apply F.
    - destruct H as (s2 & r2 & p2 & -> & N1 & N2). destruct p2; both.
    - destruct H as (s2 & r2 & p2 & -> & N1 & N2). destruct p2; both. }
  destruct want as [|[|w] want]; [exact B|apply IH|exact B].
Qed.
End Calm.

(** *** Writing back what was read *)
Lemma reads_version_encode : forall v p, reads_version v p -> lenN (version_encode v) = lenN p /\ reads_version v (version_encode v).
Proof.
  intros v p (W1 & W2 & W3 & W4 & W5 & W6 & W7 & bu & x & U & UL & X1 & X2 & ->).
  assert (E : version_encode v = le_bytes 4 (v_version v) ++ le_bytes 8 (v_services v) ++ twos 8 (v_timestamp v) ++ wire_address (v_receiver v) ++
      wire_address (v_sender v) ++ le_bytes 8 (v_nonce v) ++ wire_bytes bu ++ twos 4 (v_start_height v) ++ [bool_byte (v_relay v)]).
  { unfold version_encode. rewrite !wire_address_eq, prefixed_wire, <- (utf8_bytes _ _ U). reflexivity. }
  rewrite E. split; [rewrite !lenN_app; reflexivity|]. split; [exact W1|]. split; [exact W2|]. split; [exact W3|]. split; [exact W4|]. split; [exact W5|]. split; [exact W6|]. split; [exact W7|].
  exists bu, (bool_byte (v_relay v)). split; [exact U|]. split; [exact UL|]. split; [destruct (v_relay v); reflexivity|]. split; [destruct (v_relay v); cbn [bool_byte]; split; congruence|]. reflexivity.
Qed.
Lemma reads_encode : forall m p, reads m p -> match m with MVersion _ => True | _ => payload_encode m = p end.
Proof.
  intros m p R. destruct m; cbn [reads payload_encode] in *; try (match type of R with _ /\ _ = _ => destruct R as [R ->] end); auto.
  - apply addr_list_eq.
  - apply inv_list_eq.
  - apply inv_list_eq.
  - apply inv_list_eq.
  - destruct R as (R1 & R2 & R3 & ->). unfold get_blocks_encode. now rewrite hash_list_eq.
  - destruct R as (R1 & R2 & R3 & ->). unfold get_blocks_encode. now rewrite hash_list_eq.
  - unfold block_encode. now rewrite tx_list_eq.
  - apply header_list_eq.
  - destruct R as (R1 & R2 & R3 & w & R4 & ->). apply encode_wire in R4 as ->. reflexivity.
  - destruct R as (R1 & R2 & R3 & ->). unfold filter_load_encode. rewrite prefixed_wire. now destruct (fl_flags f).
  - apply prefixed_wire.
  - destruct R as (R1 & R2 & R3 & ->). reflexivity.
  - destruct R as (R1 & R2 & R3 & ->). unfold cfilter_encode. now rewrite prefixed_wire.
  - destruct R as (R1 & R2 & R3 & ->). reflexivity.
  - destruct R as (R1 & R2 & R3 & R4 & ->). unfold cfheaders_encode. now rewrite hash_list_eq.
  - destruct g as [t h]. destruct R as (R1 & R2 & ->). reflexivity.
  - destruct R as (R1 & R2 & R3 & ->). unfold cfcheckpt_encode. now rewrite hash_list_eq.
  - destruct s as [c v]. destruct R as (R1 & ->). reflexivity.
  - now rewrite wire_cb_eq.
  - now rewrite wire_request_eq.
  - now rewrite wire_block_txs_eq.
  - apply prefixed_wire.
  - symmetry. now apply reject_eq.
  - destruct R as (kvb & R1 & -> & ->). now rewrite fee_enc.
  - apply addr_v2_list_eq. apply R.
  - destruct s as [c v]. destruct R as (R1 & R2 & ->). reflexivity.
  - destruct f as [i d]. destruct R as (R1 & R2 & R3 & R4 & ->). unfold feature_encode. cbn [fst snd]. now rewrite !prefixed_wire, ascii_bytes.
Qed.
