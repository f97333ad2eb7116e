(** Lemmas about hexadecimal forms. *)
From Verif Require Import Base MDec SDec LDec LDrive LCodec LBuilt MText SText LText MWitness MTx SWire LWire MKey LKey LSig MHex SHex.
From Coq Require Import String.
From Verif Require MP2p LP2p2 LCompact LWire.
Local Open Scope N_scope.

Lemma emit_all : forall up b n, emit up b n = takeN n (hex_bytes up b).
Proof.
  intros up b. induction b as [|x b IH]; intro n.
  - cbn [emit]. unfold takeN. cbn [hex_bytes flat_map]. now rewrite firstn_nil.
  - cbn [emit]. unfold hex_bytes. cbn [flat_map hex_byte app]. fold (hex_bytes up b). unfold takeN in *.
    destruct (N.eqb_spec n 0) as [->|H]; [reflexivity|].
    replace (N.to_nat n) with (S (N.to_nat (n - 1))) by lia. cbn [firstn]. f_equal.
    destruct (N.eqb_spec (n - 1) 0) as [E|H1]; [rewrite E; reflexivity|].
    replace (N.to_nat (n - 1)) with (S (N.to_nat (n - 1 - 1))) by lia. cbn [firstn]. f_equal. apply IH.
Qed.
Lemma hex_bytes_len : forall up b, lenN (hex_bytes up b) = lenN b * 2.
Proof. intros up b. induction b as [|x b IH]; [reflexivity|]. unfold hex_bytes in *. cbn [flat_map hex_byte app]. rewrite !lenN_cons, IH. lia. Qed.
Lemma take_hex : forall up b, takeN (lenN b * 2) (hex_bytes up b) = hex_bytes up b.
Proof. intros. apply takeN_all. rewrite hex_bytes_len. lia. Qed.
Lemma prefix_eq : forall f up, (if f_alt f then (if up : bool then lit "0X"%string else lit "0x"%string) else []) = prefix_of f up.
Proof. intros f up. unfold prefix_of. destruct (f_alt f), up; reflexivity. Qed.
Lemma fmt_plain : forall up b, fmt_hex plain up b = hex_bytes up b.
Proof.
  intros. unfold fmt_hex, plain. cbn [f_alt f_width f_prec f_align f_fill]. rewrite emit_all, N.add_0_r, N.sub_diag, take_hex. cbn [N.to_nat repeat app].
  change (N.to_nat (0 - 0)) with O. cbn [repeat]. now rewrite app_nil_r.
Qed.
Lemma case_char : forall up d, d < 16 -> digit_case up (hex_char up d).
Proof. intros up d H. unfold digit_case, hex_char. destruct (N.ltb_spec d 10); destruct up; lia. Qed.
Lemma hex_spells : forall up b, bytes_ok b -> spells up (hex_bytes up b) b.
Proof.
  intros up b H. split; [now apply hex_bytes_of|]. induction H as [|x b Hx Hb IH]; [constructor|]. unfold hex_bytes in *. cbn [flat_map hex_byte app].
  unfold byte_ok in Hx. constructor; [apply case_char, N.div_lt_upper_bound; lia|]. constructor; [apply case_char, N.mod_lt; lia|exact IH].
Qed.
Lemma digit_case_unique : forall up c d, digit16 c d -> digit_case up c -> d < 16 /\ c = hex_char up d.
Proof.
  intros up c d H1 H2. unfold digit16, digit10, digit_case, hex_char in *. destruct (N.ltb_spec d 10); destruct up; lia.
Qed.
Lemma spells_hex : forall up s b, spells up s b -> s = hex_bytes up b.
Proof.
  intros up s b [H F]. induction H as [|c1 d1 c2 d2 s b D1 D2 H IH]; [reflexivity|]. inv F. inv H3.
  unfold hex_bytes. cbn [flat_map hex_byte app]. fold (hex_bytes up b). rewrite <- IH by auto.
  destruct (digit_case_unique up _ _ D1 H2) as [L1 E1]. destruct (digit_case_unique up _ _ D2 H4) as [L2 E2].
  rewrite E1, E2. f_equal; [|f_equal].
  - f_equal. rewrite N.mul_comm, N.div_add_l by lia. rewrite N.div_small by lia. lia.
  - f_equal. rewrite N.add_comm, N.mul_comm, N.mod_add by lia. now rewrite N.mod_small.
Qed.

(** ** the iterator *)
Lemma items_of : forall s b, hex_of s b -> hex_items s = map Some b.
Proof.
  intros s b H. induction H as [|c1 d1 c2 d2 s b D1 D2 H IH]; [reflexivity|]. cbn [hex_items map]. rewrite IH.
  assert (K : forall c d, digit16 c d -> to_digit 16 c = Some d).
  { clear. intros c d H. pose proof (hex_pairs_of [c; c] [16 * d + d] (hex_cons c d c d [] [] H H hex_nil)) as K. cbn [hex_pairs] in K.
    destruct (to_digit 16 c) as [x|]; [|discriminate]. f_equal.
    pose proof (f_equal (fun o => match o with Some (v :: _) => v | _ => 0 end) K) as Q. cbn beta iota in Q. lia. }
  now rewrite (K c1 d1), (K c2 d2).
Qed.
Lemma of_items : forall n b l, (List.length b <= n)%nat -> lenN b mod 2 = 0 -> hex_items b = map Some l -> hex_of b l.
Proof.
  induction n as [|n IH]; intros b l Hn Hm H.
  - destruct b; [|cbn in Hn; lia]. destruct l; [constructor|discriminate].
  - destruct b as [|x [|y b]].
    + destruct l; [constructor|discriminate].
    + discriminate Hm.
    + cbn [hex_items] in H. destruct l as [|v l]; [discriminate|]. cbn [map] in H.
      assert (T : hex_items b = map Some l) by congruence.
      destruct (to_digit 16 x) as [h|] eqn:E1; [|congruence]. destruct (to_digit 16 y) as [w|] eqn:E2; [|congruence].
      assert (v = 16 * h + w) as -> by congruence.
      assert (K : hex_of [x; y] [16 * h + w]) by (apply hex_of_pairs; cbn [hex_pairs]; now rewrite E1, E2).
      assert (L : hex_of b l).
      { apply IH; auto; [cbn [List.length] in Hn; lia|]. rewrite !lenN_cons in Hm.
        replace (1 + (1 + lenN b)) with (lenN b + 1 * 2) in Hm by lia. now rewrite N.mod_add in Hm. }
      clear - K L. remember [x; y] as s eqn:Es. remember [16 * h + w] as r eqn:Er. destruct K as [|c1 d1 c2 d2 s b' D1 D2 K]; [discriminate|].
      injection Es as -> -> ->.
      pose proof (f_equal (hd 0) Er) as Q. cbn [hd] in Q. rewrite <- Q. now constructor.
Qed.
Lemma split_items : forall (l : list (option N)), (exists b, l = map Some b) \/ exists b tl, l = map Some b ++ None :: tl.
Proof.
  induction l as [|[x|] l [(b & ->)|(b & tl & ->)]].
  - left. now exists [].
  - left. now exists (x :: b).
  - right. now exists (x :: b), tl.
  - right. now exists [], (map Some b).
  - right. exists [], (map Some b ++ None :: tl). reflexivity.
Qed.
Lemma to_digit_ascii : forall c d, to_digit 16 c = Some d -> c < 128.
Proof.
  intros c d H. unfold to_digit in H.
  destruct ((48 <=? c) && (c <=? 57)) eqn:E1; [apply andb_true_iff in E1; destruct E1 as [_ E]; apply N.leb_le in E; lia|].
  destruct ((97 <=? c) && (c <=? 122)) eqn:E2; [apply andb_true_iff in E2; destruct E2 as [_ E]; apply N.leb_le in E; lia|].
  destruct ((65 <=? c) && (c <=? 90)) eqn:E3; [apply andb_true_iff in E3; destruct E3 as [_ E]; apply N.leb_le in E; lia|].
  discriminate.
Qed.
Lemma as_bytes_ascii : forall s, is_ascii s = true -> MP2p.as_bytes s = s.
Proof.
  induction s as [|c s IH]; intro H; [reflexivity|]. unfold is_ascii in H. cbn [forallb] in H. apply andb_true_iff in H. destruct H as [H1 H2].
  unfold MP2p.as_bytes in *. cbn [flat_map]. rewrite IH by exact H2. unfold MP2p.char_utf8. rewrite H1. reflexivity.
Qed.
Lemma ascii_as_bytes : forall s, Forall (fun c => c < 128) (MP2p.as_bytes s) -> MP2p.as_bytes s = s.
Proof.
  induction s as [|c s IH]; intro H; [reflexivity|]. unfold MP2p.as_bytes in *. cbn [flat_map] in *. apply Forall_app in H. destruct H as [H1 H2].
  rewrite IH by exact H2. clear IH H2. revert H1. unfold MP2p.char_utf8. destruct (c <? 128); [reflexivity|].
  destruct (c <? 2048); [|destruct (c <? 65536)]; intro F; apply Forall_inv in F; cbn beta in F; exfalso; revert F; apply N.le_ngt;
    match goal with |- 128 <= ?a + ?b => apply N.le_trans with a; [discriminate|apply N.le_add_r] end.
Qed.

(** ** panics *)
Section Panic.
Context {A E : Type} (D : decoder A E) (g : st D -> Prop) (den : st D -> bytes -> outcome A E) (L : lawful D g den).
Lemma hex_panic : forall items s buf, g s -> hex_loop D s buf items = Panic ->
  exists bs tl, items = map Some bs ++ tl /\ den s (buf ++ bs) = Boom.
Proof using L.
  induction items as [|[b|] items IH]; intros s buf G H; cbn [hex_loop] in H.
  - exists [], []. split; [reflexivity|]. pose proof (hex_loop_den D g den L [] s buf G) as K. cbn [map hex_loop] in K.
    destruct (den s (buf ++ [])) as [v [|]| | |]; try (rewrite H in K; discriminate); auto.
    destruct K as (e' & K & _). rewrite H in K. discriminate.
  - destruct (lenN buf =? 4096) eqn:Hb.
    + pose proof (feed_law D g den L (List.length buf) s buf G (le_n _)) as F.
      destruct (feed D (List.length buf) s buf) as [[s' r] []]; try discriminate.
      * destruct F as (G' & _ & Hd). destruct (IH s' [b] G' H) as (bs & tl & -> & Q). exists (b :: bs), tl. split; [reflexivity|]. rewrite Hd. exact Q.
      * exists [], (Some b :: items). split; [reflexivity|apply F].
    + destruct (IH s (buf ++ [b]) G H) as (bs & tl & -> & Q). exists (b :: bs), tl. split; [reflexivity|]. rewrite <- app_assoc in Q. exact Q.
  - discriminate.
Qed.
End Panic.
Lemma items_bytes : forall n b bs tl, (List.length b <= n)%nat -> hex_items b = map Some bs ++ tl -> bytes_ok bs /\ 2 * lenN bs <= lenN b.
Proof.
  induction n as [|n IH]; intros b bs tl Hn H.
  - destruct b; [|cbn in Hn; lia]. destruct bs; [split; [constructor|reflexivity]|discriminate].
  - destruct bs as [|v bs]; [split; [constructor|rewrite lenN_nil; lia]|]. destruct b as [|x [|y b]]; try discriminate.
    cbn [hex_items map app] in H. assert (T : hex_items b = map Some bs ++ tl) by congruence.
    destruct (IH b bs tl) as [I1 I2]; auto; [cbn [List.length] in Hn; lia|].
    destruct (to_digit 16 x) as [h|] eqn:E1; [|congruence]. destruct (to_digit 16 y) as [w|] eqn:E2; [|congruence].
    assert (v = 16 * h + w) as -> by congruence.
    assert (K : hex_of [x; y] [16 * h + w]) by (apply hex_of_pairs; cbn [hex_pairs]; now rewrite E1, E2).
    apply hex_of_bytes in K. split; [constructor; [exact (Forall_inv K)|exact I1]|]. rewrite !lenN_cons. lia.
Qed.

(** ** decoding text *)
Section Codec.
Context {A E : Type} {D : decoder A E} {enc : A -> bytes} {wf : A -> Prop} (C : codec D enc wf).
Lemma hex_str_ok : forall s v, decode_from_hex_str D s = Ret (Ok v) <-> hex_of s (enc v) /\ wf v.
Proof using C.
  intros s v. pose proof C as (g & den & L & _). unfold decode_from_hex_str.
  assert (Main : forall l, hex_of s l -> decode_from_hex D (map Some l) = Ret (Ok v) <-> l = enc v /\ wf v).
  { intros l H. rewrite <- (codec_slice C l v (hex_of_bytes _ _ H)). rewrite (hex_whole D g den L).
    rewrite (slice_whole D g den L l). unfold bytes in *. destruct (feed_chunks D (init D) [l]) as [v' []| |]; split; intro Q; inv Q; auto. }
  destruct (N.eqb_spec (lenN (MP2p.as_bytes s) mod 2) 0) as [Ev|Od]; cbn [negb].
  - destruct (split_items (hex_items (MP2p.as_bytes s))) as [(l & Hl)|(l & tl & Hl)].
    + assert (H : hex_of (MP2p.as_bytes s) l) by (eapply of_items; [reflexivity|exact Ev|exact Hl]).
      assert (As : MP2p.as_bytes s = s) by (apply ascii_as_bytes, LP2p2.is_ascii_all; eapply hex_of_ascii; exact H).
      rewrite As in *. rewrite Hl. pose proof (Main l H) as M. split.
      * intro Q. destruct (decode_from_hex D (map Some l)) as [[v'|e]|]; cbn [rbind] in Q; try discriminate.
        destruct M as [M _]. destruct M as [-> W]; [congruence|]. split; assumption.
      * intros [H' W]. assert (l = enc v) as -> by (apply hex_pairs_of in H, H'; congruence).
        destruct M as [_ M]. rewrite M by auto. reflexivity.
    + rewrite Hl. split.
      * intro Q. destruct (decode_from_hex D (map Some l ++ None :: tl)) as [[v'|e]|] eqn:K; cbn [rbind] in Q; try discriminate.
        exfalso. exact (hex_bad D g den L l tl v' K).
      * intros [H _]. exfalso. rewrite (as_bytes_ascii s (hex_of_ascii _ _ H)), (items_of _ _ H) in Hl. clear - Hl. revert l Hl.
        generalize (enc v). intro b. induction b as [|x b IH]; intros l Hl; destruct l; try discriminate. cbn [map app] in Hl. injection Hl. eauto.
  - split; [discriminate|]. intros [H _]. rewrite (as_bytes_ascii s (hex_of_ascii _ _ H)) in Od. exfalso. apply Od.
    assert (R : lenN s = 2 * lenN (enc v)).
    { unfold lenN. rewrite (hex_of_length _ _ H). lia. }
    rewrite R, N.mul_comm. apply N.mod_mul. discriminate.
Qed.
(** an answer for every text, and what an error means *)
Lemma hex_str_err : forall s, lenN (MP2p.as_bytes s) < 2 ^ 33 ->
  exists r, decode_from_hex_str D s = Ret r /\
  match r with
  | Ok v => hex_of s (enc v) /\ wf v
  | Err (FhOddLength n) => n = lenN (MP2p.as_bytes s) /\ n mod 2 = 1
  | Err (FhOther HeInvalidChar) => lenN (MP2p.as_bytes s) mod 2 = 0 /\ ~ exists b, hex_of s b
  | Err (FhOther (HeDecode _)) => lenN (MP2p.as_bytes s) mod 2 = 0 /\ ~ exists v, hex_of s (enc v) /\ wf v
  end.
Proof using C.
  intros s Hs. destruct (decode_from_hex_str D s) as [r|] eqn:R.
  - exists r. split; [reflexivity|]. destruct r as [v|e].
    + now apply hex_str_ok.
    + assert (NO : ~ exists v, hex_of s (enc v) /\ wf v).
      { intros (v & V). apply hex_str_ok in V. congruence. }
      unfold decode_from_hex_str in R. destruct (N.eqb_spec (lenN (MP2p.as_bytes s) mod 2) 0) as [Ev|Od]; cbn [negb] in R.
      * destruct (decode_from_hex D (hex_items (MP2p.as_bytes s))) as [[v|e']|] eqn:K; cbn [rbind] in R; try discriminate.
        assert (e = FhOther e') as -> by congruence. destruct e' as [|de]; split; auto.
        intros (b & H). rewrite (as_bytes_ascii s (hex_of_ascii _ _ H)), (items_of _ _ H) in K.
        pose proof C as (g & den & L & _). pose proof (hex_loop_den D g den L b (init D) [] (law_init _ _ _ L)) as Q. cbn [app] in Q.
        unfold decode_from_hex in K. destruct (den (init D) b) as [v [|]| | |]; try (rewrite K in Q; discriminate).
        -- destruct Q as (e' & Q & _). rewrite K in Q. discriminate.
        -- destruct Q as [Q|Q]; rewrite K in Q; discriminate.
      * assert (e = FhOddLength (lenN (MP2p.as_bytes s))) as -> by congruence. split; [reflexivity|].
        pose proof (N.mod_lt (lenN (MP2p.as_bytes s)) 2 ltac:(discriminate)). lia.
  - exfalso. unfold decode_from_hex_str in R. destruct (negb _); [discriminate|].
    destruct (decode_from_hex D (hex_items (MP2p.as_bytes s))) as [?|] eqn:K; [discriminate|].
    pose proof C as (g & den & L & _ & _ & _ & NB). destruct (hex_panic D g den L _ _ _ (law_init _ _ _ L) K) as (bs & tl & H & Q).
    destruct (items_bytes _ _ _ _ (le_n _) H) as [B1 B2]. cbn [app] in Q. apply (NB bs); auto.
    unfold U32_MAX. change (2 ^ 33) with 8589934592 in Hs. lia.
Qed.
Lemma hex_str_back : forall up v, wf v -> bytes_ok (enc v) -> decode_from_hex_str D (hex_bytes up (enc v)) = Ret (Ok v).
Proof using C. intros up v W B. apply hex_str_ok. split; [now apply hex_bytes_of|exact W]. Qed.
End Codec.

(** ** encodings are bytes *)
Ltac apps := repeat match goal with |- bytes_ok (_ ++ _) => apply bytes_ok_app; split end.
Lemma flat_ok : forall T (f : T -> bytes) l, Forall (fun x => bytes_ok (f x)) l -> bytes_ok (flat_map f l).
Proof. intros T f l F. induction F as [|x l H F IH]; [constructor|]. cbn [flat_map]. apply bytes_ok_app. split; assumption. Qed.
Lemma slice_ok : forall T (f : T -> bytes) l, Forall (fun x => bytes_ok (f x)) l -> bytes_ok (slice_encode f l).
Proof. intros. unfold slice_encode. apply bytes_ok_app. split; [apply LCompact.cs_encode_ok|now apply flat_ok]. Qed.
Lemma script_encode_ok : forall s, bytes_ok s -> bytes_ok (script_encode s).
Proof. intros. unfold script_encode. apply bytes_ok_app. split; [apply LCompact.cs_encode_ok|assumption]. Qed.
Lemma wit_encode_ok : forall w, witness_ok w -> bytes_ok (wit_encode w).
Proof.
  intros w (ls & H1 & _ & H2). rewrite (LWire.wit_encode_stack _ _ H1). unfold wire_stack. rewrite <- (wire_list_eq _ script_encode wire_bytes).
  - apply slice_ok. eapply Forall_impl; [|exact H2]. intros s [_ K]. now apply script_encode_ok.
  - intro s. symmetry. unfold script_encode. now rewrite <- wire_bytes_eq.
Qed.
Lemma tx_encode_ok : forall tx, tx_shape tx -> bytes_ok (tx_encode tx).
Proof.
  intros tx (H1 & H2 & (_ & H3) & (_ & H4)). unfold tx_encode. cbv zeta. apps; try apply le_bytes_ok.
  - destruct (uses_segwit tx); repeat constructor; unfold byte_ok; lia.
  - apply slice_ok. eapply Forall_impl; [|exact H3]. intros i (((P & P') & _) & (_ & S) & _). unfold txin_encode, outpoint_encode.
    apps; try apply le_bytes_ok; [exact P'|now apply script_encode_ok].
  - apply slice_ok. eapply Forall_impl; [|exact H4]. intros o (_ & (_ & S)). unfold txout_encode.
    apps; try apply le_bytes_ok. now apply script_encode_ok.
  - destruct (uses_segwit tx); [|constructor]. apply flat_ok. eapply Forall_impl; [|exact H3]. intros i (_ & _ & _ & W). now apply wit_encode_ok.
Qed.
Lemma header_encode_ok : forall h, header_ok h -> bytes_ok (header_encode h).
Proof. intros h (_ & (_ & A) & (_ & B) & _). unfold header_encode. apps; try apply le_bytes_ok; assumption. Qed.
Lemma block_encode_ok : forall b, block_ok b -> bytes_ok (block_encode b).
Proof.
  intros b (H & _ & F). unfold block_encode. apply bytes_ok_app. split; [now apply header_encode_ok|]. apply slice_ok.
  eapply Forall_impl; [|exact F]. intros t [S _]. now apply tx_encode_ok.
Qed.
