(** Decoders that stay ready: an invariant for each. *)
From Verif Require Import Base MText MDec LDec MWitness MTx MPmt MP2p MBip152 MP2pMsg SReady.
Local Open Scope N_scope.

Definition sealed {A E} (D : decoder A E) (P : st D -> Prop) : Prop :=
  (forall s l s' l', push D s l = (s', l', Ready) -> P s') /\
  (forall s m, P s -> exists s', push D s m = (s', m, Ready) /\ fin D s' = fin D s /\ P s').
Lemma sealed_stays : forall A E (D : decoder A E) P, sealed D P -> stays_ready D.
Proof.
  intros A E D P [H1 H2] s l s' l' R ms. apply H1 in R. clear H1 s l l'. revert s' R.
  induction ms as [|m ms IH]; intros s R; [exact I|]. destruct (H2 s m R) as (s' & E1 & E2 & R'). exists s'. auto.
Qed.
Lemma array_sealed : forall n, sealed (array_dec n) (fun s => lenN s = n).
Proof.
  intros n. split.
  - intros s l s' l' H. cbn [array_dec push] in H. unfold array_push in H. destruct (N.ltb_spec n (lenN s)); [discriminate|].
    destruct (N.ltb_spec (lenN (s ++ takeN (N.min (lenN l) (n - lenN s)) l)) n) as [L|L]; [discriminate|]. injection H as <- _.
    rewrite lenN_app, lenN_takeN in *. lia.
  - intros s m L. exists s. cbn [array_dec push]. unfold array_push. rewrite L, N.ltb_irrefl, N.sub_diag, N.min_0_r, takeN_0, dropN_0, app_nil_r, L, N.ltb_irrefl. auto.
Qed.
Lemma newtype_sealed : forall A E B F (D : decoder A E) (me : E -> F) (f : A -> result B F) P, sealed D P -> sealed (newtype_dec D me f) P.
Proof.
  intros A E B F D me f P [H1 H2]. split.
  - intros s l s' l' H. cbn [newtype_dec push] in H. unfold nt_push in H. destruct (push D s l) as [[x y] []] eqn:X; try discriminate. injection H as <- <-. now apply (H1 s l x y).
  - intros s m R. destruct (H2 s m R) as (s' & E1 & E2 & R'). exists s'. cbn [newtype_dec push fin]. unfold nt_push, nt_fin. rewrite E1, E2. auto.
Qed.
Lemma dec2_sealed : forall A EA B EB (DA : decoder A EA) (DB : decoder B EB) P, sealed DB P ->
  sealed (dec2 DA DB) (fun s => match s with D2Second _ _ _ b => P b | _ => False end).
Proof.
  intros A EA B EB DA DB P [H1 H2].
  assert (K : forall va b l s' l', d2_push_second DA DB va b l = (s', l', Ready) -> match s' with D2Second _ _ _ b => P b | _ => False end).
  { intros va b l s' l' H. unfold d2_push_second in H. destruct (push DB b l) as [[x y] []] eqn:X; try discriminate. injection H as <- <-. now apply (H1 b l x y). }
  split.
  - intros s l s' l' H. cbn [dec2 push] in H. unfold d2_push in H. destruct s as [a b|va b|]; [|now apply (K va b l s' l')|discriminate].
    destruct (push DA a l) as [[x y] []]; try discriminate. destruct (fin DA x) as [[va|e]|]; try discriminate. now apply (K va b y s' l').
  - intros [a b|va b|] m R; try contradiction. destruct (H2 b m R) as (b' & E1 & E2 & R'). exists (D2Second _ _ va b').
    cbn [dec2 push fin]. unfold d2_push, d2_push_second, d2_fin. rewrite E1, E2. auto.
Qed.
Lemma dec3_sealed : forall A EA B EB C EC (DA : decoder A EA) (DB : decoder B EB) (DC : decoder C EC) P, sealed DC P -> exists Q, sealed (dec3 DA DB DC) Q.
Proof. intros. eexists. apply newtype_sealed, dec2_sealed, H. Qed.
Lemma dec4_sealed : forall A EA B EB C EC D ED (DA : decoder A EA) (DB : decoder B EB) (DC : decoder C EC) (DD : decoder D ED) P, sealed DD P -> exists Q, sealed (dec4 DA DB DC DD) Q.
Proof. intros. eexists. apply newtype_sealed, dec2_sealed, dec2_sealed, H. Qed.
Lemma dec6_sealed : forall A EA B EB C EC D ED E EE F EF (DA : decoder A EA) (DB : decoder B EB) (DC : decoder C EC) (DD : decoder D ED) (DE : decoder E EE) (DF : decoder F EF) P,
  sealed DF P -> exists Q, sealed (dec6 DA DB DC DD DE DF) Q.
Proof. intros. eexists. apply newtype_sealed, dec2_sealed, newtype_sealed, dec2_sealed, H. Qed.
Lemma bytevec_sealed : forall n, sealed (bytevec_dec n) (fun s => bv_prefix s = None /\ bv_written s = bv_expected s).
Proof.
  intros n.
  assert (R : forall s, bv_written (bv_reserve s) = bv_written s /\ bv_expected (bv_reserve s) = bv_expected s /\ bv_prefix (bv_reserve s) = bv_prefix s /\ bv_buffer (bv_reserve s) = bv_buffer s).
  { intros s. unfold bv_reserve. destruct (lenN (bv_buffer s) =? bv_cap s); auto. }
  assert (K : forall s l s' l', bv_prefix s = None -> bv_copy s l = (s', l', Ready) -> bv_prefix s' = None /\ bv_written s' = bv_expected s').
  { intros s l s' l' N H. unfold bv_copy in H. destruct (N.ltb_spec (bv_expected s) (bv_written s)); [discriminate|]. cbv zeta in H. cbn [bv_written bv_expected] in H.
    destruct (R s) as (R1 & R2 & R3 & R4). rewrite R1, R2, R3, R4 in H.
    match type of H with (if ?c then _ else _) = _ => destruct c eqn:C; [discriminate|] end. injection H as <- _. cbn [bv_prefix bv_written bv_expected]. split; [exact N|]. apply N.ltb_ge in C. lia. }
  split.
  - intros s l s' l' H. cbn [bytevec_dec push] in H. unfold bv_push in H. destruct (bv_prefix s) as [p|] eqn:N; [|now apply (K s l s' l')].
    destruct (cs_push p l) as [[x y] []]; try discriminate. destruct (cs_fin n x) as [m|e]; [|discriminate]. revert H. now apply K.
  - intros s m [N W]. cbn [bytevec_dec push fin]. unfold bv_push. rewrite N. unfold bv_copy. rewrite W, N.ltb_irrefl. cbv zeta. cbn [bv_written bv_expected].
    destruct (R s) as (R1 & R2 & R3 & R4). rewrite R1, R2, R3, R4, W, N.sub_diag, N.min_0_r, N.min_0_l, takeN_0, dropN_0, app_nil_r, N.add_0_r, N.ltb_irrefl.
    eexists. split; [reflexivity|]. unfold bv_fin. cbn [bv_prefix bv_written bv_expected bv_buffer]. rewrite N, W. auto.
Qed.
Lemma ev_loop_ready : forall A E (D : decoder A E) k s l s' l', ev_loop D k s l = (s', l', Ready) -> lenN (ev_buffer D s') = ev_length D s'.
Proof.
  intros A E D. induction k as [|k IH]; intros s l s' l' H; cbn [ev_loop] in H.
  - destruct l; [|discriminate]. destruct (N.eqb_spec (lenN (ev_buffer D s)) (ev_length D s)) as [e|]; [|discriminate]. now injection H as <- _.
  - destruct l as [|b l]; [destruct (N.eqb_spec (lenN (ev_buffer D s)) (ev_length D s)) as [e|]; [|discriminate]; now injection H as <- _|].
    destruct (push D _ (b :: l)) as [[x y] []]; try discriminate. destruct (fin D x) as [[a|e]|]; try discriminate. cbv zeta in H.
    match type of H with (if ?c then _ else _) = _ => destruct c eqn:C; [injection H as <- _; now apply N.eqb_eq in C|now apply (IH _ _ _ _ H)] end.
Qed.
Lemma ev_ready : forall A E (D : decoder A E) s l s' l', ev_push D s l = (s', l', Ready) -> lenN (ev_buffer D s') = ev_length D s'.
Proof.
  intros A E D s l s' l' H. unfold ev_push in H. destruct (N.eqb_spec (lenN (ev_buffer D s)) (ev_length D s)) as [e|]; [now injection H as <- _|]. now apply ev_loop_ready in H.
Qed.
Lemma ev_idle : forall A E (D : decoder A E) s m, lenN (ev_buffer D s) = ev_length D s -> ev_push D s m = (s, m, Ready).
Proof. intros A E D s m H. unfold ev_push. now rewrite H, N.eqb_refl. Qed.
Lemma exactvec_sealed : forall A E (D : decoder A E) n, sealed (exactvec_dec D n) (fun s => lenN (ev_buffer D s) = ev_length D s).
Proof.
  intros A E D n. split; [intros s l s' l'; apply ev_ready|]. intros s m R. exists s. split; [now apply ev_idle|auto].
Qed.
Lemma vec_sealed : forall A E (D : decoder A E) n, sealed (vec_dec D n) (fun s => vd_prefix D s = None /\ lenN (ev_buffer D (vd_items D s)) = ev_length D (vd_items D s)).
Proof.
  intros A E D n. split.
  - intros s l s' l' H. cbn [vec_dec push] in H. unfold vec_push in H. cbv zeta in H. destruct (vd_prefix D s) as [p|] eqn:N.
    + destruct (cs_push p l) as [[x y] []]; try discriminate. destruct (cs_fin n x) as [m|e]; [|discriminate]. cbn [vd_items vd_prefix] in H.
      destruct (ev_push D (ev_new D m) y) as [[i z] w] eqn:V. inversion H. subst. split; [reflexivity|]. now apply ev_ready in V.
    + destruct (ev_push D (vd_items D s) l) as [[i z] w] eqn:V. inversion H. subst. split; [reflexivity|]. now apply ev_ready in V.
  - intros s m [N R]. exists s. cbn [vec_dec push]. unfold vec_push. cbv zeta. rewrite N, ev_idle by exact R. split; [|auto]. destruct s. cbn in *. now rewrite N.
Qed.
Lemma wd_loop_ready : forall n k s l s' l', wd_elements s = Some n -> wd_loop k n s l = (s', l', Ready) -> wd_elements s' = Some n /\ n <= wd_idx s'.
Proof.
  intros n. induction k as [|k IH]; intros s l s' l' N H; cbn [wd_loop] in H.
  - destruct (N.leb_spec n (wd_idx s)); [now injection H as <- _|]. destruct l; discriminate.
  - destruct (N.leb_spec n (wd_idx s)); [now injection H as <- _|]. destruct l as [|b l]; [discriminate|]. destruct (wd_remaining s) as [r|].
    + cbv zeta in H. now apply IH in H.
    + cbv zeta in H. destruct (cs_push (wd_len s) (b :: l)) as [[x y] []]; try discriminate. destruct (cs_fin MAX_WITNESS_ITEM_SIZE x) as [m|e]; [|discriminate]. now apply IH in H.
Qed.
Lemma wd_idle : forall n k s l, n <= wd_idx s -> wd_loop k n s l = (s, l, Ready).
Proof. intros n k s l H. apply N.leb_le in H. destruct k; cbn [wd_loop]; now rewrite H. Qed.
Lemma witness_sealed : sealed witness_dec (fun s => exists n, wd_elements s = Some n /\ n <= wd_idx s).
Proof.
  split.
  - intros s l s' l' H. cbn [witness_dec push] in H. unfold wd_push in H. destruct (wd_elements s) as [n|] eqn:N; [exists n; now apply wd_loop_ready in H|].
    cbv zeta in H. destruct (cs_push (wd_count s) l) as [[x y] []]; try discriminate. destruct (cs_fin MAX_WITNESS_STACK_ITEMS x) as [n|e]; [|discriminate].
    exists n. destruct (N.eqb_spec n 0) as [e0|]; [injection H as <- _; cbn [wd_elements wd_idx]; split; [reflexivity|lia]|]. now apply wd_loop_ready in H.
  - intros s m (n & N & L). exists s. cbn [witness_dec push]. unfold wd_push. rewrite N. rewrite wd_idle by exact L. split; [reflexivity|]. split; [reflexivity|]. now exists n.
Qed.
Lemma txd_step_ready : forall s l s' l', txd_step s l = inr (s', l', Ready) -> exists tx, s' = TsDone tx.
Proof.
  intros s l s' l' H. unfold txd_step in H.
  repeat match type of H with context[match ?x with _ => _ end] => destruct x; try discriminate end; inversion H; eauto.
Qed.
Lemma tx_sealed : sealed tx_dec (fun s => exists tx, s = TsDone tx).
Proof.
  split.
  - intros s l s' l' H. cbn [tx_dec push] in H. unfold txd_push in H. remember (10 + length l)%nat as k eqn:K. clear K. revert s l H.
    induction k as [|k IH]; intros s l H; cbn [txd_loop] in H; [discriminate|]. destruct (txd_step s l) as [[x y]|r] eqn:X; [now apply (IH x y)|]. subst r. now apply txd_step_ready in X.
  - intros s m (tx & ->). exists (TsDone tx). split; [reflexivity|]. split; [reflexivity|]. now exists tx.
Qed.

(** the same, without naming the invariant *)
Definition settles {A E} (D : decoder A E) : Prop := exists P, sealed D P.
Lemma settles_stays : forall A E (D : decoder A E), settles D -> stays_ready D.
Proof. intros A E D [P H]. now apply sealed_stays in H. Qed.
Lemma st_array : forall n, settles (array_dec n).
Proof. intros n. eexists. apply array_sealed. Qed.
Lemma st_newtype : forall A E B F (D : decoder A E) (me : E -> F) (f : A -> result B F), settles D -> settles (newtype_dec D me f).
Proof. intros A E B F D me f [P H]. exists P. now apply newtype_sealed. Qed.
Lemma st_dec2 : forall A EA B EB (DA : decoder A EA) (DB : decoder B EB), settles DB -> settles (dec2 DA DB).
Proof. intros A EA B EB DA DB [P H]. eexists. apply dec2_sealed, H. Qed.
Lemma st_dec3 : forall A EA B EB C EC (DA : decoder A EA) (DB : decoder B EB) (DC : decoder C EC), settles DC -> settles (dec3 DA DB DC).
Proof. intros A EA B EB C EC DA DB DC [P H]. now apply dec3_sealed with P. Qed.
Lemma st_dec4 : forall A EA B EB C EC D ED (DA : decoder A EA) (DB : decoder B EB) (DC : decoder C EC) (DD : decoder D ED), settles DD -> settles (dec4 DA DB DC DD).
Proof. intros A EA B EB C EC D ED DA DB DC DD [P H]. now apply dec4_sealed with P. Qed.
Lemma st_dec6 : forall A EA B EB C EC D ED E EE F EF (DA : decoder A EA) (DB : decoder B EB) (DC : decoder C EC) (DD : decoder D ED) (DE : decoder E EE) (DF : decoder F EF),
  settles DF -> settles (dec6 DA DB DC DD DE DF).
Proof. intros A EA B EB C EC D ED E EE F EF DA DB DC DD DE DF [P H]. now apply dec6_sealed with P. Qed.
Lemma st_bytevec : forall n, settles (bytevec_dec n).
Proof. intros n. eexists. apply bytevec_sealed. Qed.
Lemma st_exactvec : forall A E (D : decoder A E) n, settles (exactvec_dec D n).
Proof. intros. eexists. apply exactvec_sealed. Qed.
Lemma st_vec : forall A E (D : decoder A E) n, settles (vec_dec D n).
Proof. intros. eexists. apply vec_sealed. Qed.
Lemma st_witness : settles witness_dec.
Proof. eexists. apply witness_sealed. Qed.
Lemma st_tx : settles tx_dec.
Proof. eexists. apply tx_sealed. Qed.
Ltac settle :=
  repeat first [exact st_tx | exact st_witness | apply st_array | apply st_bytevec | apply st_vec | apply st_exactvec
              | apply st_dec6 | apply st_dec4 | apply st_dec3 | apply st_dec2 | apply st_newtype
              | match goal with |- settles ?D => let d := eval red in D in change (settles d) end].
Lemma st_block : settles block_dec.
Proof. settle. Qed.
Lemma st_kind : forall k, settles (kind_dec k).
Proof. intros []; cbn [kind_dec]; unfold wrap; apply st_newtype; settle. Qed.
Lemma unknown_sealed : forall c n, sealed (unknown_dec c n) (fun s => fst s = 0).
Proof.
  intros c n. split.
  - intros s l s' l' H. cbn [unknown_dec push] in H. unfold unknown_push in H. cbv zeta in H. cbn [fst] in H.
    destruct (N.ltb_spec 0 (fst s - N.min (lenN l) (fst s))); [discriminate|]. injection H as <- _. cbn [fst]. lia.
  - intros [r b] m E. cbn [fst] in E. subst r. exists (0, b). cbn [unknown_dec push]. unfold unknown_push. cbv zeta. cbn [fst snd].
    rewrite N.min_0_r, takeN_0, dropN_0, app_nil_r. auto.
Qed.
Lemma st_inner : forall mo, settles (inner_dec mo).
Proof.
  intros [k|c|c n]; cbn [inner_dec]; [apply st_kind| |exists (fun s => fst s = 0); apply unknown_sealed].
  exists (fun _ => True). split; [auto|]. intros s m _. exists s. auto.
Qed.
Section V1.
Variable sha256d : bytes -> bytes.
Lemma st_v1 : settles (v1_dec sha256d).
Proof.
  exists (fun s => match s with V1Payload _ _ _ mo s _ _ => exists P, sealed (inner_dec mo) P /\ P s | _ => False end).
  assert (K : forall a b n mo s c e l s' l', v1_push_payload a b n mo s c e l = (s', l', Ready) ->
    match s' with V1Payload _ _ _ mo s _ _ => exists P, sealed (inner_dec mo) P /\ P s | _ => False end).
  { intros a b n mo s c e l s' l' H. unfold v1_push_payload in H. destruct (push (inner_dec mo) s l) as [[x y] []] eqn:X; try discriminate.
    injection H as <- <-. destruct (st_inner mo) as [P S]. exists P. split; [exact S|]. now apply (proj1 S) in X. }
  split.
  - intros [hs|a b n mo s c e] l s' l' H; cbn [v1_dec push v1_push] in H; [|now apply K in H].
    destruct (push v1_header_dec hs l) as [[x y] []]; try discriminate. destruct (fin v1_header_dec x) as [[h|er]|]; try discriminate.
    destruct (MAX_MSG_SIZE <? mh_length h); [discriminate|]. cbv zeta in H. now apply K in H.
  - intros [hs|a b n mo s c e] m H; [contradiction|]. destruct H as (P & S & R). destruct (proj2 S s m R) as (s' & E1 & E2 & R').
    exists (V1Payload a b n mo s' c e). cbn [v1_dec push fin v1_push v1_fin]. unfold v1_push_payload. rewrite E1, E2, N.sub_diag, takeN_0, app_nil_r, N.add_0_r.
    split; [reflexivity|]. split; [reflexivity|]. now exists P.
Qed.
End V1.
Lemma st_v2 : settles v2_dec.
Proof.
  exists (fun s => match s with V2Payload mo s => exists P, sealed (inner_dec mo) P /\ P s | _ => False end).
  assert (K : forall mo s l s' l', v2_push_payload mo s l = (s', l', Ready) -> match s' with V2Payload mo s => exists P, sealed (inner_dec mo) P /\ P s | _ => False end).
  { intros mo s l s' l' H. unfold v2_push_payload in H. destruct (push (inner_dec mo) s l) as [[x y] []] eqn:X; try discriminate.
    injection H as <- <-. destruct (st_inner mo) as [P S]. exists P. split; [exact S|]. now apply (proj1 S) in X. }
  assert (K2 : forall s l s' l', v2_push_cmd s l = (s', l', Ready) -> match s' with V2Payload mo s => exists P, sealed (inner_dec mo) P /\ P s | _ => False end).
  { intros s l s' l' H. unfold v2_push_cmd in H. destruct (push command_dec s l) as [[x y] []]; try discriminate. destruct (fin command_dec x) as [[c|er]|]; try discriminate. now apply K in H. }
  split.
  - intros [s|s|mo s|] l s' l' H; cbn [v2_dec push v2_push] in H; [|now apply K2 in H|now apply K in H|discriminate].
    destruct (push (array_dec 1) s l) as [[x y] []]; try discriminate. destruct (fin (array_dec 1) x) as [[b|er]|]; try discriminate.
    cbv zeta in H. destruct (hd 0 b =? 0); [now apply K2 in H|]. destruct (assocN (hd 0 b) short_ids) as [mo|]; [now apply K in H|discriminate].
  - intros [s|s|mo s|] m H; try contradiction. destruct H as (P & S & R). destruct (proj2 S s m R) as (s' & E1 & E2 & R').
    exists (V2Payload mo s'). cbn [v2_dec push fin v2_push v2_fin]. unfold v2_push_payload. rewrite E1, E2.
    split; [reflexivity|]. split; [reflexivity|]. now exists P.
Qed.
