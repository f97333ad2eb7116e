(** C03: the read limit a decoder advertises once it is done. *)
From Verif Require Import Base MText MDec LDec MWitness MTx MPmt MP2p MBip152 MP2pMsg SReady LReady LTxEx.
Local Open Scope N_scope.

Definition calm {A E} (D : decoder A E) (I : st D -> Prop) : Prop :=
  I (init D) /\
  (forall s l s' l', I s -> push D s l = (s', l', NeedsMore) -> I s') /\
  (forall s l s' l', I s -> push D s l = (s', l', Ready) -> I s' /\ lim D s' = 0).
Definition rests {A E} (D : decoder A E) : Prop := exists I, calm D I.
Lemma rests_limit : forall A E (D : decoder A E), rests D -> limit_when_ready D.
Proof.
  intros A E D (I & I0 & I1 & I2) s l s' l' F H. assert (J : I s); [|now apply (I2 s l s' l')].
  clear H. induction F as [|x k x' k' F IH H|x k x' k' F IH H]; [exact I0|now apply (I1 x k x' k')|now apply (I2 x k x' k')].
Qed.
Lemma limit_rests : forall A E (D : decoder A E), limit_when_ready D -> rests D.
Proof.
  intros A E D H. exists (fed D). split; [constructor|]. split; intros s l s' l' F P; [now apply (fed_more D s l s' l')|]. split; [now apply (fed_ready D s l s' l')|now apply (H s l s' l')].
Qed.
Lemma rs_array : forall n, rests (array_dec n).
Proof.
  intros n. exists (fun _ => True). split; [exact I|]. split; [auto|]. intros s l s' l' _ H. split; [exact I|].
  cbn [array_dec push lim] in *. unfold array_push in H. destruct (N.ltb_spec n (lenN s)); [discriminate|].
  destruct (N.ltb_spec (lenN (s ++ takeN (N.min (lenN l) (n - lenN s)) l)) n) as [L|L]; [discriminate|]. injection H as <- _. lia.
Qed.
Lemma rs_cs : forall n, rests (cs_dec n) /\ rests cs_u64_dec.
Proof.
  assert (K : forall s l s' l', cs_push s l = (s', l', Ready) -> cs_lim s' = 0).
  { intros s l s' l' X.
    assert (K : forall b1 l1, b1 <> [] -> (if cs_len (hd 0 b1) <? lenN b1 then (b1, l1, PPanic) else
        let b2 := b1 ++ takeN (N.min (lenN l1) (cs_len (hd 0 b1) - lenN b1)) l1 in
        let l2 := dropN (N.min (lenN l1) (cs_len (hd 0 b1) - lenN b1)) l1 in
        if lenN b2 =? cs_len (hd 0 b1) then (b2, l2, Ready) else (b2, l2, @NeedsMore cs_err)) = (s', l', Ready) -> cs_lim s' = 0).
    { intros b1 l1 P Y. destruct (cs_len (hd 0 b1) <? lenN b1); [discriminate Y|]. cbv zeta in Y.
      match type of Y with (if ?c then _ else _) = _ => destruct c eqn:C; [|discriminate Y] end. injection Y as <- _. apply N.eqb_eq in C.
      destruct b1 as [|y b1]; [contradiction|]. cbn [hd app] in C |- *. unfold cs_lim. unfold cs_len in C at 2. rewrite C.
      destruct (y =? 255); [reflexivity|]. destruct (y =? 254); [reflexivity|]. destruct (y =? 253); reflexivity. }
    unfold cs_push in X. destruct l as [|x l]; [discriminate|]. destruct s as [|y s]; [now apply (K [x] l)|now apply (K (y :: s) (x :: l))]. }
  intros n. split; exists (fun _ => True); (split; [exact I|]); (split; [auto|]); intros s l s' l' _ H; (split; [exact I|]); now apply (K s l s' l').
Qed.
Lemma rs_newtype : forall A E B F (D : decoder A E) (me : E -> F) (f : A -> result B F), rests D -> rests (newtype_dec D me f).
Proof.
  intros A E B F D me f (I & I0 & I1 & I2). exists I. split; [exact I0|].
  split; intros s l s' l' J H; cbn [newtype_dec push lim] in *; unfold nt_push in H; destruct (push D s l) as [[x y] []] eqn:X; try discriminate; injection H as <- <-;
  [now apply (I1 s l x y)|now apply (I2 s l x y)].
Qed.
Lemma rs_dec2 : forall A EA B EB (DA : decoder A EA) (DB : decoder B EB), rests DB -> rests (dec2 DA DB).
Proof.
  intros A EA B EB DA DB (I & I0 & I1 & I2). exists (fun s => match s with D2First _ _ _ b => I b | D2Second _ _ _ b => I b | D2Errored _ _ => True end).
  assert (K : forall va b l s' l', I b -> d2_push_second DA DB va b l = (s', l', NeedsMore) -> exists b', s' = D2Second _ _ va b' /\ I b').
  { intros va b l s' l' J H. unfold d2_push_second in H. destruct (push DB b l) as [[x y] []] eqn:X; try discriminate. injection H as <- <-. exists x. split; [reflexivity|]. now apply (I1 b l x y). }
  assert (K2 : forall va b l s' l', I b -> d2_push_second DA DB va b l = (s', l', Ready) -> exists b', s' = D2Second _ _ va b' /\ I b' /\ lim DB b' = 0).
  { intros va b l s' l' J H. unfold d2_push_second in H. destruct (push DB b l) as [[x y] []] eqn:X; try discriminate. injection H as <- <-. exists x. split; [reflexivity|]. now apply (I2 b l x y). }
  split; [exact I0|]. split; intros s l s' l' J H; cbn [dec2 push lim] in *; unfold d2_push in H; destruct s as [a b|va b|]; try discriminate.
  - destruct (push DA a l) as [[x y] []]; try discriminate; [injection H as <- <-; exact J|]. destruct (fin DA x) as [[va|e]|]; try discriminate. apply K in H; [|exact J]. destruct H as (b' & -> & R). exact R.
  - apply K in H; [|exact J]. destruct H as (b' & -> & R). exact R.
  - destruct (push DA a l) as [[x y] []]; try discriminate. destruct (fin DA x) as [[va|e]|]; try discriminate. apply K2 in H; [|exact J]. destruct H as (b' & -> & R). exact R.
  - apply K2 in H; [|exact J]. destruct H as (b' & -> & R). exact R.
Qed.
Lemma rs_bytevec : forall n, rests (bytevec_dec n).
Proof.
  intros n. exists (fun _ => True). split; [exact I|]. split; [auto|]. intros s l s' l' _ H. split; [exact I|].
  assert (R : forall s, bv_written (bv_reserve s) = bv_written s /\ bv_expected (bv_reserve s) = bv_expected s /\ bv_prefix (bv_reserve s) = bv_prefix s /\ bv_buffer (bv_reserve s) = bv_buffer s).
  { intros x. unfold bv_reserve. destruct (lenN (bv_buffer x) =? bv_cap x); auto. }
  assert (K : forall s l s' l', bv_prefix s = None -> bv_copy s l = (s', l', Ready) -> bv_lim s' = 0).
  { clear - R. intros s l s' l' N H. unfold bv_copy in H. destruct (N.ltb_spec (bv_expected s) (bv_written s)); [discriminate|]. cbv zeta in H. cbn [bv_written bv_expected] in H.
    destruct (R s) as (R1 & R2 & R3 & R4). rewrite R1, R2, R3, R4 in H.
    match type of H with (if ?c then _ else _) = _ => destruct c eqn:C; [discriminate|] end. injection H as <- _. unfold bv_lim. cbn [bv_prefix bv_written bv_expected]. rewrite N. apply N.ltb_ge in C. lia. }
  cbn [bytevec_dec push lim] in *. unfold bv_push in H. destruct (bv_prefix s) as [p|] eqn:N; [|now apply (K s l s' l')].
  destruct (cs_push p l) as [[x y] []]; try discriminate. destruct (cs_fin n x) as [m|e]; [|discriminate]. revert H. now apply K.
Qed.
Section Vec.
Context {A E} (D : decoder A E).
Definition ev_quiet (s : ev_state D) : Prop := lenN (ev_buffer D s) = ev_length D s -> ev_decoder D s = None.
Lemma ev_loop_quiet : forall k s l s' l' w, lenN (ev_buffer D s) <> ev_length D s -> ev_loop D k s l = (s', l', w) ->
  match w with NeedsMore => lenN (ev_buffer D s') <> ev_length D s' | Ready => lenN (ev_buffer D s') = ev_length D s' /\ ev_decoder D s' = None | _ => True end.
Proof.
  induction k as [|k IH]; intros s l s' l' w Q H; cbn [ev_loop] in H.
  - destruct l; [|now injection H as <- _ <-]. destruct (N.eqb_spec (lenN (ev_buffer D s)) (ev_length D s)) as [e|]; [contradiction|now injection H as <- _ <-].
  - destruct l as [|b l]; [destruct (N.eqb_spec (lenN (ev_buffer D s)) (ev_length D s)) as [e|]; [contradiction|now injection H as <- _ <-]|].
    cbv zeta in H. destruct (push D _ (b :: l)) as [[x y] v]. destruct v; try (now injection H as <- _ <-).
    destruct (fin D x) as [[a|e]|]; try (now injection H as <- _ <-). cbv zeta in H.
    match type of H with (if ?c then _ else _) = _ => destruct c eqn:C end; [injection H as <- _ <-; now apply N.eqb_eq in C|].
    apply (IH _ _ _ _ _) in H; [exact H|]. now apply N.eqb_neq in C.
Qed.
Lemma ev_push_quiet : forall s l s' l' w, ev_quiet s -> ev_push D s l = (s', l', w) ->
  match w with NeedsMore => ev_quiet s' | Ready => ev_quiet s' /\ ev_lim D s' = 0 | _ => True end.
Proof.
  intros s l s' l' w Q H. unfold ev_push in H. destruct (N.eqb_spec (lenN (ev_buffer D s)) (ev_length D s)) as [e|e].
  - injection H as <- _ <-. split; [exact Q|]. unfold ev_lim. now rewrite (Q e), e, N.eqb_refl.
  - apply ev_loop_quiet in H; [|exact e]. destruct w; [intros Z; contradiction| |exact I|exact I]. destruct H as [H1 H2]. split; [now intros _|]. unfold ev_lim. now rewrite H2, H1, N.eqb_refl.
Qed.
Lemma rs_exactvec : forall n, rests (exactvec_dec D n).
Proof.
  intros n. exists ev_quiet. split; [now intros _|]. split; intros s l s' l' Q H; now apply ev_push_quiet in H.
Qed.
Lemma rs_vec : forall n, rests (vec_dec D n).
Proof.
  intros n. exists (fun s => ev_quiet (vd_items D s)). split; [now intros _|].
  assert (K : forall s l s' l' w, vd_prefix D s = None -> ev_quiet (vd_items D s) ->
    match ev_push D (vd_items D s) l with (i', z, x) => ({| vd_prefix := vd_prefix D s; vd_items := i' |}, z, x) end = (s', l', w) ->
    match w with NeedsMore => ev_quiet (vd_items D s') | Ready => ev_quiet (vd_items D s') /\ vec_lim D s' = 0 | _ => True end).
  { intros s l s' l' w N Q H. destruct (ev_push D (vd_items D s) l) as [[i' z] v] eqn:V. injection H as <- _ <-. apply ev_push_quiet in V; [|exact Q].
    destruct v; auto. unfold vec_lim. cbn [vd_prefix vd_items]. now rewrite N. }
  assert (K2 : forall s l s' l' w, ev_quiet (vd_items D s) -> vec_push D n s l = (s', l', w) ->
    match w with NeedsMore => ev_quiet (vd_items D s') | Ready => ev_quiet (vd_items D s') /\ vec_lim D s' = 0 | _ => True end).
  { intros s l s' l' w Q H. unfold vec_push in H. cbv zeta in H. destruct (vd_prefix D s) as [p|] eqn:N; [|rewrite <- N in H; now apply (K s l s' l' w)].
    destruct (cs_push p l) as [[x y] v]. destruct v; try (now injection H as <- _ <-). destruct (cs_fin n x) as [m|e]; [|now injection H as <- _ <-].
    apply (K {| vd_prefix := None; vd_items := ev_new D m |} y s' l' w); [reflexivity|now intros _|exact H]. }
  split; intros s l s' l' Q H; now apply (K2 s l s' l') in H.
Qed.
End Vec.
Lemma rs_dec3 : forall A EA B EB C EC (DA : decoder A EA) (DB : decoder B EB) (DC : decoder C EC), rests DC -> rests (dec3 DA DB DC).
Proof. intros. apply rs_newtype, rs_dec2, H. Qed.
Lemma rs_dec4 : forall A EA B EB C EC D ED (DA : decoder A EA) (DB : decoder B EB) (DC : decoder C EC) (DD : decoder D ED), rests DD -> rests (dec4 DA DB DC DD).
Proof. intros. apply rs_newtype, rs_dec2, rs_dec2, H. Qed.
Lemma rs_dec6 : forall A EA B EB C EC D ED E EE F EF (DA : decoder A EA) (DB : decoder B EB) (DC : decoder C EC) (DD : decoder D ED) (DE : decoder E EE) (DF : decoder F EF),
  rests DF -> rests (dec6 DA DB DC DD DE DF).
Proof. intros. apply rs_newtype, rs_dec2, rs_newtype, rs_dec2, H. Qed.
Lemma rs_tx : rests tx_dec.
Proof.
  exists (fun _ => True). split; [exact I|]. split; [auto|]. intros s l s' l' _ H. split; [exact I|]. cbn [tx_dec push lim] in *. unfold txd_push in H.
  remember (10 + length l)%nat as k eqn:K. clear K. revert s l H.
  induction k as [|k IH]; intros s l H; cbn [txd_loop] in H; [discriminate|]. destruct (txd_step s l) as [[x y]|r] eqn:X; [now apply (IH x y)|]. subst r.
  apply LReady.txd_step_ready in X. destruct X as [tx ->]. reflexivity.
Qed.
Ltac rest :=
  repeat first [exact rs_tx | apply rs_array | apply rs_bytevec | apply rs_vec | apply rs_exactvec
              | apply rs_dec6 | apply rs_dec4 | apply rs_dec3 | apply rs_dec2 | apply rs_newtype
              | match goal with |- rests ?D => let d := eval red in D in change (rests d) end].
Lemma rs_kind : forall k, rests (kind_dec k).
Proof. intros []; cbn [kind_dec]; unfold wrap; apply rs_newtype; rest. Qed.
Lemma rs_inner : forall mo, rests (inner_dec mo).
Proof.
  intros [k|c|c n]; cbn [inner_dec]; [apply rs_kind| |]; exists (fun _ => True); (split; [exact I|]); (split; [auto|]); intros s l s' l' _ H; (split; [exact I|]); [reflexivity|].
  cbn [unknown_dec push lim] in *. unfold unknown_push in H. cbv zeta in H. cbn [fst] in H.
  destruct (N.ltb_spec 0 (fst s - N.min (lenN l) (fst s))); [discriminate|]. injection H as <- _. cbn [fst]. lia.
Qed.
Section V1.
Variable sha256d : bytes -> bytes.
Lemma rs_v1 : rests (v1_dec sha256d).
Proof.
  exists (fun s => match s with V1Payload _ _ _ mo s _ _ => fed (inner_dec mo) s | _ => True end). split; [exact I|].
  assert (K : forall a b n mo s c e l s' l' w, fed (inner_dec mo) s -> v1_push_payload a b n mo s c e l = (s', l', w) ->
    match w with NeedsMore => match s' with V1Payload _ _ _ mo s _ _ => fed (inner_dec mo) s | _ => True end
               | Ready => match s' with V1Payload _ _ _ mo s _ _ => fed (inner_dec mo) s | _ => True end /\ v1_lim s' = 0 | _ => True end).
  { intros a b n mo s c e l s' l' w F H. unfold v1_push_payload in H. destruct (push (inner_dec mo) s l) as [[x y] v] eqn:X. destruct v; injection H as <- _ <-; auto.
    - now apply (fed_more (inner_dec mo) s l x y).
    - split; [now apply (fed_ready (inner_dec mo) s l x y)|]. cbn [v1_lim]. rewrite (rests_limit _ _ _ (rs_inner mo) s l x y F X). apply N.min_0_l. }
  assert (K2 : forall s l s' l' w, match s with V1Payload _ _ _ mo s _ _ => fed (inner_dec mo) s | _ => True end -> v1_push s l = (s', l', w) ->
    match w with NeedsMore => match s' with V1Payload _ _ _ mo s _ _ => fed (inner_dec mo) s | _ => True end
               | Ready => match s' with V1Payload _ _ _ mo s _ _ => fed (inner_dec mo) s | _ => True end /\ v1_lim s' = 0 | _ => True end).
  { intros [hs|a b n mo s c e] l s' l' w F H; cbn [v1_push] in H; [|now apply (K a b n mo s c e l s' l' w)].
    destruct (push v1_header_dec hs l) as [[x y] v]. destruct v; try (now injection H as <- _ <-). destruct (fin v1_header_dec x) as [[h|er]|]; try (now injection H as <- _ <-).
    destruct (MAX_MSG_SIZE <? mh_length h); [now injection H as <- _ <-|]. cbv zeta in H. apply K in H; [exact H|constructor]. }
  split; intros s l s' l' F H; now apply (K2 s l s' l') in H.
Qed.
End V1.
Lemma rs_v2 : rests v2_dec.
Proof.
  exists (fun s => match s with V2Payload mo s => fed (inner_dec mo) s | _ => True end). split; [exact I|].
  assert (K : forall mo s l s' l' w, fed (inner_dec mo) s -> v2_push_payload mo s l = (s', l', w) ->
    match w with NeedsMore => match s' with V2Payload mo s => fed (inner_dec mo) s | _ => True end
               | Ready => match s' with V2Payload mo s => fed (inner_dec mo) s | _ => True end /\ v2_lim s' = 0 | _ => True end).
  { intros mo s l s' l' w F H. unfold v2_push_payload in H. destruct (push (inner_dec mo) s l) as [[x y] v] eqn:X. destruct v; injection H as <- _ <-; auto.
    - now apply (fed_more (inner_dec mo) s l x y).
    - split; [now apply (fed_ready (inner_dec mo) s l x y)|]. exact (rests_limit _ _ _ (rs_inner mo) s l x y F X). }
  assert (K2 : forall s l s' l' w, v2_push_cmd s l = (s', l', w) ->
    match w with NeedsMore => match s' with V2Payload mo s => fed (inner_dec mo) s | _ => True end
               | Ready => match s' with V2Payload mo s => fed (inner_dec mo) s | _ => True end /\ v2_lim s' = 0 | _ => True end).
  { intros s l s' l' w H. unfold v2_push_cmd in H. destruct (push command_dec s l) as [[x y] v]. destruct v; try (now injection H as <- _ <-). destruct (fin command_dec x) as [[c|er]|]; try (now injection H as <- _ <-).
    apply K in H; [exact H|constructor]. }
  assert (K3 : forall s l s' l' w, match s with V2Payload mo s => fed (inner_dec mo) s | _ => True end -> v2_push s l = (s', l', w) ->
    match w with NeedsMore => match s' with V2Payload mo s => fed (inner_dec mo) s | _ => True end
               | Ready => match s' with V2Payload mo s => fed (inner_dec mo) s | _ => True end /\ v2_lim s' = 0 | _ => True end).
  { intros [s|s|mo s|] l s' l' w F H; cbn [v2_push] in H; [|now apply (K2 s l s' l' w)|now apply (K mo s l s' l' w)|now injection H as <- _ <-].
    destruct (push (array_dec 1) s l) as [[x y] v]. destruct v; try (now injection H as <- _ <-). destruct (fin (array_dec 1) x) as [[b|er]|]; try (now injection H as <- _ <-).
    cbv zeta in H. destruct (hd 0 b =? 0); [now apply K2 in H|]. destruct (assocN (hd 0 b) short_ids) as [mo|]; [|now injection H as <- _ <-]. apply K in H; [exact H|constructor]. }
  split; intros s l s' l' F H; now apply (K3 s l s' l') in H.
Qed.

(** The primitives and combinators: a pair of decoders advertises 0 when done if its second part does. *)
Theorem C03_limit_ready :
  (forall n, limit_when_ready (array_dec n)) /\ (forall n, limit_when_ready (bytevec_dec n)) /\
  (forall n, limit_when_ready (cs_dec n)) /\ limit_when_ready cs_u64_dec /\
  (forall A E (D : decoder A E) n, limit_when_ready (vec_dec D n) /\ limit_when_ready (exactvec_dec D n)) /\
  (forall A EA B EB (DA : decoder A EA) (DB : decoder B EB), limit_when_ready DB -> limit_when_ready (dec2 DA DB)) /\
  (forall A E B F (D : decoder A E) (me : E -> F) (f : A -> result B F), limit_when_ready D -> limit_when_ready (newtype_dec D me f)).
Proof.
  split; [intros; apply rests_limit, rs_array|]. split; [intros; apply rests_limit, rs_bytevec|]. split; [intros; apply rests_limit; exact (proj1 (rs_cs n))|].
  split; [apply rests_limit; exact (proj2 (rs_cs 0))|]. split; [intros; split; apply rests_limit; [apply rs_vec|apply rs_exactvec]|].
  split; intros; apply rests_limit; [apply rs_dec2|apply rs_newtype]; now apply limit_rests.
Qed.
(** Transactions, blocks, their parts, every payload and every message of the network protocol. *)
Theorem C03_limit_ready_types : forall sha256d k,
  limit_when_ready tx_dec /\ limit_when_ready header_dec /\ limit_when_ready block_dec /\ limit_when_ready txin_dec /\
  limit_when_ready txout_dec /\ limit_when_ready outpoint_dec /\ limit_when_ready script_dec /\ limit_when_ready amount_dec /\ limit_when_ready mb_dec /\
  limit_when_ready (kind_dec k) /\ limit_when_ready v1_header_dec /\ limit_when_ready (v1_dec sha256d) /\ limit_when_ready v2_dec.
Proof.
  intros. repeat (split; [apply rests_limit; first [apply rs_kind|apply rs_v1|rest]|]). apply rests_limit, rs_v2.
Qed.
(** Witnesses never do: having decoded one, the decoder always asks for one more byte. *)
Definition wd_quiet (s : wd_state) : Prop :=
  (forall r, wd_remaining s = Some r -> wd_len s = []) /\
  match wd_elements s with
  | None => wd_remaining s = None /\ wd_len s = [] /\ wd_idx s = 0
  | Some n => n <= wd_idx s -> wd_remaining s = None /\ wd_len s = []
  end.
Lemma wd_loop_quiet : forall n k s l s' l' w, wd_elements s = Some n -> wd_quiet s -> wd_loop k n s l = (s', l', w) ->
  match w with NeedsMore => wd_quiet s' | Ready => wd_quiet s' /\ wd_lim s' = 1 | _ => True end.
Proof.
  intros n.
  assert (K : forall s, wd_elements s = Some n -> wd_quiet s -> n <= wd_idx s -> wd_lim s = 1).
  { intros s E [_ Q] L. rewrite E in Q. destruct (Q L) as [Q1 Q2]. unfold wd_lim. now rewrite E, Q1, Q2. }
  induction k as [|k IH]; intros s l s' l' w E Q H; cbn [wd_loop] in H.
  - destruct (N.leb_spec n (wd_idx s)); [injection H as <- _ <-; auto|]. destruct l; injection H as <- _ <-; auto.
  - destruct (N.leb_spec n (wd_idx s)) as [L|L]; [injection H as <- _ <-; auto|]. destruct l as [|b l]; [injection H as <- _ <-; auto|]. destruct Q as [Q1 Q2].
    destruct (wd_remaining s) as [r|] eqn:R.
    + cbv zeta in H. apply IH in H; [exact H|exact E|]. split; cbn [wd_remaining wd_len wd_elements wd_idx]; [intros; now apply (Q1 r)|].
      rewrite E. destruct (r - N.min (lenN (b :: l)) r =? 0); intros Z; [split; [reflexivity|now apply (Q1 r)]|lia].
    + cbv zeta in H. destruct (cs_push (wd_len s) (b :: l)) as [[x y] v]. destruct v; try (now injection H as <- _ <-).
      * injection H as <- _ <-. split; cbn [wd_remaining wd_len wd_elements wd_idx]; [discriminate|]. rewrite E. lia.
      * destruct (cs_fin MAX_WITNESS_ITEM_SIZE x) as [m|e]; [|now injection H as <- _ <-]. apply IH in H; [exact H|exact E|].
        split; cbn [wd_remaining wd_len wd_elements wd_idx]; [reflexivity|]. rewrite E. destruct (m =? 0); [now split|lia].
Qed.
Theorem C03_limit_witness : forall s l s' l', fed witness_dec s -> push witness_dec s l = (s', l', Ready) -> lim witness_dec s' = 1.
Proof.
  assert (K : forall s l s' l' w, wd_quiet s -> wd_push s l = (s', l', w) -> match w with NeedsMore => wd_quiet s' | Ready => wd_quiet s' /\ wd_lim s' = 1 | _ => True end).
  { intros s l s' l' w Q H. unfold wd_push in H. destruct (wd_elements s) as [n|] eqn:E; [now apply (wd_loop_quiet n (length l) s l s' l' w)|].
    cbv zeta in H. destruct Q as [Q1 Q2]. rewrite E in Q2. destruct Q2 as (R & L & I0).
    destruct (cs_push (wd_count s) l) as [[x y] v]. destruct v; try (now injection H as <- _ <-).
    - destruct (cs_fin MAX_WITNESS_STACK_ITEMS x) as [n|e]; [|now injection H as <- _ <-].
      assert (Q : wd_quiet {| wd_content := wd_content s; wd_count := []; wd_elements := Some n; wd_idx := wd_idx s; wd_len := wd_len s; wd_remaining := wd_remaining s |}).
      { split; cbn [wd_remaining wd_len wd_elements wd_idx]; auto. }
      destruct (n =? 0).
      + injection H as <- _ <-. split; [exact Q|]. unfold wd_lim. cbn [wd_remaining wd_len wd_elements wd_idx]. now rewrite R, L.
      + apply wd_loop_quiet in H; [exact H|reflexivity|exact Q]. }
  intros s l s' l' F H. assert (Q : wd_quiet s); [|now apply (K s l s' l') in H]. clear H.
  induction F as [|x m x' m' F IH H|x m x' m' F IH H]; [split; [discriminate|repeat split]|exact (K x m x' m' _ IH H)|exact (proj1 (K x m x' m' _ IH H))].
Qed.
Theorem C03_limit_ready_refuted : ~ limit_when_ready witness_dec.
Proof.
  intros H. specialize (H (init witness_dec) [0] (fst (fst (push witness_dec (init witness_dec) [0]))) [] (fed_new witness_dec) eq_refl). discriminate.
Qed.
Example C03_limit_witness_ex : exists s s', push witness_dec (init witness_dec) [0] = (s, [], Ready) /\ lim witness_dec s = 1 /\
  push witness_dec (init witness_dec) [2; 1; 7; 0] = (s', [], Ready) /\ lim witness_dec s' = 1.
Proof. exists (fst (fst (push witness_dec (init witness_dec) [0]))), (fst (fst (push witness_dec (init witness_dec) [2; 1; 7; 0]))). repeat split. Qed.
Example C03_limit_ready_ex : push tx_dec (init tx_dec) (tx_encode ex_tx ++ [7]) = (TsDone ex_tx, [7], Ready) /\ fed tx_dec (TsDone ex_tx) /\
  exists s, push tx_dec (init tx_dec) (firstn 10 (tx_encode ex_tx)) = (s, [], NeedsMore) /\ 0 < lim tx_dec s.
Proof.
  assert (H : push tx_dec (init tx_dec) (tx_encode ex_tx ++ [7]) = (TsDone ex_tx, [7], Ready)) by (vm_compute; reflexivity).
  split; [exact H|]. split; [exact (fed_ready tx_dec _ _ _ _ (fed_new tx_dec) H)|].
  exists (fst (fst (push tx_dec (init tx_dec) (firstn 10 (tx_encode ex_tx))))). split; vm_compute; reflexivity.
Qed.
Print Assumptions C03_limit_ready.
Print Assumptions C03_limit_ready_types.
Print Assumptions C03_limit_witness.
Print Assumptions C03_limit_ready_refuted.
