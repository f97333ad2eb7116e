(** C02: what decoders answer once they have answered Ready. *)
From Verif Require Import Base MText MDec LDec MWitness MTx MPmt MP2p MBip152 MP2pMsg SReady LReady LTxEx.
Local Open Scope N_scope.

(** The primitives and combinators: a decoder made of two or more stays ready if its last part does; vectors always do. *)
Theorem C02_ready_stays :
  (forall n, stays_ready (array_dec n)) /\ (forall n, stays_ready (bytevec_dec n)) /\
  (forall A E (D : decoder A E) n, stays_ready (vec_dec D n) /\ stays_ready (exactvec_dec D n)) /\
  (forall A EA B EB (DA : decoder A EA) (DB : decoder B EB), stays_ready DB -> stays_ready (dec2 DA DB)) /\
  (forall A E B F (D : decoder A E) (me : E -> F) (f : A -> result B F), stays_ready D -> stays_ready (newtype_dec D me f)).
Proof.
  split; [intros; apply settles_stays, st_array|]. split; [intros; apply settles_stays, st_bytevec|].
  split; [intros; split; apply settles_stays; [apply st_vec|apply st_exactvec]|]. split.
  - intros A EA B EB DA DB H.
    assert (I : forall ms va b, idle DB b ms -> idle (dec2 DA DB) (D2Second _ _ va b) ms).
    { induction ms as [|m ms IH]; intros va b J; [exact I|]. destruct J as (b' & E1 & E2 & J). exists (D2Second _ _ va b').
      cbn [dec2 push fin]. unfold d2_push, d2_push_second, d2_fin. rewrite E1, E2. repeat split. now apply IH. }
    assert (K : forall va b l s' l', d2_push_second DA DB va b l = (s', l', Ready) -> forall ms, idle (dec2 DA DB) s' ms).
    { intros va b l s' l' X ms. unfold d2_push_second in X. destruct (push DB b l) as [[x y] []] eqn:Y; try discriminate. injection X as <- <-. apply I. now apply (H b l x y). }
    intros s l s' l' X. cbn [dec2 push] in X. unfold d2_push in X. destruct s as [a b|va b|]; [|now apply (K va b l s' l')|discriminate].
    destruct (push DA a l) as [[x y] []]; try discriminate. destruct (fin DA x) as [[va|e]|]; try discriminate. now apply (K va b y s' l').
  - intros A E B F D me f H s l s' l' X ms. cbn [newtype_dec push] in X. unfold nt_push in X. destruct (push D s l) as [[x y] []] eqn:Y; try discriminate. injection X as <- <-.
    assert (J := H s l x y Y ms). clear Y. revert x J. induction ms as [|m ms IH]; intros x J; [exact I|]. destruct J as (x' & E1 & E2 & J). exists x'.
    cbn [newtype_dec push fin]. unfold nt_push, nt_fin. rewrite E1, E2. repeat split. now apply IH.
Qed.
(** Transactions, blocks, their parts, every payload and every message of the network protocol. *)
Theorem C02_ready_stays_types : forall sha256d k,
  stays_ready tx_dec /\ stays_ready witness_dec /\ stays_ready header_dec /\ stays_ready block_dec /\ stays_ready txin_dec /\
  stays_ready txout_dec /\ stays_ready outpoint_dec /\ stays_ready script_dec /\ stays_ready amount_dec /\ stays_ready mb_dec /\
  stays_ready (kind_dec k) /\ stays_ready v1_header_dec /\ stays_ready (v1_dec sha256d) /\ stays_ready v2_dec.
Proof.
  intros. repeat (split; [apply settles_stays; first [apply st_kind|apply st_v1|settle]|]). apply settles_stays, st_v2.
Qed.
(** Not so the integer decoders: an empty slice is answered with "needs more" even after Ready; any other slice is left
    whole and answered with Ready. *)
Theorem C02_ready_stays_refuted : forall n,
  (forall s, push (cs_dec n) s [] = (s, [], NeedsMore) /\ push cs_u64_dec s [] = (s, [], NeedsMore)) /\
  ~ stays_ready (cs_dec n) /\ ~ stays_ready cs_u64_dec /\ ~ stays_ready offset_dec /\ ~ stays_ready (dec2 hash_dec offset_dec).
Proof.
  intros n. split; [now split|].
  assert (K : forall A E (D : decoder A E) s l s' l', push D s l = (s', l', Ready) -> snd (push D s' []) = NeedsMore -> ~ stays_ready D).
  { intros A E D s l s' l' H N S. destruct (S s l s' l' H [[]]) as (x & X & _). rewrite X in N. discriminate. }
  split; [exact (K _ _ (cs_dec n) [] [5] [5] [] eq_refl eq_refl)|]. split; [exact (K _ _ cs_u64_dec [] [5] [5] [] eq_refl eq_refl)|].
  split; [exact (K _ _ offset_dec [] [5] [5] [] eq_refl eq_refl)|].
  apply (K _ _ (dec2 hash_dec offset_dec) (D2Second hash_dec offset_dec [] []) [5] (D2Second hash_dec offset_dec [] [5]) [] eq_refl eq_refl).
Qed.
Theorem C02_integers_ready : forall n s l s' l', push (cs_dec n) s l = (s', l', Ready) \/ push cs_u64_dec s l = (s', l', Ready) ->
  forall ms, Forall (fun m => m <> []) ms -> idle (cs_dec n) s' ms /\ idle cs_u64_dec s' ms.
Proof.
  intros n s l s' l' H. assert (X : cs_push s l = (s', l', Ready)) by (now destruct H). clear H.
  assert (L : s' <> [] /\ lenN s' = cs_len (hd 0 s')).
  { assert (K : forall b1 l1, b1 <> [] -> (if cs_len (hd 0 b1) <? lenN b1 then (b1, l1, PPanic) else
        let b2 := b1 ++ takeN (N.min (lenN l1) (cs_len (hd 0 b1) - lenN b1)) l1 in
        let l2 := dropN (N.min (lenN l1) (cs_len (hd 0 b1) - lenN b1)) l1 in
        if lenN b2 =? cs_len (hd 0 b1) then (b2, l2, Ready) else (b2, l2, @NeedsMore cs_err)) = (s', l', Ready) -> s' <> [] /\ lenN s' = cs_len (hd 0 s')).
    { intros b1 l1 P Y. destruct (cs_len (hd 0 b1) <? lenN b1); [discriminate Y|]. cbv zeta in Y.
      match type of Y with (if ?c then _ else _) = _ => destruct c eqn:C; [|discriminate Y] end. injection Y as <- _. apply N.eqb_eq in C.
      destruct b1 as [|y b1]; [contradiction|]. split; [discriminate|]. exact C. }
    unfold cs_push in X. destruct l as [|x l]; [discriminate|]. destruct s as [|y s]; [now apply (K [x] l)|now apply (K (y :: s) (x :: l))]. }
  destruct L as [N L].
  assert (P : forall m, m <> [] -> cs_push s' m = (s', m, Ready)).
  { intros [|x m] M; [contradiction|]. unfold cs_push. destruct s' as [|y s'']; [contradiction|]. rewrite <- L, N.ltb_irrefl, N.sub_diag, N.min_0_r, takeN_0, dropN_0, app_nil_r, N.eqb_refl. reflexivity. }
  induction ms as [|m ms IH]; intros F; [now split|]. inversion F as [|? ? M F']; subst. destruct (IH F') as [I1 I2].
  split; exists s'; cbn [cs_dec cs_u64_dec push fin]; rewrite P by exact M; auto.
Qed.
Example C02_ready_ex : exists s', push tx_dec (init tx_dec) (tx_encode ex_tx ++ [7]) = (s', [7], Ready) /\
  idle tx_dec s' [[]; [7]; tx_encode ex_tx] /\ fin tx_dec s' = Ret (Ok ex_tx).
Proof.
  exists (TsDone ex_tx). split; [vm_compute; reflexivity|]. split; [|vm_compute; reflexivity].
  cbn [idle]. repeat (exists (TsDone ex_tx); split; [reflexivity|]; split; [reflexivity|]). exact I.
Qed.
Example C02_integers_ready_ex : push (cs_dec 1000) [253; 44] [1; 9] = ([253; 44; 1], [9], Ready) /\ Forall (fun m : bytes => m <> []) [[9]; [8; 7]].
Proof. split; [reflexivity|]. repeat constructor; discriminate. Qed.
Print Assumptions C02_ready_stays.
Print Assumptions C02_ready_stays_types.
Print Assumptions C02_ready_stays_refuted.
Print Assumptions C02_integers_ready.
