(** C02: what one call of push_bytes that asks for more has consumed. *)
From Verif Require Import Base MDec LDec SReady.
Local Open Scope N_scope.

(** a call that asks for more has consumed the whole slice *)
Definition takes_all {A E} (D : decoder A E) : Prop :=
  forall s l s' r, fed D s -> push D s l = (s', r, NeedsMore) -> r = [].

Lemma dropN_over : forall (l : bytes) n, lenN l <= n -> dropN n l = [].
Proof. intros l n H. unfold dropN. apply skipn_all2. unfold lenN in H. lia. Qed.
Lemma cs_takes : forall s l s' r, cs_push s l = (s', r, NeedsMore) -> r = [].
Proof.
  intros s l s' r X.
  assert (K : forall b1 l1, (if cs_len (hd 0 b1) <? lenN b1 then (b1, l1, PPanic) else
        let b2 := b1 ++ takeN (N.min (lenN l1) (cs_len (hd 0 b1) - lenN b1)) l1 in
        let l2 := dropN (N.min (lenN l1) (cs_len (hd 0 b1) - lenN b1)) l1 in
        if lenN b2 =? cs_len (hd 0 b1) then (b2, l2, Ready) else (b2, l2, @NeedsMore cs_err)) = (s', r, NeedsMore) -> r = []).
  { intros b1 l1 Y. destruct (N.ltb_spec (cs_len (hd 0 b1)) (lenN b1)); [discriminate Y|]. cbv zeta in Y.
    match type of Y with (if ?c then _ else _) = _ => destruct c eqn:C; [discriminate Y|] end. injection Y as _ <-. apply N.eqb_neq in C.
    rewrite lenN_app, lenN_takeN in C. apply dropN_over. lia. }
  unfold cs_push in X. destruct l as [|x l]; [now injection X as _ <-|]. destruct s as [|y s]; [now apply (K [x] l)|now apply (K (y :: s) (x :: l))].
Qed.
Definition bv_roomy (s : bv_state) : Prop :=
  bv_written s = lenN (bv_buffer s) /\
  match bv_prefix s with
  | Some _ => bv_buffer s = [] /\ bv_cap s = 0
  | None => bv_cap s = bv_expected s /\ lenN (bv_buffer s) <= bv_expected s
  end.
Lemma copy_roomy : forall s l s' r w, bv_prefix s = None -> bv_written s = lenN (bv_buffer s) -> lenN (bv_buffer s) <= bv_expected s -> bv_expected s <= MAX_VECTOR_ALLOCATE ->
  bv_cap s = bv_expected s \/ (bv_buffer s = [] /\ bv_cap s = 0) -> bv_copy s l = (s', r, w) ->
  bv_roomy s' /\ bv_expected s' = bv_expected s /\ (w = NeedsMore -> r = []).
Proof.
  intros s l s' r w P W B M C H. unfold bv_copy in H. destruct (N.ltb_spec (bv_expected s) (bv_written s)); [lia|].
  assert (R : bv_reserve s = {| bv_prefix := bv_prefix s; bv_buffer := bv_buffer s; bv_expected := bv_expected s; bv_written := bv_written s; bv_cap := bv_expected s |}).
  { unfold bv_reserve. destruct C as [C|[C1 C2]].
    - destruct (N.eqb_spec (lenN (bv_buffer s)) (bv_cap s)) as [e|]; [f_equal; lia|]. destruct s. cbn in *. now subst.
    - rewrite C1, C2 in *. change (lenN (@nil N)) with 0 in *. cbn [N.eqb]. f_equal. lia. }
  rewrite R in H. cbv zeta in H. cbn [bv_prefix bv_buffer bv_expected bv_written bv_cap] in H.
  set (k := N.min (N.min (lenN l) (bv_expected s - bv_written s)) (bv_expected s - lenN (bv_buffer s))) in *.
  assert (Q : bv_roomy {| bv_prefix := bv_prefix s; bv_buffer := bv_buffer s ++ takeN k l; bv_expected := bv_expected s; bv_written := bv_written s + k; bv_cap := bv_expected s |}).
  { unfold bv_roomy. cbn [bv_prefix bv_buffer bv_expected bv_written bv_cap]. rewrite P, lenN_app, lenN_takeN. unfold k. split; [lia|]. split; [reflexivity|lia]. }
  destruct (N.ltb_spec (bv_written s + k) (bv_expected s)); injection H as <- <- <-; (split; [exact Q|]); (split; [reflexivity|]); [|discriminate].
  intros _. apply dropN_over. unfold k in *. lia.
Qed.
Lemma push_roomy : forall limit s l s' r w, limit <= MAX_VECTOR_ALLOCATE -> bv_roomy s -> bv_prefix s <> None \/ bv_expected s <= limit ->
  bv_push limit s l = (s', r, w) -> w = NeedsMore \/ w = Ready ->
  bv_roomy s' /\ (bv_prefix s' <> None \/ bv_expected s' <= limit) /\ (w = NeedsMore -> r = []).
Proof.
  intros limit s l s' r w M [W Q] P H Z. unfold bv_push in H. destruct (bv_prefix s) as [p|] eqn:B.
  - cbv zeta in H. destruct Q as [Q1 Q2]. destruct (cs_push p l) as [[x y] v] eqn:X. destruct v.
    + injection H as <- <- <-. split; [split; cbn [bv_prefix bv_buffer bv_written bv_cap]; auto|]. split; [left; discriminate|]. intros _. now apply cs_takes in X.
    + destruct (cs_fin limit x) as [n|e] eqn:F; [|injection H as _ _ <-; destruct Z; discriminate].
      assert (L : n <= limit). { unfold cs_fin in F. destruct (cs_decode_u64 x) as [v|e]; [|discriminate]. destruct (N.leb_spec v limit); [|discriminate]. injection F as <-. assumption. }
      apply copy_roomy in H; cbn [bv_prefix bv_buffer bv_written bv_cap bv_expected] in *; try assumption; try reflexivity; [|rewrite Q1; change (lenN (@nil N)) with 0; lia|lia|auto].
      destruct H as (H1 & H2 & H3). split; [exact H1|]. split; [right; lia|exact H3].
    + injection H as _ _ <-. destruct Z; discriminate.
    + injection H as _ _ <-. destruct Z; discriminate.
  - destruct P as [P|P]; [contradiction|]. destruct Q as [Q1 Q2]. apply copy_roomy in H; auto; [|lia]. destruct H as (H1 & H2 & H3). split; [exact H1|]. split; [right; lia|exact H3].
Qed.

(** Arrays, integers, and byte strings of at most a million bytes. *)
Theorem C02_one_push : (forall n, takes_all (array_dec n)) /\ (forall n, takes_all (cs_dec n)) /\ takes_all cs_u64_dec /\
  (forall limit, limit <= 1000000 -> takes_all (bytevec_dec limit)).
Proof.
  split; [|split; [|split]].
  - intros n s l s' r _ H. cbn [array_dec push] in H. unfold array_push in H. destruct (N.ltb_spec n (lenN s)); [discriminate|].
    destruct (N.ltb_spec (lenN (s ++ takeN (N.min (lenN l) (n - lenN s)) l)) n) as [L|L]; [|discriminate]. injection H as _ <-.
    rewrite lenN_app, lenN_takeN in L. apply dropN_over. lia.
  - intros n s l s' r _ H. now apply cs_takes in H.
  - intros s l s' r _ H. now apply cs_takes in H.
  - intros limit M s l s' r F H.
    assert (K : bv_roomy s /\ (bv_prefix s <> None \/ bv_expected s <= limit)).
    { clear H. induction F as [|x k x' k' F [I1 I2] X|x k x' k' F [I1 I2] X].
      - split; [repeat split|left; discriminate].
      - apply (push_roomy limit x k x' k') in X; auto. tauto.
      - apply (push_roomy limit x k x' k') in X; auto. tauto. }
    destruct K as [K1 K2]. apply (push_roomy limit s l s' r) in H; auto. now apply H.
Qed.
(** Pairs, converted values and vectors, if their parts do. *)
Theorem C02_one_push_built :
  (forall A E B F (D : decoder A E) (me : E -> F) (f : A -> result B F), takes_all D -> takes_all (newtype_dec D me f)) /\
  (forall A EA B EB (DA : decoder A EA) (DB : decoder B EB), takes_all DA -> takes_all DB -> takes_all (dec2 DA DB)) /\
  (forall A E (D : decoder A E) n, takes_all D -> takes_all (exactvec_dec D n) /\ takes_all (vec_dec D n)).
Proof.
  split; [|split].
  - intros A E B F D me f T s l s' r G H.
    assert (K : fed D s).
    { clear H. induction G as [|x k x' k' G IH X|x k x' k' G IH X]; [exact (fed_new D)| |]; cbn [newtype_dec push] in X; unfold nt_push in X;
      destruct (push D x k) as [[y z] v] eqn:Y; destruct v; try discriminate X; injection X as <- <-; [now apply (fed_more D x k y z)|now apply (fed_ready D x k y z)]. }
    cbn [newtype_dec push] in H. unfold nt_push in H. destruct (push D s l) as [[y z] v] eqn:Y; destruct v; try discriminate H. injection H as <- <-. now apply (T s l y z).
  - intros A EA B EB DA DB TA TB s l s' r G H.
    set (J := fun s : st (dec2 DA DB) => match s with D2First _ _ a b => fed DA a /\ fed DB b | D2Second _ _ _ b => fed DB b | D2Errored _ _ => True end).
    assert (P2 : forall va b k x' k' w, fed DB b -> d2_push_second DA DB va b k = (x', k', w) -> w = NeedsMore \/ w = Ready -> J x' /\ (w = NeedsMore -> k' = [])).
    { intros va b k x' k' w FB X W. unfold d2_push_second in X. destruct (push DB b k) as [[y z] v] eqn:Y; destruct v; injection X as <- <- <-; try (destruct W; discriminate); split.
      - exact (fed_more DB b k y z FB Y).
      - intros _. exact (TB b k y z FB Y).
      - exact (fed_ready DB b k y z FB Y).
      - discriminate. }
    assert (P : forall x k x' k' w, J x -> push (dec2 DA DB) x k = (x', k', w) -> w = NeedsMore \/ w = Ready -> J x' /\ (w = NeedsMore -> k' = [])).
    { intros x k x' k' w Jx X W. cbn [dec2 push] in X. unfold d2_push in X. destruct x as [a b|va b|]; [|now apply (P2 va b k x' k' w)|injection X as _ _ <-; destruct W; discriminate].
      destruct Jx as [FA FB]. destruct (push DA a k) as [[y z] v] eqn:Y. destruct v.
      - injection X as <- <- <-. split; [split; [now apply (fed_more DA a k y z)|exact FB]|]. intros _. now apply (TA a k y z).
      - destruct (fin DA y) as [[va|e]|]; [now apply (P2 va b z x' k' w)| |]; injection X as _ _ <-; destruct W; discriminate.
      - injection X as _ _ <-; destruct W; discriminate.
      - injection X as _ _ <-; destruct W; discriminate. }
    assert (K : J s).
    { clear H. induction G as [|x k x' k' G IH X|x k x' k' G IH X]; [exact (conj (fed_new DA) (fed_new DB))|exact (proj1 (P x k x' k' _ IH X (or_introl eq_refl)))|exact (proj1 (P x k x' k' _ IH X (or_intror eq_refl)))]. }
    exact (proj2 (P s l s' r _ K H (or_introl eq_refl)) eq_refl).
  - intros A E D n T.
    set (Q := fun s : ev_state D => match ev_decoder D s with Some d => fed D d | None => True end).
    assert (L : forall k s l s' r w, Q s -> ev_loop D k s l = (s', r, w) -> w = NeedsMore \/ w = Ready -> Q s' /\ (w = NeedsMore -> r = [])).
    { induction k as [|k IH]; intros s l s' r w Qs H W; cbn [ev_loop] in H.
      - destruct l; [|injection H as _ _ <-; destruct W; discriminate]. destruct (lenN (ev_buffer D s) =? ev_length D s); injection H as <- <- <-; auto.
      - destruct l as [|b l]; [destruct (lenN (ev_buffer D s) =? ev_length D s); injection H as <- <- <-; auto|]. cbv zeta in H.
        assert (FD : fed D (match ev_decoder D s with Some d => d | None => init D end)). { unfold Q in Qs. destruct (ev_decoder D s); [exact Qs|exact (fed_new D)]. }
        destruct (push D _ (b :: l)) as [[x y] v] eqn:Y. destruct v.
        + injection H as <- <- <-. split; [exact (fed_more D _ _ _ _ FD Y)|]. intros _. exact (T _ _ _ _ FD Y).
        + destruct (fin D x) as [[a|e]|]; [|injection H as _ _ <-; destruct W; discriminate|injection H as _ _ <-; destruct W; discriminate]. cbv zeta in H.
          match type of H with (if ?c then _ else _) = _ => destruct c end; [injection H as <- <- <-; split; [exact I|discriminate]|]. apply IH in H; [exact H|exact I|exact W].
        + injection H as _ _ <-; destruct W; discriminate.
        + injection H as _ _ <-; destruct W; discriminate. }
    assert (V : forall s l s' r w, Q s -> ev_push D s l = (s', r, w) -> w = NeedsMore \/ w = Ready -> Q s' /\ (w = NeedsMore -> r = [])).
    { intros s l s' r w Qs H W. unfold ev_push in H. destruct (lenN (ev_buffer D s) =? ev_length D s); [injection H as <- <- <-; split; [exact Qs|discriminate]|]. now apply L in H. }
    split; intros s l s' r G H.
    + assert (K : Q s). { clear H. induction G as [|x k x' k' G IH X|x k x' k' G IH X]; [exact I|exact (proj1 (V x k x' k' _ IH X (or_introl eq_refl)))|exact (proj1 (V x k x' k' _ IH X (or_intror eq_refl)))]. }
      exact (proj2 (V s l s' r _ K H (or_introl eq_refl)) eq_refl).
    + assert (P : forall x k x' k' w, Q (vd_items D x) -> push (vec_dec D n) x k = (x', k', w) -> w = NeedsMore \/ w = Ready -> Q (vd_items D x') /\ (w = NeedsMore -> k' = [])).
      { intros x k x' k' w Qx X W. cbn [vec_dec push] in X. unfold vec_push in X. cbv zeta in X. destruct (vd_prefix D x) as [p|].
        - destruct (cs_push p k) as [[y z] v] eqn:Y. destruct v.
          + injection X as <- <- <-. split; [exact Qx|]. intros _. now apply cs_takes in Y.
          + destruct (cs_fin n y) as [m|e]; [|injection X as _ _ <-; destruct W; discriminate]. cbn [vd_items vd_prefix] in X.
            destruct (ev_push D (ev_new D m) z) as [[i u] v] eqn:Z. injection X as <- <- <-. exact (V (ev_new D m) z i u v I Z W).
          + injection X as _ _ <-; destruct W; discriminate.
          + injection X as _ _ <-; destruct W; discriminate.
        - destruct (ev_push D (vd_items D x) k) as [[i u] v] eqn:Z. injection X as <- <- <-. exact (V _ _ _ _ _ Qx Z W). }
      assert (K : Q (vd_items D s)). { clear H. induction G as [|x k x' k' G IH X|x k x' k' G IH X]; [exact I|exact (proj1 (P x k x' k' _ IH X (or_introl eq_refl)))|exact (proj1 (P x k x' k' _ IH X (or_intror eq_refl)))]. }
      exact (proj2 (P s l s' r _ K H (or_introl eq_refl)) eq_refl).
Qed.
(** Longer byte strings are taken a million bytes at a time: the call asks for more and leaves the rest of the slice. *)
Theorem C02_one_push_refuted : forall limit, 2000000 <= limit -> ~ takes_all (bytevec_dec limit) /\
  forall t, lenN t = 1500000 -> exists s, push (bytevec_dec limit) (init (bytevec_dec limit)) ([254; 128; 132; 30; 0] ++ t) = (s, dropN 1000000 t, NeedsMore) /\
    lenN (dropN 1000000 t) = 500000 /\ exists s', push (bytevec_dec limit) s (dropN 1000000 t) = (s', [], NeedsMore).
Proof.
  intros limit L.
  assert (K : forall t, lenN t = 1500000 -> exists s, push (bytevec_dec limit) (init (bytevec_dec limit)) ([254; 128; 132; 30; 0] ++ t) = (s, dropN 1000000 t, NeedsMore) /\
    lenN (dropN 1000000 t) = 500000 /\ exists s', push (bytevec_dec limit) s (dropN 1000000 t) = (s', [], NeedsMore)).
  { intros t T. assert (T' : lenN (dropN 1000000 t) = 500000) by (rewrite lenN_dropN; lia).
    set (s1 := {| bv_prefix := None; bv_buffer := takeN 1000000 t; bv_expected := 2000000; bv_written := 1000000; bv_cap := 1000000 |}).
    exists s1. split; [|split; [exact T'|]].
    - cbn [bytevec_dec push init]. unfold bv_init, bv_push. cbn [bv_prefix bv_buffer bv_written bv_cap bv_expected app].
      assert (C : cs_push [] (254 :: 128 :: 132 :: 30 :: 0 :: t) = ([254; 128; 132; 30; 0], t, Ready)).
      { unfold cs_push. cbv beta iota zeta. change (cs_len (hd 0 [254])) with 5. change (lenN [254]) with 1. change (5 <? 1) with false. cbv iota.
        assert (LL : lenN (128 :: 132 :: 30 :: 0 :: t) = 1500004). { change (128 :: 132 :: 30 :: 0 :: t) with ([128; 132; 30; 0] ++ t). rewrite lenN_app, T. reflexivity. }
        rewrite LL. change (N.min 1500004 (5 - 1)) with 4. reflexivity. }
      rewrite C. assert (F : cs_fin limit [254; 128; 132; 30; 0] = Ok 2000000).
      { unfold cs_fin. change (cs_decode_u64 [254; 128; 132; 30; 0]) with (@Ok N cs_err 2000000). cbv iota. apply N.leb_le in L. now rewrite L. }
      rewrite F. cbv zeta. unfold bv_copy. cbn [bv_prefix bv_buffer bv_written bv_cap bv_expected]. change (2000000 <? 0) with false. cbv iota.
      unfold bv_reserve. cbn [bv_prefix bv_buffer bv_written bv_cap bv_expected]. change (lenN (@nil N)) with 0. change (0 =? 0) with true. cbv iota zeta.
      cbn [bv_prefix bv_buffer bv_written bv_cap bv_expected]. change (lenN (@nil N)) with 0. rewrite T. change (0 + N.min (2000000 - 0) MAX_VECTOR_ALLOCATE) with 1000000.
      change (N.min (N.min 1500000 (2000000 - 0)) (1000000 - 0)) with 1000000. change (0 + 1000000 <? 2000000) with true. reflexivity.
    - cbn [bytevec_dec push]. unfold bv_push, s1. cbn [bv_prefix]. unfold bv_copy. cbn [bv_prefix bv_buffer bv_written bv_cap bv_expected]. change (2000000 <? 1000000) with false. cbv iota.
      assert (TT : lenN (takeN 1000000 t) = 1000000) by (rewrite lenN_takeN; lia).
      unfold bv_reserve. cbn [bv_prefix bv_buffer bv_written bv_cap bv_expected]. rewrite TT. change (1000000 =? 1000000) with true. cbv iota zeta.
      cbn [bv_prefix bv_buffer bv_written bv_cap bv_expected]. rewrite TT, T'. change (1000000 + N.min (2000000 - 1000000) MAX_VECTOR_ALLOCATE) with 2000000.
      change (N.min (N.min 500000 (2000000 - 1000000)) (2000000 - 1000000)) with 500000. change (1000000 + 500000 <? 2000000) with true. cbv iota.
      eexists. rewrite (dropN_over (dropN 1000000 t) 500000) by lia. reflexivity. }
  split; [|exact K]. intros H.
  assert (T : lenN (repeat 0 (N.to_nat 1500000)) = 1500000) by (unfold lenN; rewrite repeat_length; lia).
  destruct (K _ T) as (s & P & N & _). rewrite (H _ _ _ _ (fed_new (bytevec_dec limit)) P) in N. discriminate.
Qed.
Example C02_one_push_ex : exists s, push (bytevec_dec 1000) (init (bytevec_dec 1000)) [4; 1; 2] = (s, [], NeedsMore) /\ fed (bytevec_dec 1000) s.
Proof.
  exists (fst (fst (push (bytevec_dec 1000) (init (bytevec_dec 1000)) [4; 1; 2]))). split; [reflexivity|].
  exact (fed_more (bytevec_dec 1000) _ [4; 1; 2] _ [] (fed_new (bytevec_dec 1000)) eq_refl).
Qed.
Print Assumptions C02_one_push.
Print Assumptions C02_one_push_built.
Print Assumptions C02_one_push_refuted.
