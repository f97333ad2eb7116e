(** Names of messages, the inner decoders, and what they read. *)
From Coq Require Import String.
From Verif Require Import Base MDec LDec LDec2 LPrefix LCompact LCodec MWitness SWitness LWitness LWitDec MTx MAmount MText LAmountText MPmt MBip152 LTx2 LWire LPmt3 LBip152 LTaproot LBip32b LSha2b MP2p MP2pMsg SWire SPmt SBip152 SP2p LP2p LP2p2 LP2p3.
Local Open Scope N_scope.

(** *** Command strings *)
Lemma trim_field : forall s k, Forall (fun x => 0 < x < 128) s -> trim_zeros (s ++ repeat 0 k) = s.
Proof.
  induction s as [|x s IH]; intros k F.
  - cbn [app]. induction k as [|k IHk]; [reflexivity|]. cbn [repeat trim_zeros]. now rewrite IHk.
  - inversion F as [|? ? X F']; subst. cbn [app trim_zeros]. rewrite IH by exact F'. destruct s; [|reflexivity]. now replace (x =? 0) with false by lia.
Qed.
Lemma field_str : forall s c, field s c -> command_str c = s.
Proof. intros s c (F & k & -> & _). now apply trim_field. Qed.
Lemma field_fun : forall s s' c, field s c -> field s' c -> s = s'.
Proof. intros s s' c H1 H2. rewrite <- (field_str s c H1). now apply field_str. Qed.
Lemma field_inj : forall s c c', field s c -> field s c' -> c = c'.
Proof.
  intros s c c' (_ & k & -> & L) (_ & k' & -> & L'). f_equal. f_equal. rewrite lenN_app in L, L'. unfold lenN in *. rewrite repeat_length in L, L'. lia.
Qed.
Lemma interior_field : forall c, Forall (fun x => x < 128) c -> interior_null c = false -> exists s k, Forall (fun x => 0 < x < 128) s /\ c = s ++ repeat 0 k.
Proof.
  induction c as [|x c IH]; intros F H; [exists [], 0%nat; auto|]. inversion F as [|? ? X F']; subst. cbn [interior_null] in H.
  destruct (N.eqb_spec x 0) as [->|NZ].
  - exists [], (S (length c)). split; [constructor|]. cbn [app repeat]. f_equal. cbn [existsb negb N.eqb orb] in H. clear - H.
    induction c as [|y c IH]; [reflexivity|]. cbn [existsb] in H. apply orb_false_iff in H as [H1 H2]. cbn [length repeat]. rewrite <- IH by exact H2. f_equal. destruct (N.eqb_spec y 0); [auto|discriminate].
  - destruct (IH F' H) as (s & k & S1 & ->). exists (x :: s), k. split; [constructor; [lia|exact S1]|reflexivity].
Qed.
Lemma interior_repeat : forall k, interior_null (repeat 0 k) = false.
Proof. destruct k as [|k]; [reflexivity|]. cbn [repeat interior_null N.eqb]. cbn [existsb negb N.eqb orb]. induction k; [reflexivity|]. cbn [repeat existsb negb N.eqb orb]. exact IHk. Qed.
Lemma field_interior : forall s k, Forall (fun x => 0 < x < 128) s -> interior_null (s ++ repeat 0 k) = false.
Proof.
  induction s as [|x s IH]; intros k F; [apply interior_repeat|]. inversion F; subst. cbn [app interior_null]. replace (x =? 0) with false by lia. now apply IH.
Qed.
Lemma field_ascii : forall s c, field s c -> Forall (fun x => x < 128) c.
Proof.
  intros s c (F & k & -> & _). apply Forall_app. split; [eapply Forall_impl; [|exact F]; cbn beta; intros; lia|]. induction k; cbn [repeat]; constructor; [lia|auto].
Qed.
Lemma ascii_bytes_all : forall c, is_ascii_bytes c = true <-> Forall (fun x => x < 128) c.
Proof. intros c. unfold is_ascii_bytes. rewrite forallb_forall, Forall_forall. split; intros H x X; specialize (H x X); lia. Qed.
Lemma field_iff : forall c, lenN c = 12 -> (negb (is_ascii_bytes c) || interior_null c = false <-> exists s, field s c).
Proof.
  intros c L. rewrite orb_false_iff, negb_false_iff, ascii_bytes_all. split.
  - intros [A B]. destruct (interior_field c A B) as (s & k & S1 & ->). exists s. split; [exact S1|]. exists k. auto.
  - intros (s & F). split; [now apply (field_ascii s)|]. destruct F as (F & k & -> & _). now apply field_interior.
Qed.
Lemma command_codec : codec command_dec (fun c => c) (fun c => exists s, field s c).
Proof.
  unfold command_dec. eapply newtype_codec; [apply (array_codec 12); lia| |].
  - intros c (s & F). assert (L : lenN c = 12) by (destruct F as (_ & k & _ & L); exact L). exists c. split; [split; [exact L|]|].
    + pose proof (field_ascii s c F) as A. eapply Forall_impl; [|exact A]. intros x X. unfold byte_ok. cbn beta in X. lia.
    + rewrite (proj2 (field_iff c L)) by eauto. auto.
  - intros a c [L B] H. destruct (negb (is_ascii_bytes a) || interior_null a) eqn:E; inv H. split; [|reflexivity]. now apply field_iff.
Qed.
Lemma field_ok : forall s c, field s c -> is_array 12 c.
Proof.
  intros s c F. split; [destruct F as (_ & k & _ & L); exact L|]. pose proof (field_ascii s c F) as A. eapply Forall_impl; [|exact A]. intros x X. unfold byte_ok. cbn beta in X. lia.
Qed.
(** the constructor from text *)
Lemma zeros_ascii : forall k, Forall (fun x => x < 128) (repeat 0 k).
Proof. induction k; cbn [repeat]; constructor; [lia|auto]. Qed.
Lemma command_of_spec : forall s c, command_of s = Ok c <-> lenN s <= 12 /\ c = s ++ repeat 0 (12 - length s) /\ exists s', field s' c.
Proof.
  intros s c. unfold command_of. split.
  - intros H. destruct (negb (is_ascii s) || (12 <? str_len s)) eqn:E; [discriminate|]. apply orb_false_iff in E as [A L]. apply negb_false_iff, is_ascii_all in A.
    rewrite str_len_ascii in L by exact A. rewrite ascii_bytes in H by exact A. destruct (interior_null _) eqn:I; [discriminate|]. assert (c = s ++ repeat 0 (12 - length s)) as -> by congruence. clear H.
    assert (LL : lenN s <= 12) by exact (proj1 (N.ltb_ge _ _) L). split; [exact LL|]. split; [reflexivity|]. apply field_iff.
    + rewrite lenN_app. unfold lenN in *. rewrite repeat_length. clear - LL. change str with (list N) in *. change bytes with (list N) in *. lia.
    + rewrite I. rewrite (proj2 (ascii_bytes_all _)); [reflexivity|]. apply Forall_app. split; [exact A|apply zeros_ascii].
  - intros (L & E & s' & F). pose proof (field_ascii s' c F) as A. rewrite E in A. apply Forall_app in A as [A _].
    rewrite (proj2 (is_ascii_all s) A), str_len_ascii, ascii_bytes by exact A. replace (12 <? lenN s) with false by lia. cbn [negb orb].
    rewrite <- E. assert (LC : lenN c = 12) by (destruct F as (_ & k & _ & LC); exact LC).
    pose proof (proj2 (field_iff c LC) (ex_intro _ s' F)) as I. apply orb_false_iff in I as [_ ->]. reflexivity.
Qed.
Lemma command_of_field : forall s c, field s c -> command_of s = Ok c.
Proof.
  intros s c F. apply command_of_spec. pose proof F as (_ & k & E & L). rewrite E, lenN_app in L. assert (K : (12 - length s)%nat = k) by (unfold lenN in L; rewrite repeat_length in L; lia).
  rewrite K. split; [lia|]. eauto.
Qed.

(** *** Which name leads to which decoder *)
Lemma lookup_in : forall {V} s (l : list (str * V)) v, lookup s l = Some v -> In (s, v) l.
Proof.
  induction l as [|[k x] l IH]; intros v H; [discriminate|]. cbn [lookup] in H. destruct (str_eqb s k) eqn:E.
  - injection H as <-. apply str_eqb_eq in E as ->. now left.
  - right. now apply IH.
Qed.
Lemma existsb_in : forall s l, existsb (str_eqb s) l = true <-> In s l.
Proof.
  intros s l. rewrite existsb_exists. split.
  - intros (x & X & E). apply str_eqb_eq in E as ->. exact X.
  - intros H. exists s. split; [exact H|now apply str_eqb_eq].
Qed.
(** what the inner decoder of a mode reads *)
Definition mreads (mo : mode) (m : message) (p : bytes) : Prop :=
  match mo with
  | KindMode k => kreads k m p
  | EmptyMode c => p = [] /\ exists b, lookup (command_str c) bares = Some b /\ m = MBare b
  | UnknownMode c n => m = MUnknown c p /\ lenN p = n
  end.
Lemma empty_known : forall s, In s empty_names -> In s known.
Proof. intros s H. unfold empty_names in H. cbn [In] in H. repeat destruct H as [H|H]; subst; try contradiction; (apply existsb_in; vm_compute; reflexivity). Qed.
Lemma kind_known : forall s k, In (s, k) kind_names -> In s known.
Proof. intros s k H. unfold kind_names in H. cbn [In] in H. repeat destruct H as [H|H]; try contradiction; (assert (s = s) as _ by reflexivity; injection H as <- _; apply existsb_in; vm_compute; reflexivity). Qed.
Lemma known_mode : forall s, In s known -> existsb (str_eqb s) empty_names = true \/ exists k, lookup s kind_names = Some k.
Proof.
  intros s H. unfold known in H. cbn [In map] in H. repeat destruct H as [H|H]; try contradiction; subst s;
    first [left; vm_compute; reflexivity | right; eexists; vm_compute; reflexivity].
Qed.
Lemma empty_named : forall s b, In s empty_names -> lookup s bares = Some b -> exists i, number (MBare b) = Some i /\ nth_error known i = Some s.
Proof.
  intros s b H L. unfold empty_names in H. cbn [In] in H. repeat destruct H as [H|H]; try contradiction; subst s; vm_compute in L; injection L as <-; eexists; (split; [reflexivity|vm_compute; reflexivity]).
Qed.
Lemma kind_named : forall s k m, In (s, k) kind_names -> kind_of m = Some k -> exists i, number m = Some i /\ nth_error known i = Some s.
Proof.
  intros s k m H K.
  destruct m as [| | | | | | | | | | | | | | | | | | | | | | | | | | | | | | | |c0 b0]; cbn [kind_of] in K; try discriminate; injection K as <-; unfold kind_names in H; cbn [In] in H;
    repeat destruct H as [H|H]; try discriminate; try contradiction; (apply (f_equal fst) in H; cbn [fst] in H; subst s; eexists; split; [reflexivity|vm_compute; reflexivity]).
Qed.
Lemma named_mode : forall m i s, number m = Some i -> nth_error known i = Some s ->
  (exists b, m = MBare b /\ existsb (str_eqb s) empty_names = true /\ lookup s bares = Some b) \/
  (exists k, kind_of m = Some k /\ existsb (str_eqb s) empty_names = false /\ lookup s kind_names = Some k).
Proof.
  intros m i s H K.
  destruct m as [[]| | | | | | | | | | | | | | | | | | | | | | | | | | | | | | | |c0 b0]; cbn [number] in H; try discriminate; injection H as <-; apply (f_equal (fun x => match x with Some y => y | None => [] end)) in K; cbn [nth_error known map] in K; subst s;
    first [left; eexists; split; [reflexivity|]; split; vm_compute; reflexivity | right; eexists; split; [reflexivity|]; split; vm_compute; reflexivity].
Qed.
Lemma v1_mode_reads : forall s c m p, field s c -> (mreads (v1_mode c (lenN p)) m p <-> named m c /\ reads m p).
Proof.
  intros s c m p F. unfold v1_mode. rewrite (field_str s c F). split.
  - destruct (existsb (str_eqb s) empty_names) eqn:E.
    + intros (-> & b & L & ->). apply existsb_in in E. rewrite (field_str s c F) in L. destruct (empty_named s b E L) as (i & I & K).
      split; [|reflexivity]. unfold named. rewrite I. exists s. auto.
    + destruct (lookup s kind_names) as [k|] eqn:L.
      * intros (K & R). split; [|exact R]. apply lookup_in in L. destruct (kind_named s k m L K) as (i & I & Kn). unfold named. rewrite I. exists s. auto.
      * intros (-> & _). split; [|reflexivity]. unfold named. cbn [number]. exists p. split; [reflexivity|]. exists s. split; [exact F|]. intros KN.
        destruct (known_mode s KN) as [X|[k X]]; congruence.
  - intros (Nm & R). unfold named in Nm. destruct (number m) as [i|] eqn:I.
    + destruct Nm as (s' & K & F'). rewrite (field_fun s' s c F' F) in K. destruct (named_mode m i s I K) as [(b & -> & E1 & E2)|(k & E0 & E1 & E2)].
      * rewrite E1. cbn [mreads]. rewrite (field_str s c F). split; [exact R|]. eauto.
      * rewrite E1, E2. cbn [mreads]. split; auto.
    + destruct Nm as (q & -> & s' & F' & NK). rewrite (field_fun s' s c F' F) in NK. cbn [reads] in R. subst q.
      destruct (existsb (str_eqb s) empty_names) eqn:E; [apply existsb_in, empty_known in E; contradiction|].
      destruct (lookup s kind_names) as [k|] eqn:L; [apply lookup_in, kind_known in L; contradiction|]. cbn [mreads]. auto.
Qed.

(** *** The same for V2 *)
Lemma assocN_in : forall {V} n (l : list (N * V)) v, assocN n l = Some v -> In (n, v) l.
Proof.
  induction l as [|[k x] l IH]; intros v H; [discriminate|]. cbn [assocN] in H. destruct (N.eqb_spec n k) as [->|].
  - injection H as <-. now left.
  - right. now apply IH.
Qed.
Lemma assocN_none : forall {V} n (l : list (N * V)) v, assocN n l = None -> ~ In (n, v) l.
Proof.
  induction l as [|[k x] l IH]; intros v H I; [exact I|]. cbn [assocN] in H. destruct (N.eqb_spec n k); [discriminate|]. destruct I as [I|I]; [congruence|]. now apply (IH v).
Qed.
Lemma assocN_nodup : forall {V} n (l : list (N * V)) v, NoDup (map fst l) -> In (n, v) l -> assocN n l = Some v.
Proof.
  induction l as [|[k x] l IH]; intros v ND I; [contradiction|]. cbn [assocN map fst] in *. inversion ND as [|? ? NI ND']; subst.
  destruct I as [I|I]; [injection I as -> ->; now rewrite N.eqb_refl|]. destruct (N.eqb_spec n k) as [->|]; [|auto].
  exfalso. apply NI. change k with (fst (k, v)). now apply in_map.
Qed.
Lemma in_ids : forall id s, In (id, s) ids <-> assocN id ids = Some s.
Proof.
  intros id s. split; [|apply assocN_in]. apply assocN_nodup.
  replace (map fst ids) with (map N.of_nat (seq 1 28) ++ [37]) by (vm_compute; reflexivity).
  vm_compute. repeat (constructor; [cbn [In]; intros X; repeat (destruct X as [X|X]; [discriminate|]); exact X|]). constructor.
Qed.
Lemma field_pad : forall s, forallb (fun x => (0 <? x) && (x <? 128)) s = true -> (length s <= 12)%nat -> field s (pad12 s).
Proof.
  intros s H L. split.
  - apply Forall_forall. intros x X. rewrite forallb_forall in H. specialize (H x X). lia.
  - exists (12 - length s)%nat. split; [reflexivity|]. unfold pad12, lenN. rewrite app_length, repeat_length. lia.
Qed.
Lemma short_ids_reads : forall id mo, assocN id short_ids = Some mo -> exists s, In (id, s) ids /\
  forall m p, mreads mo m p <-> exists i, number m = Some i /\ nth_error known i = Some s /\ reads m p.
Proof.
  assert (E : forall s c m p i, field s c -> existsb (str_eqb s) empty_names = true -> nth_error known i = Some s ->
              mreads (EmptyMode c) m p <-> exists i, number m = Some i /\ nth_error known i = Some s /\ reads m p).
  { intros s c m p i F E K. cbn [mreads]. rewrite (field_str s c F). split.
    - intros (-> & b & L & ->). apply existsb_in in E. destruct (empty_named s b E L) as (j & I & Kj). exists j. split; [exact I|]. split; [exact Kj|reflexivity].
    - intros (j & I & Kj & R). destruct (named_mode m j s I Kj) as [(b & -> & E1 & E2)|(k & _ & E1 & _)]; [|congruence]. split; [exact R|]. eauto. }
  assert (K : forall s k m p, lookup s kind_names = Some k -> existsb (str_eqb s) empty_names = false ->
              mreads (KindMode k) m p <-> exists i, number m = Some i /\ nth_error known i = Some s /\ reads m p).
  { intros s k m p L E0. cbn [mreads]. split.
    - intros (K & R). apply lookup_in in L. destruct (kind_named s k m L K) as (i & I & Kn). eauto.
    - intros (j & I & Kj & R). destruct (named_mode m j s I Kj) as [(b & -> & E1 & E2)|(k' & K & E1 & E2)]; [congruence|]. split; [congruence|exact R]. }
  intros id mo H. apply assocN_in in H. unfold short_ids in H. cbn [In] in H.
  assert (X : forall s, assocN id ids = Some s -> (forall m p, mreads mo m p <-> exists i, number m = Some i /\ nth_error known i = Some s /\ reads m p) -> exists s, In (id, s) ids /\
  forall m p, mreads mo m p <-> exists i, number m = Some i /\ nth_error known i = Some s /\ reads m p).
  { intros s I R. exists s. split; [now apply in_ids|exact R]. }
  repeat destruct H as [H|H]; try contradiction;
    (assert (E1 := f_equal fst H); assert (E2 := f_equal snd H); cbn [fst snd] in E1, E2; clear H; subst id mo; eapply X; [vm_compute; reflexivity|]; intros m p;
     first [ apply K; vm_compute; reflexivity
           | eapply (E _ _ _ _ 19%nat); [|vm_compute; reflexivity|vm_compute; reflexivity]; exact (field_pad (lit "filterclear") eq_refl ltac:(vm_compute; lia))
           | eapply (E _ _ _ _ 8%nat); [|vm_compute; reflexivity|vm_compute; reflexivity]; exact (field_pad (lit "mempool") eq_refl ltac:(vm_compute; lia)) ]).
Qed.
Lemma short_ids_none : forall id s, assocN id short_ids = None -> ~ In (id, s) ids.
Proof.
  intros id s H I. assert (J : In id (map fst ids)) by (change id with (fst (id, s)); now apply in_map).
  replace (map fst ids) with (map fst short_ids) in J by (vm_compute; reflexivity). apply in_map_iff in J as ([k mo] & E & J). cbn [fst] in E. subst k.
  exact (assocN_none id short_ids mo H J).
Qed.
Lemma ids_pos : forall id s, In (id, s) ids -> 0 < id < 256.
Proof.
  intros id s I. assert (J : In id (map fst ids)) by (change id with (fst (id, s)); now apply in_map).
  assert (A : forallb (fun x => (0 <? x) && (x <? 256)) (map fst ids) = true) by (vm_compute; reflexivity). rewrite forallb_forall in A. specialize (A id J). lia.
Qed.
Definition v2_long_names := map fst v2_kind_names ++ v2_empty_names.
Lemma v2_split : forall s, In s known -> (In s v2_long_names <-> ~ In s (map snd ids)).
Proof.
  intros s H. assert (B : existsb (str_eqb s) v2_long_names = negb (existsb (str_eqb s) (map snd ids))).
  { unfold known in H. cbn [In map] in H. repeat destruct H as [H|H]; try contradiction; subst s; vm_compute; reflexivity. }
  rewrite <- !existsb_in, B. destruct (existsb _ (map snd ids)); cbn [negb]; split; congruence.
Qed.
Lemma v2_mode_reads : forall s c m p, field s c ->
  (mreads (v2_mode c) m p <-> (exists i, number m = Some i /\ nth_error known i = Some s /\ ~ In s (map snd ids) /\ reads m p) \/
                             (m = MUnknown c [] /\ p = [] /\ (~ In s known \/ In s (map snd ids)))).
Proof.
  intros s c m p F. unfold v2_mode. rewrite (field_str s c F).
  assert (KN : forall i, nth_error known i = Some s -> In s known) by (intros i K; now apply nth_error_In in K).
  destruct (existsb (str_eqb s) v2_empty_names) eqn:E.
  - apply existsb_in in E. assert (V : In s v2_long_names) by (apply in_or_app; now right).
    assert (E' : In s empty_names) by (apply existsb_in; unfold v2_empty_names in E; cbn [In] in E; repeat destruct E as [E|E]; try contradiction; subst s; vm_compute; reflexivity).
    cbn [mreads]. rewrite (field_str s c F). pose proof (proj1 (v2_split s (empty_known s E')) V) as NI. split.
    + intros (-> & b & L & ->). left. destruct (empty_named s b E' L) as (j & I & Kj). exists j. repeat (split; [assumption|]). reflexivity.
    + intros [(j & I & Kj & _ & R)|(_ & _ & [X|X])]; [|contradict X; now apply empty_known|contradiction].
      destruct (named_mode m j s I Kj) as [(b & -> & E1 & E2)|(k & _ & E1 & _)]; [|apply existsb_in in E'; congruence]. split; [exact R|]. eauto.
  - destruct (lookup s v2_kind_names) as [k|] eqn:L.
    + apply lookup_in in L. assert (V : In s v2_long_names) by (apply in_or_app; left; change s with (fst (s, k)); now apply in_map).
      assert (L' : lookup s kind_names = Some k /\ existsb (str_eqb s) empty_names = false).
      { unfold v2_kind_names in L. cbn [In] in L. repeat destruct L as [L|L]; try contradiction; (assert (E1 := f_equal fst L); assert (E2 := f_equal snd L); cbn [fst snd] in E1, E2; clear L E V F; subst s k; split; vm_compute; reflexivity). }
      destruct L' as [L' EF]. assert (KS : In s known) by (apply lookup_in, kind_known in L'; exact L'). pose proof (proj1 (v2_split s KS) V) as NI. cbn [mreads]. split.
      * intros (K & R). left. apply lookup_in in L'. destruct (kind_named s k m L' K) as (i & I & Kn). exists i. auto.
      * intros [(j & I & Kj & _ & R)|(_ & _ & [X|X])]; [|contradiction|contradiction].
        destruct (named_mode m j s I Kj) as [(b & -> & E1 & E2)|(k' & K & E1 & E2)]; [congruence|]. split; [congruence|exact R].
    + assert (NV : ~ In s v2_long_names).
      { intros V. apply in_app_or in V as [V|V]; [|apply existsb_in in V; congruence]. unfold v2_kind_names in V. cbn [map fst In] in V.
        clear E F. repeat destruct V as [V|V]; try contradiction; subst s; vm_compute in L; discriminate. }
      cbn [mreads]. split.
      * intros (-> & P0). right. assert (p = []) as -> by (destruct p; [reflexivity|rewrite lenN_cons in P0; lia]). split; [reflexivity|]. split; [reflexivity|].
        destruct (existsb (str_eqb s) (map snd ids)) eqn:X; [right; now apply existsb_in|]. left. intros Y. apply NV. apply (v2_split s Y). rewrite <- existsb_in. congruence.
      * intros [(j & I & Kj & X & R)|(-> & -> & _)]; [|auto]. exfalso. apply NV. apply (v2_split s (KN j Kj)). exact X.
Qed.
