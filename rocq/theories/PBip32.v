(** C35: BIP32 child numbers, derivation paths and extended keys. *)
From Coq Require Import String Eqdep_dec.
From Verif Require Import Base MDec LDec SSha2 SHash2 SHmac SWire MText SText LText LAmountText MBase58 SBase58 LBase58 LSha2b MHmac LHmac LTaproot LPoly MBip32 SBip32 LBip32 LBip32b LBip32c.
From Verif Require PBase58 LWitness.
Local Open Scope N_scope.

(** * Child numbers *)
(** A child number is either normal, with an index below 2^31, or hardened, with such an index; [index] and
    [is_hardened] recover which; the constructors accept exactly these indexes. *)
Theorem C35_child_number : forall c, cn_ok c ->
  cn_index c < 2 ^ 31 /\ is_normal c = negb (is_hardened c) /\
  (is_hardened c = false -> c = cn_index c /\ from_normal_idx (cn_index c) = Ok c) /\
  (is_hardened c = true -> c = cn_index c + 2 ^ 31 /\ from_hardened_idx (cn_index c) = Ok c).
Proof.
  intros c L. rewrite (is_hardened_iff c L), (cn_index_eq c L), from_hardened_eq, from_normal_eq. unfold is_normal. rewrite (is_hardened_iff c L). unfold cn_ok in L.
  destruct (N.leb_spec (2 ^ 31) c) as [G|G].
  - split; [lia|]. split; [reflexivity|]. split; [discriminate|]. intros _. split; [lia|]. rewrite (proj2 (N.ltb_lt _ _)) by lia. f_equal. lia.
  - split; [lia|]. split; [reflexivity|]. split; [|discriminate]. intros _. split; [auto|]. rewrite (proj2 (N.ltb_lt _ _)) by lia. reflexivity.
Qed.
Theorem C35_child_index : forall i, i < 2 ^ 32 ->
  (i < 2 ^ 31 -> exists a b, from_normal_idx i = Ok a /\ from_hardened_idx i = Ok b /\ cn_ok a /\ cn_ok b /\
     cn_index a = i /\ cn_index b = i /\ is_hardened a = false /\ is_hardened b = true) /\
  (2 ^ 31 <= i -> from_normal_idx i = Err i /\ from_hardened_idx i = Err i).
Proof.
  intros i L. rewrite from_hardened_eq, from_normal_eq. split; intro H.
  - rewrite (proj2 (N.ltb_lt _ _) H). exists i, (i + 2 ^ 31). assert (A : cn_ok i) by (unfold cn_ok; lia). assert (B : cn_ok (i + 2 ^ 31)) by (unfold cn_ok; lia).
    rewrite !is_hardened_iff, !cn_index_eq by auto. destruct (N.leb_spec (2 ^ 31) i), (N.leb_spec (2 ^ 31) (i + 2 ^ 31)); try lia. repeat split; auto; lia.
  - rewrite (proj2 (N.ltb_ge _ _) H). auto.
Qed.
(** Incrementing gives the next index of the same kind; it fails exactly at the last index. *)
Theorem C35_increment : forall c, cn_ok c ->
  (cn_index c < 2 ^ 31 - 1 -> exists d, increment c = Ok d /\ cn_ok d /\ cn_index d = cn_index c + 1 /\ is_hardened d = is_hardened c) /\
  (cn_index c = 2 ^ 31 - 1 -> increment c = Err (2 ^ 31)).
Proof.
  intros c L. rewrite (increment_eq c L), (cn_index_eq c L). pose proof L as L'. unfold cn_ok in L'. split; intro H.
  - assert (NE : c <> 2 ^ 31 - 1 /\ c <> 2 ^ 32 - 1) by (destruct (N.leb_spec (2 ^ 31) c); lia). destruct NE as [N1 N2].
    rewrite (proj2 (N.eqb_neq _ _) N1), (proj2 (N.eqb_neq _ _) N2). cbn [orb]. exists (c + 1). assert (B : cn_ok (c + 1)) by (unfold cn_ok; lia).
    split; [reflexivity|]. split; [exact B|]. rewrite (cn_index_eq _ B), !is_hardened_iff by auto. destruct (N.leb_spec (2 ^ 31) c), (N.leb_spec (2 ^ 31) (c + 1)); split; auto; lia.
  - destruct (N.leb_spec (2 ^ 31) c).
    + assert (c = 2 ^ 32 - 1) as -> by lia. reflexivity.
    + subst c. reflexivity.
Qed.
(** Parsing a child number accepts exactly the texts of the grammar. *)
Theorem C35_child_parse : forall s c, cn_from_str s = Ok c <-> child_text s c.
Proof. exact cn_from_str_ok. Qed.
(** Printing, in either form, then parsing gives the number back; different numbers have different texts. *)
Theorem C35_child_round_trip : forall alt c, cn_ok c -> cn_from_str (cn_display alt c) = Ok c.
Proof. intros alt c L. apply cn_from_str_ok. now apply cn_display_text. Qed.
(** The errors: the index text is not a number in the u32 range, or the number is one but is 2^31 or more. *)
Theorem C35_child_errors : forall s,
  match cn_from_str s with
  | Ok _ => True
  | Err (ChIndexOutOfRange i) => 2 ^ 31 <= i < 2 ^ 32 /\ exists d, (s = d \/ s = d ++ lit "'" \/ s = d ++ lit "h") /\ int_text digit10 10 false d (Z.of_N i)
  | Err (ChParseInt e) => forall d i, (s = d \/ s = d ++ lit "'" \/ s = d ++ lit "h") -> int_text digit10 10 false d (Z.of_N i) -> 2 ^ 32 <= i
  end.
Proof.
  assert (PN : forall d e, parse_u32 d = Err e -> forall i, int_text digit10 10 false d (Z.of_N i) -> 2 ^ 32 <= i).
  { intros d e E i T. destruct (N.le_gt_cases (2 ^ 32) i) as [|L]; auto. rewrite (proj2 (parse_u32_ok d i) (conj T L)) in E. discriminate. }
  intro s. unfold cn_from_str. destruct (rev s) as [|l f] eqn:R.
  - assert (s = []) as -> by (rewrite <- (rev_involutive s), R; reflexivity). cbn. intros d i [E|[E|E]] T; [symmetry in E; now apply int_text_nonempty in T|..]; symmetry in E; now apply app_eq_nil in E as [_ E].
  - apply in_last in R. subst s. destruct (N.eqb_spec l 39) as [->|N39]; [|destruct (N.eqb_spec l 104) as [->|N104]]; cbn [orb].
    1,2: destruct (parse_u32 (rev f)) as [n|e] eqn:P;
      [apply parse_u32_ok in P as [T L]; rewrite from_hardened_eq; destruct (N.ltb_spec n (2 ^ 31)) as [X|X]; [exact I|]; split; [lia|]; exists (rev f); split; [auto|exact T]|].
    1,2: intros d i H T; destruct H as [E|[E|E]];
      [destruct (last_digit _ _ _ _ T (eq_sym E)); lia|apply app_inj_tail in E as [E1 E2]; try discriminate E2; subst d; eauto..].
    destruct (parse_u32 (rev f ++ [l])) as [n|e] eqn:P.
    + apply parse_u32_ok in P as [T L]. rewrite from_normal_eq. destruct (N.ltb_spec n (2 ^ 31)) as [X|X]; [exact I|]. split; [lia|]. eauto.
    + intros d i [E|[E|E]] T; [subst d; eauto|..]; apply app_inj_tail in E as [_ E]; [destruct (N39 E)|destruct (N104 E)].
Qed.

(** * Paths *)
(** Relative and absolute paths: the parsers accept exactly their grammars. *)
Theorem C35_relative_parse : forall s p, rel_from_str s = Ok p <-> rel_text s p.
Proof. exact rel_from_str_ok. Qed.
Theorem C35_absolute_parse : forall s p, abs_from_str s = Ok p <-> abs_text s p.
Proof. exact abs_from_str_ok. Qed.
(** No text is both; so a path cannot be mistaken for one of the other kind. *)
Theorem C35_kinds_disjoint : forall s p q, rel_from_str s = Ok p -> abs_from_str s = Ok q -> False.
Proof.
  intros s p q A B. apply rel_from_str_ok in A. apply abs_from_str_ok in B. destruct B as [[-> _]|(_ & t & -> & _)]; exact (rel_text_head _ p _ A eq_refl).
Qed.
(** Print then parse, with either marker of hardened children, for both kinds. *)
Theorem C35_path_round_trip : forall alt p, Forall cn_ok p ->
  rel_from_str (rel_display alt p) = Ok p /\ abs_from_str (abs_display alt p) = Ok p.
Proof.
  intros alt p F. pose proof (rel_display_text alt p F) as T. split; [now apply rel_from_str_ok|]. apply abs_from_str_ok. unfold abs_text, abs_display.
  destruct p as [|c p]; [now left|]. right. split; [discriminate|]. exists (rel_display alt (c :: p)). auto.
Qed.
(** Exactly what is printed: decimal indexes without leading zeros, joined by slashes; hardened ones end in an
    apostrophe, or in h with the alternate flag; an absolute path starts with m. *)
Theorem C35_path_text : forall (alt : bool) p, Forall cn_ok p ->
  exists parts : list str,
    Forall2 (fun (s : str) (c : child_number) => exists d, canonical d (c mod 2 ^ 31) /\
      s = d ++ (if c <? 2 ^ 31 then [] else if alt then lit "h" else lit "'")) parts p /\
    rel_display alt p = SBip32.joined parts /\ abs_display alt p = SBip32.joined (lit "m" :: parts).
Proof.
  intros alt p F. exists (map (cn_display alt) p).
  assert (R : rel_display alt p = joined (map (cn_display alt) p)).
  { destruct p as [|c p]; [reflexivity|]. cbn [rel_display map]. clear F. generalize (cn_display alt c). induction p as [|d p IH]; intro acc; [reflexivity|].
    cbn [fold_left map]. rewrite IH. change (joined (acc :: cn_display alt d :: map (cn_display alt) p)) with (acc ++ lit "/" ++ joined (cn_display alt d :: map (cn_display alt) p)).
    destruct p; cbn [map joined]; now rewrite <- ?app_assoc. }
  split; [|split; [exact R|]].
  - clear R. induction F as [|c p I F IH]; constructor; auto. exists (fmt_u (c mod 2 ^ 31)). split; [apply fmt_u_canonical|].
    unfold cn_display. rewrite cn_index_mod, (is_hardened_iff c I). destruct (N.leb_spec (2 ^ 31) c), (N.ltb_spec c (2 ^ 31)); try lia; reflexivity.
  - unfold abs_display. rewrite R. destruct p; reflexivity.
Qed.
(** The errors of the parsers, in the order in which they are found. *)
Theorem C35_relative_errors : forall s e, s <> [] ->
  (rel_from_str s = Err e <->
   ((s = lit "m" \/ exists t, s = lit "m/" ++ t) /\ e = PMaster) \/
   (s <> lit "m" /\ (forall t, s <> lit "m/" ++ t) /\
    exists good cs bad rest, s = joined (good ++ bad :: rest) /\ Forall (fun p => ~ In 47 p) (bad :: rest) /\ Forall2 child_text good cs /\
      ((bad = [] /\ e = PEmptyChild) \/ (bad <> [] /\ exists e', cn_from_str bad = Err e' /\ e = PChild e')))).
Proof.
  intros s e NE. unfold rel_from_str. destruct s as [|x t]; [congruence|]. set (s := x :: t) in *. clearbody s. clear x t.
  assert (PM : str_eqb s (lit "m") || starts_with (lit "m/") s = true <-> (s = lit "m" \/ exists t, s = lit "m/" ++ t)).
  { rewrite orb_true_iff, str_eqb_eq. unfold starts_with. destruct (strip_prefix (lit "m/") s) as [u|] eqn:E.
    - apply strip_prefix_some in E. split; [|tauto]. intros _. right. eauto.
    - split; [intros [H|H]; [now left|discriminate]|]. intros [H|(t & H)]; [now left|]. apply strip_prefix_some in H. congruence. }
  destruct (str_eqb s (lit "m") || starts_with (lit "m/") s).
  - destruct PM as [PM _]. specialize (PM eq_refl). split.
    + intro E. inv E. left. auto.
    + intros [[_ ->]|(N1 & N2 & _)]; [reflexivity|]. destruct PM as [P|(t & P)]; [congruence|]. now apply N2 in P.
  - assert (NP : ~ (s = lit "m" \/ exists t, s = lit "m/" ++ t)) by (intro H; apply PM in H; discriminate). rewrite parse_parts_err. destruct (split_joined s) as [J NS]. pose proof (split_no_slash s) as FS. split.
    + intros (g & cs & b & r & E & F & H). right. split; [tauto|]. split; [intros t E'; apply NP; eauto|]. exists g, cs, b, r. rewrite <- E. split; [auto|]. split; [|auto].
      rewrite E in FS. now apply Forall_app in FS as [_ FS].
    + intros [[H _]|(_ & _ & g & cs & b & r & E & FB & F & H)]; [tauto|]. exists g, cs, b, r. split; [|auto]. rewrite E. apply joined_split; [intro X; now apply app_eq_nil in X as [_ X]|].
      apply Forall_app. split; [|exact FB]. now apply forall2_no_slash in F.
Qed.
Theorem C35_absolute_errors : forall s, 
  (abs_from_str s = Err PMaster <-> s <> lit "m" /\ forall t, s <> lit "m/" ++ t) /\
  (forall t, t <> [] -> (forall u, t <> lit "m/" ++ u) -> t <> lit "m" -> abs_from_str (lit "m/" ++ t) = rel_from_str t) /\
  abs_from_str (lit "m/") = Err PEmptyChild.
Proof.
  intro s. split; [|split; [|reflexivity]].
  - unfold abs_from_str. destruct (str_eqb s (lit "m")) eqn:E1.
    + apply str_eqb_eq in E1. subst s. split; [discriminate|]. intros [H _]. congruence.
    + destruct (strip_prefix (lit "m/") s) as [u|] eqn:E2.
      * apply strip_prefix_some in E2. subst s. split; [|intros [_ H]; now specialize (H u)]. destruct u as [|y u]; [discriminate|]. intro E. apply parse_parts_err in E as (g & cs & b & r & _ & _ & [[_ E]|(_ & e' & _ & E)]); discriminate.
      * split; [intros _|reflexivity]. split; [intros ->; discriminate|]. intros t H. apply strip_prefix_some in H. congruence.
  - intros t NE NP NM. unfold abs_from_str. assert (E1 : str_eqb (lit "m/" ++ t) (lit "m") = false) by reflexivity. rewrite E1. rewrite (proj2 (strip_prefix_some (lit "m/") _ t) eq_refl).
    unfold rel_from_str. destruct t as [|x t]; [congruence|]. destruct (str_eqb (x :: t) (lit "m")) eqn:E2; [apply str_eqb_eq in E2; congruence|]. cbn [orb]. unfold starts_with.
    destruct (strip_prefix (lit "m/") (x :: t)) as [u|] eqn:E3; [|reflexivity]. apply strip_prefix_some in E3. now apply NP in E3.
Qed.
(** The child iterators visit every following index of the same kind, in order, and then stop. *)
Theorem C35_children : forall p c k, cn_ok c ->
  fst (iter_nth (children_from p c) k) = (if cn_index c + N.of_nat k <? 2 ^ 31 then Some (p ++ [c + N.of_nat k]) else None) /\
  fst (iter_nth (normal_children p) k) = (if N.of_nat k <? 2 ^ 31 then Some (p ++ [N.of_nat k]) else None) /\
  fst (iter_nth (hardened_children p) k) = (if N.of_nat k <? 2 ^ 31 then Some (p ++ [2 ^ 31 + N.of_nat k]) else None).
Proof.
  intros p c k L. rewrite cn_index_mod. split; [now apply iter_nth_spec|]. unfold normal_children, hardened_children.
  rewrite !iter_nth_spec by reflexivity. split; reflexivity.
Qed.
(** Joining and extending paths; conversion to and from numbers. *)
Theorem C35_join : forall p q c, path_join p q = p ++ q /\ path_child p c = path_join p [c] /\
  contains_hardened_child (path_join p q) = contains_hardened_child p || contains_hardened_child q /\
  (Forall cn_ok p -> (contains_hardened_child p = false <-> Forall (fun c => c < 2 ^ 31) p)) /\
  from_u32_slice (to_u32_vec p) = p /\ (forall l, to_u32_vec (from_u32_slice l) = l).
Proof.
  intros p q c. split; [reflexivity|]. split; [reflexivity|]. split; [apply existsb_app|]. split.
  - intro F. unfold contains_hardened_child. induction F as [|d p L F IH]; [split; auto|]. cbn [existsb]. rewrite orb_false_iff, IH, (is_hardened_iff d L), N.leb_gt. split; [intros [A B]; now constructor|intro H; now inv H].
  - unfold from_u32_slice, to_u32_vec. split; [|intro l]; rewrite map_map; apply map_id.
Qed.

(** * Derivation *)
(** The private derivation is BIP32's: the child key and chain code of the standard, or the depth error at depth 255;
    it panics exactly when the standard says there is no such child (or I_L is zero). *)
Theorem C35_derive_private : forall C x c, ecurve_ok C -> xpriv_ok C x -> cn_ok c ->
  (priv_child_exists C x c -> s_depth x < 255 -> priv_derive_child C x c = Ret (Ok (priv_child C x c))) /\
  (priv_child_exists C x c -> s_depth x = 255 -> priv_derive_child C x c = Ret (Err tt)) /\
  (~ priv_child_exists C x c -> priv_derive_child C x c = Panic).
Proof.
  intros C x c OKC OX OC. rewrite (priv_derive_eq C OKC x c OX OC). pose proof (child_existsb_iff C x c) as EX. split; [|split].
  - intros H D. rewrite (proj2 EX H), (proj2 (N.ltb_lt _ _) D). reflexivity.
  - intros H D. rewrite (proj2 EX H), D. reflexivity.
  - intro H. destruct (child_existsb C x c); [|reflexivity]. destruct H. now apply EX.
Qed.
(** Public derivation: refused for hardened children; else the standard's. *)
Theorem C35_derive_public : forall C x c, ecurve_ok C -> xpub_ok C x -> cn_ok c ->
  let IL := I_L (p_chain C x) (pub_data C x c) in
  (2 ^ 31 <= c -> pub_derive_child C x c = Ret (Err CannotDeriveHardened)) /\
  (c < 2 ^ 31 -> forall K, 0 < IL < ec_order C -> ec_add C (p_key C x) IL = Some K ->
     pub_derive_child C x c = if p_depth C x =? 255 then Ret (Err MaximumDepth) else Ret (Ok (pub_child C x c K))) /\
  (c < 2 ^ 31 -> ~ (0 < IL < ec_order C) \/ ec_add C (p_key C x) IL = None -> pub_derive_child C x c = Panic).
Proof.
  intros C x c OKC OX OC IL. rewrite (pub_derive_eq C OKC x c OX OC). unfold tweak_valid. fold IL. pose proof OX as (DX & _). split; [|split].
  - intro H. rewrite (proj2 (N.leb_le _ _) H). reflexivity.
  - intros H K [L0 LN] E. rewrite (proj2 (N.leb_gt _ _) H), (proj2 (N.ltb_lt _ _) L0), (proj2 (N.ltb_lt _ _) LN), E. cbn [andb].
    destruct (N.ltb_spec (p_depth C x) 255), (N.eqb_spec (p_depth C x) 255); try lia; reflexivity.
  - intros H X. rewrite (proj2 (N.leb_gt _ _) H). destruct (N.ltb_spec 0 IL), (N.ltb_spec IL (ec_order C)); cbn [andb]; try reflexivity. destruct X as [X| ->]; [lia|reflexivity].
Qed.
(** Deriving a path without hardened steps from the public key gives the public key of the private derivation:
    the same key, the same depth error, or a panic at the same time. *)
Theorem C35_commute : forall C x p, ecurve_ok C -> xpriv_ok C x -> Forall (fun c => c < 2 ^ 31) p ->
  pub_derive_path C (to_xpub C x) p =
  match priv_derive_path C x p with Ret (Ok y) => Ret (Ok (to_xpub C y)) | Ret (Err _) => Ret (Err MaximumDepth) | Panic => Panic end.
Proof. intros C x p OKC OX F. exact (commute_path C OKC p x OX F). Qed.
(** A public key never yields a hardened descendant: the derivation stops with the error at the first hardened step. *)
Theorem C35_no_hardened : forall C x p, ecurve_ok C -> xpub_ok C x -> Forall cn_ok p ->
  (forall y, pub_derive_path C x p = Ret (Ok y) -> contains_hardened_child p = false) /\
  (forall q c r y, p = q ++ c :: r -> 2 ^ 31 <= c -> pub_derive_path C x q = Ret (Ok y) -> pub_derive_path C x p = Ret (Err CannotDeriveHardened)).
Proof.
  intros C x p OKC OX F. split.
  - intros y E. destruct (pub_path_ok C OKC p x y OX F E) as (_ & _ & _ & FN & _). now apply (C35_join p [] 0).
  - intros q c r y -> HC E. apply Forall_app in F as [FQ FR]. inv FR. pose proof (pub_path_join C q (c :: r) x) as J. unfold path_join in J. rewrite J, E. cbn [rbind pub_derive_path].
    destruct (pub_path_ok C OKC q x y OX FQ E) as (OY & _). rewrite (pub_derive_eq C OKC y c OY H1), (proj2 (N.leb_le _ _) HC). reflexivity.
Qed.
(** Deriving along a joined path is deriving along the parts in turn. *)
Theorem C35_path_compose : forall C p q,
  (forall x, priv_derive_path C x (path_join p q) =
    rbind (priv_derive_path C x p) (fun r => match r with Ok y => priv_derive_path C y q | Err e => Ret (Err e) end)) /\
  (forall x, pub_derive_path C x (path_join p q) =
    rbind (pub_derive_path C x p) (fun r => match r with Ok y => pub_derive_path C y q | Err e => Ret (Err e) end)).
Proof. intros C p q. split; intro x; [apply priv_path_join|apply pub_path_join]. Qed.
(** Every descendant: the network is kept, the depth grows by one a step (so it is at most 255), the last step is the
    child number, and the key is well formed. *)
Theorem C35_descendants : forall C x p y, ecurve_ok C -> xpriv_ok C x -> Forall cn_ok p -> priv_derive_path C x p = Ret (Ok y) ->
  xpriv_ok C y /\ s_net y = s_net x /\ s_depth y = s_depth x + lenN p /\ s_depth x + lenN p <= 255 /\ (p <> [] -> s_child y = last p 0).
Proof.
  intros C x p y OKC OX F E. destruct (priv_path_ok C OKC p x y OX F E) as (OY & N1 & D1 & M1). split; [exact OY|]. split; [exact N1|]. split; [exact D1|].
  pose proof OY as (DY & _). split; [lia|]. intro NP. now apply M1.
Qed.
(** BIP32's warning holds: the parent's extended public key and one normal child's private key give the parent's private key. *)
Theorem C35_leak : forall C x c y, ecurve_ok C -> xpriv_ok C x -> c < 2 ^ 31 -> priv_derive_child C x c = Ret (Ok y) ->
  s_key x = (s_key y + (ec_order C - I_L (p_chain C (to_xpub C x)) (pub_data C (to_xpub C x) c))) mod ec_order C.
Proof.
  intros C x c y OKC OX LC E. assert (OC : cn_ok c) by (unfold cn_ok; lia). rewrite (priv_derive_eq C OKC x c OX OC) in E. destruct (child_existsb C x c) eqn:EX; [|discriminate].
  apply child_existsb_iff in EX as [[I0 IN] NZ]. destruct (s_depth x <? 255); [|discriminate]. assert (y = priv_child C x c) as -> by congruence.
  assert (ED : pub_data C (to_xpub C x) c = ckd_data C (s_key x) c) by (unfold pub_data, ckd_data; rewrite (proj2 (N.ltb_lt _ _) LC); reflexivity).
  rewrite ED. change (p_chain C (to_xpub C x)) with (s_chain x). unfold priv_child. cbv zeta. cbn [s_key]. set (il := I_L _ _) in *. destruct OX as (_ & _ & _ & _ & [K0 KN] & _).
  rewrite N.add_mod_idemp_l by lia. apply N.mod_unique with (q := 1); lia.
Qed.

(** * Master keys *)
Theorem C35_seed : forall b, (16 <= lenN b <= 64 -> seed_try_from b = Ok b) /\ (~ 16 <= lenN b <= 64 -> seed_try_from b = Err (lenN b)) /\
  (forall a, bytes_ok a -> bytes_ok b -> exists r, seed_eq a b = Ret r /\ (r = true <-> a = b)).
Proof.
  intro b. unfold seed_try_from. split; [|split].
  - intros [A B]. destruct (N.ltb_spec (lenN b) 16), (N.ltb_spec 64 (lenN b)); try lia. reflexivity.
  - intro H. destruct (N.ltb_spec (lenN b) 16), (N.ltb_spec 64 (lenN b)); try lia; reflexivity.
  - intros a OA OB. unfold seed_eq. destruct (N.eqb_spec (lenN a) (lenN b)) as [L|NL].
    + pose proof (fixed_time_eq_spec a b OA OB L) as E. unfold fixed_time_eq in *. rewrite (proj2 (N.eqb_eq _ _) L) in *. eexists. split; [reflexivity|].
      split; intro X; [apply E; f_equal; exact X|]. apply E in X. congruence.
    + exists false. split; [reflexivity|]. split; [discriminate|]. intros ->. congruence.
Qed.
(** The master key: HMAC-SHA512 with key "Bitcoin seed". *)
Theorem C35_master : forall C net seed, ecurve_ok C -> bytes_ok seed -> 16 <= lenN seed <= 64 ->
  let IL := I_L (lit "Bitcoin seed") seed in let x := mk_xpriv net 0 [0; 0; 0; 0] 0 IL (I_R (lit "Bitcoin seed") seed) in
  (0 < IL < ec_order C -> new_master C net seed = Ret x /\ xpriv_ok C x) /\ (~ (0 < IL < ec_order C) -> new_master C net seed = Panic).
Proof.
  intros C net seed OKC OS LS IL x. assert (OK : bytes_ok (lit "Bitcoin seed")) by (repeat constructor). unfold new_master. rewrite hmac512; cbn [concat]; rewrite ?app_nil_r; auto; [|reflexivity|lia].
  cbn [rbind]. unfold sk_from_bytes. fold (I_L (lit "Bitcoin seed") seed). fold IL. fold (I_R (lit "Bitcoin seed") seed). split.
  - intros [L0 LN]. rewrite (proj2 (N.ltb_lt _ _) L0), (proj2 (N.ltb_lt _ _) LN). cbn [andb expect rbind]. split; [reflexivity|]. destruct (I_R_ok _ _ OK OS) as [RL RO].
    unfold xpriv_ok, x. cbn [s_depth s_parent s_child s_key s_chain]. split; [reflexivity|]. split; [reflexivity|]. split; [repeat constructor|]. split; [reflexivity|]. auto.
  - intro H. destruct (N.ltb_spec 0 IL), (N.ltb_spec IL (ec_order C)); try reflexivity. lia.
Qed.

(** * Serialisation *)
(** Encoding is the 78-byte layout; decoding accepts exactly the encodings of well formed keys that respect the master rule. *)
Theorem C35_encode : forall C, ecurve_ok C ->
  (forall x, xpriv_ok C x -> xpriv_encode x = Ret (priv_bytes x) /\ lenN (priv_bytes x) = 78) /\
  (forall x, xpub_ok C x -> xpub_encode C x = Ret (pub_bytes C x) /\ lenN (pub_bytes C x) = 78).
Proof.
  intros C OKC. split; intros x OX.
  - split; [now apply (priv_encode_eq C)|]. now apply (priv_bytes_ok C).
  - split; [now apply pub_encode_eq|]. now apply pub_bytes_ok.
Qed.
Theorem C35_decode : forall C b, ecurve_ok C -> bytes_ok b ->
  (forall x, xpriv_decode C b = Ok x <-> b = priv_bytes x /\ xpriv_ok C x /\ priv_master_rule x) /\
  (forall x, xpub_decode C b = Ok x <-> b = pub_bytes C x /\ xpub_ok C x /\ pub_master_rule C x).
Proof. intros C b OKC OB. split; intro x; [now apply priv_decode_ok|now apply pub_decode_ok]. Qed.
(** The errors of decoding, read off the bytes. *)
Definition part (a n : N) (b : bytes) : bytes := takeN n (dropN a b).
Lemma layout_parts : forall b m, raw_layout b m -> part 0 4 b = cm_net m /\ part 4 1 b = [cm_depth m] /\ part 5 4 b = cm_parent m /\
  part 9 4 b = be_bytes 4 (cm_child m) /\ part 13 32 b = cm_chain m /\ part 45 33 b = cm_key m.
Proof.
  intros b m (-> & A1 & A2 & A3 & A4 & A5). destruct (cn_len (cm_child m)) as [L4 _]. unfold part.
  assert (DP : forall k (a r : bytes), lenN a = k -> forall n, k <= n -> dropN n (a ++ r) = dropN (n - k) r) by (intros k a r L n LE; rewrite dropN_app_ge by lia; now rewrite L).
  assert (TP : forall n (a r : bytes), lenN a = n -> takeN n (a ++ r) = a) by (intros n a r; apply takeN_pref). repeat split.
  - change (dropN 0 ?l) with l. now apply TP.
  - rewrite (DP 4 (cm_net m)) by (auto; lia). now apply TP.
  - rewrite (DP 4 (cm_net m)) by (auto; lia). rewrite (DP 1 [cm_depth m]) by (auto; lia). now apply TP.
  - rewrite (DP 4 (cm_net m)) by (auto; lia). rewrite (DP 1 [cm_depth m]) by (auto; lia). rewrite (DP 4 (cm_parent m)) by (auto; lia). now apply TP.
  - rewrite (DP 4 (cm_net m)) by (auto; lia). rewrite (DP 1 [cm_depth m]) by (auto; lia). rewrite (DP 4 (cm_parent m)) by (auto; lia). rewrite (DP 4 (be_bytes 4 (cm_child m))) by (auto; lia). now apply TP.
  - rewrite (DP 4 (cm_net m)) by (auto; lia). rewrite (DP 1 [cm_depth m]) by (auto; lia). rewrite (DP 4 (cm_parent m)) by (auto; lia). rewrite (DP 4 (be_bytes 4 (cm_child m))) by (auto; lia).
    rewrite (DP 32 (cm_chain m)) by (auto; lia). change (takeN 33 (cm_key m) = cm_key m). apply takeN_all. lia.
Qed.
Theorem C35_decode_errors : forall C b, ecurve_ok C -> bytes_ok b ->
  let common (e : xkey_err) := match e with
    | WrongLength n => n = lenN b /\ n <> 78
    | NonZeroParent => lenN b = 78 /\ part 4 1 b = [0] /\ part 5 4 b <> [0; 0; 0; 0]
    | NonZeroChild => lenN b = 78 /\ part 4 1 b = [0] /\ part 5 4 b = [0; 0; 0; 0] /\ part 9 4 b <> [0; 0; 0; 0]
    end in
  (forall e, xpriv_decode C b = Err e -> match e with
    | DXkey e => common e
    | DUnknownVersion v => lenN b = 78 /\ v = part 0 4 b /\ v <> [0x04; 0x88; 0xAD; 0xE4] /\ v <> [0x04; 0x35; 0x83; 0x94]
    | DInvalidPrefix => lenN b = 78 /\ part 45 1 b <> [0]
    | DSecp => lenN b = 78 /\ part 45 1 b = [0] /\ ~ (0 < be_val (part 46 32 b) < ec_order C)
    end) /\
  (forall e, xpub_decode C b = Err e -> match e with
    | DXkey e => common e
    | DUnknownVersion v => lenN b = 78 /\ v = part 0 4 b /\ v <> [0x04; 0x88; 0xB2; 0x1E] /\ v <> [0x04; 0x35; 0x87; 0xCF]
    | DInvalidPrefix => False
    | DSecp => lenN b = 78 /\ forall p, ec_ser C p <> part 45 33 b
    end).
Proof.
  intros C b OKC OB common.
  assert (CE : forall e, common_decode b = Err e -> common e).
  { intros e E. destruct (N.eqb_spec (lenN b) 78) as [L|NL].
    - destruct (layout_ex b OB L) as (m & R & E'). rewrite E' in E. clear E'. destruct (layout_parts b m R) as (_ & P4 & P5 & P9 & _). unfold common. rewrite P4, P5, P9.
      destruct (N.eqb_spec (cm_depth m) 0) as [D|]; [|discriminate]. cbn [andb] in E. destruct (str_eqb (cm_parent m) (repeat 0 4)) eqn:Q1; cbn [negb] in E.
      + apply str_eqb_eq in Q1. destruct (str_eqb (be_bytes 4 (cm_child m)) (repeat 0 4)) eqn:Q2; cbn [negb] in E; [discriminate|]. inv E. repeat split; auto; [now rewrite D|]. intro X. rewrite X in Q2. discriminate.
      + inv E. repeat split; auto; [now rewrite D|]. intro X. rewrite X in Q1. discriminate.
    - unfold common_decode in E. rewrite (proj2 (N.eqb_neq _ _) NL) in E. inv E. split; auto. }
  assert (L78 : forall m, common_decode b = Ok m -> lenN b = 78).
  { intros m E. unfold common_decode in E. destruct (N.eqb_spec (lenN b) 78); [auto|discriminate]. }
  split; intros e E.
  - unfold xpriv_decode in E. destruct (common_decode b) as [m|e'] eqn:CD; [|inv E; now apply CE]. specialize (L78 m eq_refl). apply (common_decode_ok b m OB) in CD as [R _]. destruct (layout_parts b m R) as (P0 & _ & _ & _ & _ & P45).
    destruct (version_kind version_private (cm_net m)) as [n|] eqn:V.
    + assert (A4 : lenN (cm_key m) = 33) by apply R. assert (K1 : part 45 1 b = [hd 0 (cm_key m)] /\ part 46 32 b = dropN 1 (cm_key m)).
      { rewrite <- P45. unfold part in *. assert (LD : lenN (dropN 45 b) = 33) by (rewrite lenN_dropN; lia). rewrite (takeN_all 33) by lia. replace (dropN 46 b) with (dropN 1 (dropN 45 b)) by (apply LWitness.dropN_add).
        rewrite (takeN_all 32) by (rewrite lenN_dropN; lia). split; [|reflexivity]. rewrite (hd_split (dropN 45 b)) at 1 by lia. reflexivity. }
      destruct K1 as [-> ->]. destruct (N.eqb_spec (hd 0 (cm_key m)) 0) as [Z|NZ]; cbn [negb] in E.
      * unfold sk_from_bytes in E. destruct (N.ltb_spec 0 (be_val (dropN 1 (cm_key m)))), (N.ltb_spec (be_val (dropN 1 (cm_key m))) (ec_order C)); cbn [andb] in E; try discriminate; inv E; (split; [auto|split; [now rewrite Z|lia]]).
      * inv E. split; auto. intro X. inv X. congruence.
    + inv E. split; [auto|]. split; [auto|]. unfold version_kind in V. destruct (str_eqb (cm_net m) (version_private NMain)) eqn:V1; [discriminate|]. destruct (str_eqb (cm_net m) (version_private NTest)) eqn:V2; [discriminate|].
      split; intro X; rewrite X in *; discriminate.
  - unfold xpub_decode in E. destruct (common_decode b) as [m|e'] eqn:CD; [|inv E; now apply CE]. specialize (L78 m eq_refl). apply (common_decode_ok b m OB) in CD as [R _]. destruct (layout_parts b m R) as (P0 & _ & _ & _ & _ & P45).
    destruct (version_kind version_public (cm_net m)) as [n|] eqn:V.
    + destruct (ec_parse C (cm_key m)) as [k|] eqn:K; [discriminate|]. inv E. split; auto. intros p X. rewrite P45 in X. symmetry in X. apply (parse_ser C OKC) in X; [congruence|apply R].
    + inv E. split; [auto|]. split; [auto|]. unfold version_kind in V. destruct (str_eqb (cm_net m) (version_public NMain)) eqn:V1; [discriminate|]. destruct (str_eqb (cm_net m) (version_public NTest)) eqn:V2; [discriminate|].
      split; intro X; rewrite X in *; discriminate.
Qed.
(** "Decoding an encoded key gives it back" is false for arbitrary keys: the fields are public, and one of depth zero
    with a parent fingerprint or a child number encodes to bytes that decoding refuses. *)
Theorem C35_round_trip_refuted : forall C, ecurve_ok C -> exists x b, xpriv_ok C x /\ xpriv_encode x = Ret b /\ xpriv_decode C b = Err (DXkey NonZeroParent).
Proof.
  intros C OKC. set (x := mk_xpriv NMain 0 [1; 2; 3; 4] 0 1 (repeat 7 32)). pose proof (order_pos C OKC). assert (OX : xpriv_ok C x).
  { unfold xpriv_ok, x. cbn [s_depth s_parent s_child s_key s_chain]. repeat split; try reflexivity; try lia; try (repeat constructor; fail). }
  exists x, (priv_bytes x). split; [exact OX|]. split; [now apply (priv_encode_eq C)|]. unfold xpriv_decode. rewrite (common_decode_eq _ _ (priv_layout C x OX)); [reflexivity|]. now apply (priv_bytes_ok C).
Qed.
(** It holds for every key that the library makes: masters, their descendants, and the public keys of these. *)
Theorem C35_round_trip : forall C net seed p m x, ecurve_ok C -> bytes_ok seed -> 16 <= lenN seed <= 64 -> Forall cn_ok p ->
  new_master C net seed = Ret m -> priv_derive_path C m p = Ret (Ok x) ->
  (exists b, xpriv_encode x = Ret b /\ xpriv_decode C b = Ok x) /\ (exists b, xpub_encode C (to_xpub C x) = Ret b /\ xpub_decode C b = Ok (to_xpub C x)).
Proof.
  intros C net seed p m x OKC OS LS F EM EP. destruct (C35_master C net seed OKC OS LS) as [M1 M2].
  assert (V : 0 < I_L (lit "Bitcoin seed") seed < ec_order C).
  { destruct (N.ltb_spec 0 (I_L (lit "Bitcoin seed") seed)), (N.ltb_spec (I_L (lit "Bitcoin seed") seed) (ec_order C)); try lia; rewrite M2 in EM by lia; discriminate. }
  destruct (M1 V) as [E OM]. assert (m = mk_xpriv net 0 [0; 0; 0; 0] 0 (I_L (lit "Bitcoin seed") seed) (I_R (lit "Bitcoin seed") seed)) as -> by congruence.
  destruct (priv_path_ok C OKC p _ x OM F EP) as (OX & _ & _ & MX).
  assert (MR : priv_master_rule x). { destruct p as [|c p]; [|now apply MX]. cbn [priv_derive_path] in EP. match type of EP with Ret (Ok ?y) = _ => assert (x = y) as -> by congruence end. intros _. split; reflexivity. }
  split.
  - exists (priv_bytes x). split; [now apply (priv_encode_eq C)|]. apply priv_decode_ok; auto. now apply (priv_bytes_ok C).
  - pose proof (to_xpub_ok C x OX) as OP. exists (pub_bytes C (to_xpub C x)). split; [now apply pub_encode_eq|]. apply pub_decode_ok; auto. now apply pub_bytes_ok.
Qed.
(** No bytes are both an extended private key and an extended public key. *)
Theorem C35_disjoint : forall C b x y, ecurve_ok C -> bytes_ok b -> xpriv_decode C b = Ok x -> xpub_decode C b = Ok y -> False.
Proof.
  intros C b x y OKC OB A B. apply priv_decode_ok in A as (E1 & _); auto. apply pub_decode_ok in B as (E2 & _); auto. rewrite E1 in E2. unfold priv_bytes, pub_bytes in E2.
  destruct (version_len (s_net x)) as (L1 & _). destruct (version_len (p_net C y)) as (_ & L2 & _). apply app_inj_N in E2 as [E2 _]; [|congruence]. destruct (s_net x), (p_net C y); discriminate.
Qed.

(** * Texts *)
(** The text of a key is 111 base58 characters starting with xprv, xpub, tprv or tpub, and parsing gives the key back. *)
Definition text_start (private : bool) (n : net_kind) : str :=
  match private, n with true, NMain => lit "xprv" | false, NMain => lit "xpub" | true, NTest => lit "tprv" | false, NTest => lit "tpub" end.
Lemma start_of : forall s k a b c d t da db dc dd, [a; b; c; d] ++ t = s -> digit58 a da -> digit58 b db -> digit58 c dc -> digit58 d dd ->
  da * 58 ^ 3 + db * 58 ^ 2 + dc * 58 + dd = k -> forall w x y z, w < 58 -> x < 58 -> y < 58 -> z < 58 -> k = w * 58 ^ 3 + x * 58 ^ 2 + y * 58 + z ->
  exists a' b' c' d', digit58 a' w /\ digit58 b' x /\ digit58 c' y /\ digit58 d' z /\ s = [a'; b'; c'; d'] ++ t.
Proof.
  intros s k a b c d t da db dc dd <- Da Db Dc Dd E w x y z W X Y Z K. pose proof (digit58_lt _ _ Da). pose proof (digit58_lt _ _ Db). pose proof (digit58_lt _ _ Dc). pose proof (digit58_lt _ _ Dd).
  change (58 ^ 3) with 195112 in *. change (58 ^ 2) with 3364 in *. assert (da = w) by lia. assert (db = x) by lia. assert (dc = y) by lia. assert (dd = z) by lia. subst da db dc dd. exists a, b, c, d. auto.
Qed.
Lemma version_text : forall (private : bool) n rest s, bytes_ok rest -> lenN rest = 78 -> base58 ((if private then version_private n else version_public n) ++ rest) s ->
  lenN s = 111 /\ exists t, s = text_start private n ++ t.
Proof.
  intros private n rest s OR LR B.
  assert (G : forall v k w x y z st, v = (if private then version_private n else version_public n) -> 58 ^ 110 <= be_val v * 256 ^ 78 -> (be_val v + 1) * 256 ^ 78 <= 58 ^ 111 ->
    be_val v * 256 ^ 78 / 58 ^ 107 = k -> ((be_val v + 1) * 256 ^ 78 - 1) / 58 ^ 107 = k -> w < 58 -> x < 58 -> y < 58 -> z < 58 -> k = w * 58 ^ 3 + x * 58 ^ 2 + y * 58 + z ->
    map (fun d => nth_error alphabet (N.to_nat d)) [w; x; y; z] = map Some st -> lenN s = 111 /\ exists t, s = st ++ t).
  { intros v k w x y z st EV L1 L2 K1 K2 W X Y Z K T. assert (LV : lenN v = 4 /\ bytes_ok v /\ hd 0 v <> 0).
    { rewrite EV. destruct (version_len n) as (A1 & A2 & A3 & A4). destruct private, n; repeat split; auto; discriminate. }
    destruct LV as (LV & OV & HV). pose proof (eq_ind_r (fun w => base58 (w ++ rest) s) B EV) as B'. destruct (text_prefix v rest s k) as (LS & a & b & c & d & t & ES & da & db & dc & dd & Da & Db & Dc & Dd & EK); auto; [now apply bytes_ok_app|].
    split; [exact LS|]. destruct (start_of s k a b c d t da db dc dd ES Da Db Dc Dd EK w x y z W X Y Z K) as (a' & b' & c' & d' & A1 & A2 & A3 & A4 & ->). exists t. f_equal.
    destruct st as [|s1 [|s2 [|s3 [|s4 [|s5 st]]]]]; try discriminate T. unfold digit58 in *. cbn [map] in T. rewrite A1, A2, A3, A4 in T. inv T. reflexivity. }
  destruct private, n.
  - apply (G [0x04; 0x88; 0xAD; 0xE4] 10892163 55 47 49 53); try reflexivity; vm_compute; discriminate.
  - apply (G [0x04; 0x35; 0x83; 0x94] 10111715 51 47 49 53); try reflexivity; vm_compute; discriminate.
  - apply (G [0x04; 0x88; 0xB2; 0x1E] 10892318 55 47 52 34); try reflexivity; vm_compute; discriminate.
  - apply (G [0x04; 0x35; 0x87; 0xCF] 10111870 51 47 52 34); try reflexivity; vm_compute; discriminate.
Qed.
Theorem C35_text : forall C, ecurve_ok C ->
  (forall x, xpriv_ok C x -> priv_master_rule x -> exists s, xpriv_display x = Ret s /\ base58 (priv_bytes x ++ firstn 4 (SHA256d (priv_bytes x))) s /\
     lenN s = 111 /\ (exists t, s = text_start true (s_net x) ++ t) /\ xpriv_from_str C s = Ret (Ok x)) /\
  (forall x, xpub_ok C x -> pub_master_rule C x -> exists s, xpub_display C x = Ret s /\ base58 (pub_bytes C x ++ firstn 4 (SHA256d (pub_bytes C x))) s /\
     lenN s = 111 /\ (exists t, s = text_start false (p_net C x) ++ t) /\ xpub_from_str C s = Ret (Ok x)).
Proof.
  intros C OKC.
  assert (CK : forall b, lenN (firstn 4 (SHA256d b)) = 4 /\ bytes_ok (firstn 4 (SHA256d b))).
  { intro b. destruct (SHA256d_ok b) as [L O]. change (firstn 4 (SHA256d b)) with (takeN 4 (SHA256d b)). split; [rewrite lenN_takeN, L; reflexivity|now apply takeN_ok']. }
  split; intros x OX MX.
  - destruct (priv_bytes_ok C x OX) as [L O]. destruct (PBase58.C26_encode SHA256d (priv_bytes x) SHA256d_ok O) as (s & E & B); [rewrite L; reflexivity|rewrite L; discriminate|].
    exists s. unfold xpriv_display. rewrite (priv_encode_eq C x OX). cbn [rbind]. split; [exact E|]. split; [exact B|].
    destruct (CK (priv_bytes x)) as [CL CO]. pose proof (version_text true (s_net x) (dropN 4 (priv_bytes x) ++ firstn 4 (SHA256d (priv_bytes x))) s) as VT.
    destruct VT as [LS TS].
    { apply bytes_ok_app. split; [now apply dropN_ok'|exact CO]. } { rewrite lenN_app, lenN_dropN, L, CL. reflexivity. }
    { rewrite app_assoc. replace (version_private (s_net x) ++ dropN 4 (priv_bytes x)) with (priv_bytes x); [exact B|]. unfold priv_bytes. rewrite dropN_pref; [reflexivity|]. apply version_len. }
    split; [exact LS|]. split; [exact TS|]. unfold xpriv_from_str, xkey_from_str. rewrite (proj2 (PBase58.C26_decode SHA256d (priv_bytes x) s SHA256d_ok) B). cbn [rbind]. rewrite L. cbn [N.eqb Pos.eqb negb].
    rewrite (proj2 (priv_decode_ok C OKC _ x O)); auto.
  - destruct (pub_bytes_ok C x OKC OX) as [L O]. destruct (PBase58.C26_encode SHA256d (pub_bytes C x) SHA256d_ok O) as (s & E & B); [rewrite L; reflexivity|rewrite L; discriminate|].
    exists s. unfold xpub_display. rewrite (pub_encode_eq C x OKC OX). cbn [rbind]. split; [exact E|]. split; [exact B|].
    destruct (CK (pub_bytes C x)) as [CL CO]. pose proof (version_text false (p_net C x) (dropN 4 (pub_bytes C x) ++ firstn 4 (SHA256d (pub_bytes C x))) s) as VT.
    destruct VT as [LS TS].
    { apply bytes_ok_app. split; [now apply dropN_ok'|exact CO]. } { rewrite lenN_app, lenN_dropN, L, CL. reflexivity. }
    { rewrite app_assoc. replace (version_public (p_net C x) ++ dropN 4 (pub_bytes C x)) with (pub_bytes C x); [exact B|]. unfold pub_bytes. rewrite dropN_pref; [reflexivity|]. apply version_len. }
    split; [exact LS|]. split; [exact TS|]. unfold xpub_from_str, xkey_from_str. rewrite (proj2 (PBase58.C26_decode SHA256d (pub_bytes C x) s SHA256d_ok) B). cbn [rbind]. rewrite L. cbn [N.eqb Pos.eqb negb].
    rewrite (proj2 (pub_decode_ok C OKC _ x O)); auto.
Qed.
(** Parsing accepts only such texts. *)
Theorem C35_text_parse : forall C s, ecurve_ok C ->
  (forall x, xpriv_from_str C s = Ret (Ok x) <-> xpriv_ok C x /\ priv_master_rule x /\ xpriv_display x = Ret s) /\
  (forall x, xpub_from_str C s = Ret (Ok x) <-> xpub_ok C x /\ pub_master_rule C x /\ xpub_display C x = Ret s).
Proof.
  intros C s OKC. destruct (C35_text C OKC) as [T1 T2].
  assert (INV : forall X (dec : bytes -> result X decode_err) x, xkey_from_str dec s = Ret (Ok x) -> exists b, base58 (b ++ firstn 4 (SHA256d b)) s /\ dec b = Ok x /\ bytes_ok b).
  { intros X dec x E. unfold xkey_from_str in E. destruct (decode_check SHA256d s) as [[b|e]|] eqn:D; cbn [rbind] in E; try discriminate. apply (PBase58.C26_decode SHA256d b s SHA256d_ok) in D.
    destruct (lenN b =? 78); cbn [negb] in E; [|discriminate]. destruct (dec b) as [y|e] eqn:DE; [|discriminate]. exists b. split; [exact D|]. split; [congruence|]. apply base58_bytes in D. now apply bytes_ok_app in D. }
  split; intro x; split.
  - intro E. apply INV in E as (b & B & D & O). apply (priv_decode_ok C OKC b x O) in D as (-> & OX & MX). split; [exact OX|]. split; [exact MX|].
    destruct (T1 x OX MX) as (s' & E' & B' & _). now rewrite (base58_fun _ _ _ B B').
  - intros (OX & MX & E). destruct (T1 x OX MX) as (s' & E' & _ & _ & _ & F). assert (s' = s) as -> by congruence. exact F.
  - intro E. apply INV in E as (b & B & D & O). apply (pub_decode_ok C OKC b x O) in D as (-> & OX & MX). split; [exact OX|]. split; [exact MX|].
    destruct (T2 x OX MX) as (s' & E' & B' & _). now rewrite (base58_fun _ _ _ B B').
  - intros (OX & MX & E). destruct (T2 x OX MX) as (s' & E' & _ & _ & _ & F). assert (s' = s) as -> by congruence. exact F.
Qed.
(** Parsing never panics. *)
Theorem C35_text_total : forall C s, xpriv_from_str C s <> Panic /\ xpub_from_str C s <> Panic.
Proof.
  intros C s. destruct (PBase58.C26_decode_errors SHA256d s SHA256d_ok) as (r & E & _). unfold xpriv_from_str, xpub_from_str, xkey_from_str. rewrite E. cbn [rbind]. split; discriminate.
Qed.

(** * Concrete cases *)
(** A curve that satisfies the laws: the numbers modulo the order of secp256k1. *)
Definition n256k1 : N := 0xFFFFFFFFFFFFFFFFFFFFFFFFFFFFFFFEBAAEDCE6AF48A03BBFD25E8CD0364141.
Definition toy_pt : Type := { k : N | (k <? n256k1) = true }.
Definition toy_pt_of (k : N) : toy_pt := exist _ (k mod n256k1) (proj2 (N.ltb_lt _ _) (N.mod_lt k n256k1 ltac:(discriminate))).
Definition toy_ser (p : toy_pt) : bytes := 2 :: be_bytes 32 (proj1_sig p).
Definition toy_curve : ecurve := mk_ecurve n256k1 toy_pt toy_pt_of toy_ser
  (fun b => let p := toy_pt_of (be_val (dropN 1 b)) in if str_eqb b (toy_ser p) then Some p else None)
  (fun p t => let s := (proj1_sig p + t) mod n256k1 in if s =? 0 then None else Some (toy_pt_of s)).
Lemma toy_pt_eq : forall a b : toy_pt, proj1_sig a = proj1_sig b -> a = b.
Proof. intros [a A] [b B] E. cbn [proj1_sig] in E. subst b. f_equal. apply UIP_dec. decide equality. Qed.
Example C35_toy_ok : ecurve_ok toy_curve.
Proof.
  assert (LT : forall k : toy_pt, proj1_sig k < n256k1) by (intros [k K]; cbn [proj1_sig]; now apply N.ltb_lt).
  assert (MK : forall p : toy_pt, toy_pt_of (proj1_sig p) = p) by (intro p; apply toy_pt_eq; cbn [toy_pt_of proj1_sig]; apply N.mod_small, LT).
  constructor; cbn [toy_curve ec_order ec_point ec_mul ec_ser ec_parse ec_add].
  - reflexivity.
  - discriminate.
  - intro p. unfold toy_ser. split; [rewrite lenN_cons, be_bytes_len; reflexivity|]. constructor; [reflexivity|apply be_bytes_ok].
  - intros b p L. cbv zeta. split.
    + destruct (str_eqb b (toy_ser (toy_pt_of (be_val (dropN 1 b))))) eqn:E; [|discriminate]. apply str_eqb_eq in E. intro X. assert (p = toy_pt_of (be_val (dropN 1 b))) as -> by congruence. exact E.
    + intros ->. assert (Q : toy_pt_of (be_val (dropN 1 (toy_ser p))) = p).
      { unfold toy_ser. change (dropN 1 (2 :: be_bytes 32 (proj1_sig p))) with (be_bytes 32 (proj1_sig p)).
        rewrite be_val_of_bytes by (specialize (LT p); change (256 ^ N.of_nat 32) with (2 ^ 256); assert (n256k1 < 2 ^ 256) by reflexivity; lia). apply MK. }
      rewrite Q, (proj2 (str_eqb_eq (toy_ser p) (toy_ser p)) eq_refl). reflexivity.
  - intros k t _ _. cbn [toy_pt_of proj1_sig]. rewrite N.add_mod_idemp_l by discriminate. destruct ((k + t) mod n256k1 =? 0); reflexivity.
Qed.
(** BIP32's test vector 1: the master key and its hardened child m/0' (neither involves the points). *)
Definition vec_seed : bytes := [0; 1; 2; 3; 4; 5; 6; 7; 8; 9; 10; 11; 12; 13; 14; 15].
Definition vec_master : xpriv := mk_xpriv NMain 0 [0; 0; 0; 0] 0 0xe8f32e723decf4051aefac8e2c93c9c5b214313817cdb01a1494b917c8436b35
  (be_bytes 32 0x873dff81c02f525623fd1fe5167eac3a55a049de3d314bb42ee227ffed37d508).
Example C35_ex_master : new_master toy_curve NMain vec_seed = Ret vec_master.
Proof. vm_compute. reflexivity. Qed.
Example C35_ex_text : xpriv_display vec_master =
  Ret (lit "xprv9s21ZrQH143K3QTDL4LXw2F7HEK3wJUD2nW2nRk4stbPy6cq3jPPqjiChkVvvNKmPGJxWUtg6LnF5kejMRNNU3TGtRBeJgk33yuGBxrMPHi").
Proof. vm_compute. reflexivity. Qed.
Example C35_ex_child : exists y, priv_derive_child toy_curve vec_master (2 ^ 31) = Ret (Ok y) /\ s_key y = 0xedb2e14f9ee77d26dd93b4ecede8d16ed408ce149b6cd80b0715a2d911a0afea /\
  s_chain y = be_bytes 32 0x47fdacbd0f1097043b78c63c20c34ef4ed9a111d980047ad16282c7ae6236141 /\ s_depth y = 1.
Proof. eexists. split; [vm_compute; reflexivity|]. repeat split; vm_compute; reflexivity. Qed.
Example C35_ex_ok : xpriv_ok toy_curve vec_master /\ priv_master_rule vec_master /\ priv_child_exists toy_curve vec_master 5.
Proof. split; [|split]; [|intros _; split; reflexivity|vm_compute; repeat split; discriminate]. repeat split; try reflexivity; try (vm_compute; reflexivity); repeat (constructor; [reflexivity|]); constructor. Qed.
Example C35_ex_path : rel_from_str (lit "84'/0h/+7") = Ok [2 ^ 31 + 84; 2 ^ 31; 7] /\ rel_display false [2 ^ 31 + 84; 2 ^ 31; 7] = lit "84'/0'/7" /\
  abs_display true [2 ^ 31 + 84; 7] = lit "m/84h/7" /\ abs_from_str (lit "m") = Ok [] /\ rel_from_str (lit "m/1") = Err PMaster /\ rel_from_str (lit "1//2") = Err PEmptyChild /\
  rel_from_str (lit "2147483648") = Err (PChild (ChIndexOutOfRange 2147483648)).
Proof. repeat split; vm_compute; reflexivity. Qed.

Print Assumptions C35_child_number. Print Assumptions C35_child_index. Print Assumptions C35_increment. Print Assumptions C35_child_parse. Print Assumptions C35_child_round_trip. Print Assumptions C35_path_text.
Print Assumptions C35_child_errors. Print Assumptions C35_relative_parse. Print Assumptions C35_absolute_parse. Print Assumptions C35_kinds_disjoint. Print Assumptions C35_path_round_trip.
Print Assumptions C35_relative_errors. Print Assumptions C35_absolute_errors. Print Assumptions C35_children. Print Assumptions C35_join. Print Assumptions C35_derive_private. Print Assumptions C35_derive_public.
Print Assumptions C35_commute. Print Assumptions C35_no_hardened. Print Assumptions C35_path_compose. Print Assumptions C35_descendants. Print Assumptions C35_leak. Print Assumptions C35_seed.
Print Assumptions C35_master. Print Assumptions C35_encode. Print Assumptions C35_decode. Print Assumptions C35_decode_errors. Print Assumptions C35_round_trip_refuted. Print Assumptions C35_round_trip.
Print Assumptions C35_disjoint. Print Assumptions C35_text. Print Assumptions C35_text_parse. Print Assumptions C35_text_total.
