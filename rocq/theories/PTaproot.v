(** C34: script trees, their builder, spend info, control blocks and Huffman trees. *)
From Coq Require Import String Permutation Eqdep_dec.
From Verif Require Import Base LDec MDec MWitness MTx MScript SWire MText SHash MSighash SSighash LSighash3 LSha2b MTaproot STaproot LTaproot LTaproot2 LHuffman LHuffman2.
Local Open Scope N_scope.

(** Giving the leaves of any tree of height up to 128 in depth-first order builds exactly that tree. *)
Theorem C34_builder : forall H, (forall m, hash_ok (H m)) -> forall t, tree_ok t -> height t <= 128 ->
  exists n, build H (dfs 0 t) = Ret (Ok [Some n]) /\ stands_for H n t.
Proof. intros H HO t T HT. exists (nodef H t). split; [now apply build_tree|apply nodef_stands]. Qed.
(** Every finished builder comes from one tree only, whose leaves in depth-first order are what was added. *)
Theorem C34_builder_exact : forall H, (forall m, hash_ok (H m)) -> forall items n, Forall (fun x => leaf_ok (snd x)) items -> build H items = Ret (Ok [Some n]) ->
  exists t, dfs 0 t = items /\ height t <= 128 /\ stands_for H n t /\ forall u, dfs 0 u = items -> u = t.
Proof.
  intros H HO items n F E. destruct (build_tree_inv H HO items n F E) as (t & D & T & HT & ->). exists t. split; [exact D|]. split; [exact HT|]. split; [apply nodef_stands|].
  intros u U. rewrite <- D in U. rewrite <- (app_nil_r (dfs 0 u)), <- (app_nil_r (dfs 0 t)) in U. now apply dfs_inj in U as [U _].
Qed.

Lemma hidden_dfs : forall t d, existsb (fun x => negb (is_script (snd x, @nil bytes))) (dfs d t) = hidden t.
Proof. induction t as [[s v|h]|l IL r IR]; intro d; [reflexivity..|]. cbn [dfs hidden]. now rewrite existsb_app, IL, IR. Qed.
Lemma hidden_forest : forall H ts k, has_hidden_nodes (ts_builder H ts) = existsb (fun x => negb (is_script (snd x, @nil bytes))) (forest k ts).
Proof.
  intros H ts. induction ts as [|[t|] ts IH]; intro k; [reflexivity|..]; cbn [forest].
  - rewrite existsb_app, hidden_dfs, <- (IH (k + 1)). reflexivity.
  - exact (IH (k + 1)).
Qed.
Lemma build_all : forall H, (forall m, hash_ok (H m)) -> forall items ts, good ts -> Forall (fun x => leaf_ok (snd x)) items ->
  match build_from H (ts_builder H ts) items with
  | Panic => False
  | Ret (Err e) => match e with EDepth d => 128 < d /\ In d (map fst items) | ENotDfs | EOverComplete => True | EEmpty => False end
  | Ret (Ok b) => exists ts', b = ts_builder H ts' /\ good ts' /\ forest 0 ts' = forest 0 ts ++ items /\ Forall (fun x => fst x <= 128) items
  end.
Proof.
  intros H HO. induction items as [|[d l] items IH]; intros ts G F; cbn [build_from].
  - exists ts. rewrite app_nil_r. auto.
  - inversion F; subst. destruct (add_spec H HO ts d l G ltac:(assumption)) as [[D ->]|[(_ & _ & ->)|(D & _ & [->|(ts' & -> & G' & NE & FE)])]]; [split; [exact D|now left]|exact I|exact I|].
    specialize (IH ts' G' ltac:(assumption)). destruct (build_from H (ts_builder H ts') items) as [[b|[dd| | |]]|]; auto.
    + destruct IH as (ts2 & B & G2 & F2 & D2). exists ts2. split; [exact B|]. split; [exact G2|]. rewrite F2, FE, <- app_assoc. split; [reflexivity|]. constructor; assumption.
    + destruct IH as [A B]. split; [exact A|now right].
Qed.
Lemma dfs_reach : forall t d, exists x, In x (dfs d t) /\ fst x = d + height t.
Proof.
  induction t as [l|l IL r IR]; intro d; cbn [dfs height]; [eexists; split; [now left|cbn [fst]; lia]|].
  destruct (N.max_spec (height l) (height r)) as [[_ ->]|[_ ->]]; [destruct (IR (d + 1)) as (x & X & E)|destruct (IL (d + 1)) as (x & X & E)]; exists x; (split; [apply in_app_iff; auto|lia]).
Qed.
(** The calls never panic.  The builder is finalizable exactly when all leaves of some tree were added; it knows whether
    something hidden was added; the depth error reports a depth over 128 that was given. *)
Theorem C34_builder_total : forall H, (forall m, hash_ok (H m)) -> forall items, Forall (fun x => leaf_ok (snd x)) items ->
  match build H items with
  | Panic => False
  | Ret (Err e) => match e with EDepth d => 128 < d /\ In d (map fst items) | ENotDfs | EOverComplete => True | EEmpty => False end
  | Ret (Ok b) =>
      (is_finalizable b = true <-> exists t, dfs 0 t = items) /\
      has_hidden_nodes b = existsb (fun x => negb (is_script (snd x, []))) items /\
      match try_into_node_info b with Panic => False | Ret (Ok n) => b = [Some n] | Ret (Err e) => e = ENotFinalized b /\ is_finalizable b = false end
  end.
Proof.
  intros H HO items F. pose proof (build_all H HO items [] ltac:(split; [exact I|now left]) F) as B. change (ts_builder H []) with (@nil (option node_info)) in B. fold (build H items) in B.
  destruct (build H items) as [[b|e]|] eqn:E; [|exact B|exact B]. destruct B as (ts & -> & [GO GL] & FE & D). cbn [forest app] in FE. split; [|split].
  - split.
    + intro FB. destruct ts as [|[t|] [|x ts]]; try discriminate. cbn [forest] in FE. rewrite app_nil_r in FE. eauto.
    + intros (t & <-). apply dfs_leaves_ok in F. destruct (dfs_reach t 0) as (x & X & EX). rewrite Forall_forall in D. specialize (D x X). rewrite build_tree in E by (auto; lia). injection E as <-. reflexivity.
  - rewrite (hidden_forest H ts 0), FE. reflexivity.
  - destruct GL as [->|(ts' & t & ->)]; [easy|]. destruct ts' as [|[t'|] [|y ts']]; try (cbn; auto; fail); destruct ts'; cbn; auto.
Qed.
(** No prefix of the listing of a tree is refused. *)
Theorem C34_builder_prefix : forall H, (forall m, hash_ok (H m)) -> forall t a b, tree_ok t -> height t <= 128 -> dfs 0 t = a ++ b -> exists bld, build H a = Ret (Ok bld).
Proof.
  intros H HO t a b T HT D. pose proof (build_tree H HO t T HT) as E. rewrite D in E. unfold build in *. rewrite build_app in E. destruct (build_from H [] a) as [[bld|e]|]; [eauto|discriminate..].
Qed.
(** But not everything that is accepted can be completed: a leaf can be added below a finished tree, and the builder then
    never finishes. *)
Theorem C34_builder_accepts_refuted : ~ (forall H, (forall m, hash_ok (H m)) -> forall items b, Forall (fun x => leaf_ok (snd x)) items -> build H items = Ret (Ok b) -> exists t rest, dfs 0 t = items ++ rest).
Proof.
  intro A. set (l := LScript [0x51] TapScript). assert (LO : leaf_ok l) by (split; [reflexivity|exact I]).
  assert (HO : forall m, hash_ok ((fun _ : bytes => repeat 0 32) m)) by (intro; split; [reflexivity|repeat constructor]).
  destruct (A _ HO [(0, l); (1, l)] _ ltac:(repeat constructor; auto) eq_refl) as (t & rest & E).
  change ([(0, l); (1, l)] ++ rest) with (dfs 0 (Leaf l) ++ (1, l) :: rest) in E. rewrite <- (app_nil_r (dfs 0 t)) in E. apply dfs_inj in E as [_ E]. discriminate.
Qed.
(** What follows the listing of a whole tree: nothing can be added at depth 0, and whatever else is accepted never finishes. *)
Theorem C34_builder_complete_stays : forall H, (forall m, hash_ok (H m)) -> forall t x rest n, tree_ok t -> Forall (fun x => leaf_ok (snd x)) (x :: rest) -> build H (dfs 0 t ++ x :: rest) <> Ret (Ok [Some n]).
Proof.
  intros H HO t x rest n T F E. apply build_tree_inv in E as (u & D & _); [|exact HO|apply Forall_app; split; [now apply dfs_leaves_ok|exact F]].
  rewrite <- (app_nil_r (dfs 0 u)) in D. apply dfs_inj in D as [_ D]. discriminate.
Qed.

(** The leaves of a finished node are the scripts that were added, at their depths, and each path verifies against the root
    with the code's own hashing of pairs. *)
Lemma paths_dfs : forall H t d, map (fun x => (d + lenN (snd x), fst x)) (paths H t) = dfs d t.
Proof.
  intros H t. induction t as [l|l IL r IR]; intro d; cbn [paths dfs]; [cbn [map fst snd]; now rewrite lenN_nil, N.add_0_r|].
  assert (P : forall h ps, map (fun x : tap_leaf * list bytes => (d + lenN (snd x), fst x)) (map (below h) ps) = map (fun x => (d + 1 + lenN (snd x), fst x)) ps).
  { intros h ps. rewrite map_map. apply map_ext. intros [y p]. unfold below. cbn [fst snd]. rewrite lenN_app. change (lenN [h]) with 1. f_equal. lia. }
  rewrite map_app, !P, IL, IR. reflexivity.
Qed.
Lemma filter_map : forall A B (f : A -> B) p l, filter p (map f l) = map f (filter (fun x => p (f x)) l).
Proof. intros A B f p l. induction l as [|x l IH]; [reflexivity|]. cbn [map filter]. destruct (p (f x)); cbn [map]; now rewrite IH. Qed.
Theorem C34_leaves : forall H, (forall m, hash_ok (H m)) -> forall items n, Forall (fun x => leaf_ok (snd x)) items -> build H items = Ret (Ok [Some n]) ->
  Permutation (map (fun l => (lenN (ln_branch l), ln_leaf l)) (ni_leaves n)) (filter (fun x => is_script (snd x, [])) items) /\
  forall l, In l (ni_leaves n) -> fold_left (from_node_hashes H) (ln_branch l) (ln_hash H l) = ni_hash n /\ ln_depth l = Ret (lenN (ln_branch l)) /\ lenN (ln_branch l) <= 128.
Proof.
  intros H HO items n F E. destruct (build_tree_inv H HO items n F E) as (t & D & T & HT & ->). destruct (nodef_stands H t) as (_ & P & _). split.
  - apply (Permutation_map (fun x => (lenN (snd x), fst x))) in P. rewrite map_map in P. cbn [fst snd] in P. rewrite P. rewrite <- D, <- (paths_dfs H t 0), filter_map. reflexivity.
  - intros l I. apply (in_map (fun l => (ln_leaf l, ln_branch l))) in I as J. rewrite P in J. apply filter_In in J as [J _].
    assert (L : lenN (ln_branch l) <= 128) by (apply paths_len in J; lia). destruct (paths_ok H HO t _ _ T J) as [LO PO]. split; [|split; [|exact L]].
    + assert (LH : ln_hash H l = leaf_root H (ln_leaf l)) by (unfold ln_hash; destruct (ln_leaf l); [apply leaf_eq|reflexivity]). rewrite LH, fold_climb; [|exact HO| |exact PO].
      * rewrite (paths_climb H HO t _ _ T J). reflexivity.
      * destruct (ln_leaf l); [apply HO|exact LO].
    + unfold ln_depth. destruct (N.ltb_spec (lenN (ln_branch l)) 256); [reflexivity|lia].
Qed.
(** The order of the two children never matters: mirrored trees have the same root, leaves and paths. *)
Theorem C34_sorted : forall H, (forall m, hash_ok (H m)) -> forall t u n m, tree_ok t -> mirror t u -> build H (dfs 0 t) = Ret (Ok [Some n]) -> build H (dfs 0 u) = Ret (Ok [Some m]) ->
  ni_hash n = ni_hash m /\ Permutation (map (fun l => (ln_leaf l, ln_branch l)) (ni_leaves n)) (map (fun l => (ln_leaf l, ln_branch l)) (ni_leaves m)).
Proof.
  intros H HO t u n m T M EN EM. destruct (mirror_root H HO t u M T) as (U & R & P & _).
  apply build_tree_inv in EN as (t' & D & _ & _ & ->); [|exact HO|now apply dfs_leaves_ok]. apply build_tree_inv in EM as (u' & D' & _ & _ & ->); [|exact HO|now apply dfs_leaves_ok].
  rewrite <- (app_nil_r (dfs 0 t')), <- (app_nil_r (dfs 0 t)) in D. apply dfs_inj in D as [-> _]. rewrite <- (app_nil_r (dfs 0 u')), <- (app_nil_r (dfs 0 u)) in D'. apply dfs_inj in D' as [-> _].
  destruct (nodef_stands H t) as (HT & PT & _). destruct (nodef_stands H u) as (HU & PU & _). split; [congruence|]. rewrite PT, PU. clear - P.
  induction P as [|x a b P IH|x y a|a b c P1 IH1 P2 IH2]; cbn [filter]; [reflexivity|destruct (is_script x); [now constructor|exact IH]|destruct (is_script x), (is_script y); try reflexivity; constructor|now rewrite IH1].
Qed.

(** A script with a path that leads to the root of a finished node is one of its leaves with that path, or goes through a
    hidden node, or shows two different messages with the same hash. *)
Theorem C34_path_sound : forall H, (forall m, hash_ok (H m)) -> forall items n, Forall (fun x => leaf_ok (snd x)) items -> build H items = Ret (Ok [Some n]) ->
  forall s v p, leaf_ok (LScript s v) -> Forall hash_ok p -> fold_left (from_node_hashes H) p (from_script H s v) = ni_hash n ->
  exists t, dfs 0 t = items /\
  (In (mk_leaf (LScript s v) p) (ni_leaves n) \/
   (exists q h r, p = q ++ r /\ climb H (H (leaf_message H s v)) q = h /\ In (LHidden h, r) (paths H t)) \/
   collision H (tag_messages ++ leaf_message H s v :: climb_messages H (H (leaf_message H s v)) p) (tag_messages ++ tree_messages H t)).
Proof.
  intros H HO items n F E s v p LO PO V. destruct (build_tree_inv H HO items n F E) as (t & D & T & HT & ->). exists t. split; [exact D|].
  rewrite leaf_eq in V. rewrite fold_climb in V; [|exact HO|apply HO|exact PO]. cbn [leaf_root] in V. destruct (sound H HO t s v p T LO PO V) as [I|[I|I]]; [left|right; left; exact I|right; right; exact I].
  destruct (nodef_stands H t) as (_ & P & _). assert (J : In (LScript s v, p) (filter is_script (paths H t))) by (apply filter_In; auto). rewrite <- P in J. apply in_map_iff in J as ([l b] & J & K). cbn in J. injection J as -> ->. exact K.
Qed.

(** * Spend info *)
Definition tweak_of (H : bytes -> bytes) (C : curve) (k : xonly C) (r : option bytes) : N := be_val (H (tweak_message H (xonly_ser k) r)).
Lemma tap_tweak_eq : forall H C, curve_ok C -> forall k r, tap_tweak H C k r = if tweak_of H C k r <? CURVE_ORDER then match c_add C (xo_key k) (tweak_of H C k r) with Some (o, odd) => Ret (mk_xonly o odd) | None => Panic end else Panic.
Proof.
  intros H C CO k r. unfold tap_tweak. assert (TH : be_val (tweak_hash H C k r) = tweak_of H C k r) by reflexivity. unfold to_scalar. rewrite TH. destruct (_ <? _); [|reflexivity]. cbn [rbind].
  unfold add_tweak. destruct (c_add C (xo_key k) (tweak_of H C k r)) as [[o odd]|] eqn:E; [|reflexivity]. unfold tweak_add_check. cbn [xo_key xo_odd]. apply (check_add C CO) in E. now rewrite E.
Qed.
(** Finalizing: a tree gives its root and the output key tweaked by it, an empty builder a key spend, anything else the
    builder back; the only panics are a tweak hash that is no scalar and a sum that is no key. *)
Theorem C34_finalize : forall H C, (forall m, hash_ok (H m)) -> curve_ok C -> forall items b k, Forall (fun x => leaf_ok (snd x)) items -> build H items = Ret (Ok b) ->
  forall r, (if is_finalizable b then exists t, dfs 0 t = items /\ r = Some (root H t) else items = [] /\ r = None) ->
  match finalize H C b k with
  | Ret (Ok i) => si_internal i = k /\ si_root i = r /\ si_odd i = xo_odd (si_output i) /\ tweak_of H C k r < CURVE_ORDER /\ si_tweak H C i = H (tweak_message H (xonly_ser k) r) /\
                  c_add C (xo_key k) (tweak_of H C k r) = Some (xo_key (si_output i), xo_odd (si_output i))
  | Ret (Err _) => False
  | Panic => CURVE_ORDER <= tweak_of H C k r \/ c_add C (xo_key k) (tweak_of H C k r) = None
  end.
Proof.
  intros H C HO CO items b k F E r R.
  assert (K : match new_key_spend H C k r with
    | Ret i => si_internal i = k /\ si_root i = r /\ si_odd i = xo_odd (si_output i) /\ tweak_of H C k r < CURVE_ORDER /\ si_tweak H C i = H (tweak_message H (xonly_ser k) r) /\ c_add C (xo_key k) (tweak_of H C k r) = Some (xo_key (si_output i), xo_odd (si_output i))
    | Panic => CURVE_ORDER <= tweak_of H C k r \/ c_add C (xo_key k) (tweak_of H C k r) = None end).
  { unfold new_key_spend. rewrite tap_tweak_eq by exact CO. destruct (N.ltb_spec (tweak_of H C k r) CURVE_ORDER) as [L|G]; [|now left]. destruct (c_add C (xo_key k) (tweak_of H C k r)) as [[o odd]|]; [|now right]. cbn. repeat split; auto. }
  destruct b as [|[n|] [|x b]].
  - cbn [is_finalizable] in R. destruct R as [_ ->]. cbn [finalize]. destruct (new_key_spend H C k None); exact K.
  - cbn [is_finalizable] in R. destruct R as (t & D & ->). pose proof (build_tree_inv H HO items n F E) as (t' & D' & _ & _ & ->). rewrite <- D in D'. rewrite <- (app_nil_r (dfs 0 t')), <- (app_nil_r (dfs 0 t)) in D'. apply dfs_inj in D' as [-> _].
    cbn [finalize]. unfold from_node_info. change (ni_hash (nodef H t)) with (root H t). destruct (new_key_spend H C k (Some (root H t))); exact K.
  - cbn [is_finalizable] in R. destruct R as [-> _]. discriminate.
  - cbn [is_finalizable] in R. destruct R as [-> _]. discriminate.
  - cbn [is_finalizable] in R. destruct R as [-> _]. discriminate.
Qed.
Theorem C34_finalize_unfinished : forall H C items b k, build H items = Ret (Ok b) -> items <> [] -> (forall m, hash_ok (H m)) -> Forall (fun x => leaf_ok (snd x)) items -> is_finalizable b = false -> finalize H C b k = Ret (Err b).
Proof.
  intros H C items b k E NE HO F FI. pose proof (C34_builder_total H HO items F) as T. rewrite E in T. destruct T as (_ & _ & T).
  destruct b as [|[n|] [|x b]]; try reflexivity; try discriminate; [|cbn in T; contradiction].
  exfalso. destruct (build_spec H HO items [] ltac:(split; [exact I|now left]) F) as [[e B]|(ts & B & _ & _ & N)]; change (ts_builder H []) with (@nil (option node_info)) in B; fold (build H items) in B; rewrite E in B; [discriminate|].
  apply (N NE). destruct ts; [reflexivity|discriminate].
Qed.
(** The control block for a script of the tree has a shortest path of that script and verifies; there is none exactly for
    scripts that are not in the tree.  No call panics. *)
Lemma finalize_info : forall H C, (forall m, hash_ok (H m)) -> curve_ok C -> forall t k i n, tree_ok t -> height t <= 128 -> build H (dfs 0 t) = Ret (Ok [Some n]) -> finalize H C [Some n] k = Ret (Ok i) ->
  si_internal i = k /\ si_root i = Some (root H t) /\ si_odd i = xo_odd (si_output i) /\ tweak_of H C k (Some (root H t)) < CURVE_ORDER /\
  c_add C (xo_key k) (tweak_of H C k (Some (root H t))) = Some (xo_key (si_output i), xo_odd (si_output i)) /\ si_map i = add_leaves [] (nodes H t).
Proof.
  intros H C HO CO t k i n T HT B FI. pose proof (C34_finalize H C HO CO (dfs 0 t) [Some n] k (proj2 (dfs_leaves_ok t 0) T) B (Some (root H t))) as P. cbn [is_finalizable] in P. specialize (P ltac:(eauto)). rewrite FI in P.
  destruct P as (P1 & P2 & P3 & P4 & _ & P6). repeat (split; [assumption|]). rewrite build_tree in B by assumption. injection B as <-. cbn [finalize] in FI. unfold from_node_info, new_key_spend in FI.
  destruct (tap_tweak H C k _); [|discriminate]. cbn in FI. injection FI as <-. reflexivity.
Qed.
Lemma nodes_in : forall H t s v p, In (mk_leaf (LScript s v) p) (nodes H t) <-> In (LScript s v, p) (paths H t).
Proof.
  intros H t s v p. pose proof (nodes_paths H t) as P. split; intro I.
  - apply (in_map (fun l => (ln_leaf l, ln_branch l))) in I. rewrite P in I. cbn [ln_leaf ln_branch] in I. now apply filter_In in I as [I _].
  - assert (J : In (LScript s v, p) (filter is_script (paths H t))) by (apply filter_In; auto). rewrite <- P in J. apply in_map_iff in J as ([l b] & J & K). cbn in J. injection J as -> ->. exact K.
Qed.
Theorem C34_control_block : forall H C, (forall m, hash_ok (H m)) -> curve_ok C -> forall t k i n, tree_ok t -> height t <= 128 -> build H (dfs 0 t) = Ret (Ok [Some n]) -> finalize H C [Some n] k = Ret (Ok i) ->
  forall s v, match control_block_of C i (s, v) with
  | Panic => False
  | Ret None => forall p, ~ In (LScript s v, p) (paths H t)
  | Ret (Some cb) => cb_version cb = v /\ cb_key cb = k /\ In (LScript s v, cb_branch cb) (paths H t) /\ (forall p, In (LScript s v, p) (paths H t) -> lenN (cb_branch cb) <= lenN p) /\
                     verify_commitment H C cb (si_output i) s = Ret true
  end.
Proof.
  intros H C HO CO t k i n T HT B FI s v. destruct (finalize_info H C HO CO t k i n T HT B FI) as (IK & IR & IO & TL & TA & IM).
  destruct (add_leaves_spec (nodes H t) [] ltac:(constructor)) as (_ & A). destruct (A (s, v)) as (AI & AN & AZ). rewrite <- IM in *. clear A. unfold scripts_of in *. cbn [fst snd map_get set_of] in *.
  unfold control_block_of. destruct (map_get (si_map i) (s, v)) as [[|x ps]|] eqn:G.
  - now apply AN.
  - cbn [cb_version cb_key cb_branch snd]. cbn [set_of] in AI. destruct (min_by_len_spec ps x) as [MI ML]. pose proof (proj1 (AI _) MI) as [[]|MP]. apply nodes_in in MP.
    split; [reflexivity|]. split; [exact IK|]. split; [exact MP|]. split; [intros p I; apply ML, AI; right; now apply nodes_in|].
    unfold verify_commitment. cbn [cb_branch cb_version cb_key cb_odd]. destruct (paths_ok H HO t _ _ T MP) as [LO PO]. rewrite leaf_eq, fold_climb by (auto; apply HO). rewrite (paths_climb H HO t _ _ T MP).
    unfold to_scalar. rewrite IK. change (be_val (tweak_hash H C k (Some (root H t)))) with (tweak_of H C k (Some (root H t))). destruct (N.ltb_spec (tweak_of H C k (Some (root H t))) CURVE_ORDER); [|lia].
    cbn [rbind]. f_equal. unfold tweak_add_check. cbn [xo_key xo_odd]. apply (check_add C CO). now rewrite IO.
  - apply AZ in G as [_ G] || (destruct (proj1 AZ eq_refl) as [_ G']). intros p I. apply nodes_in in I. now apply (G' p).
Qed.
(** A control block with the internal key and the output's parity that verifies for the output key holds a script of the
    tree with its path, or goes through a hidden node, or shows a collision of the hash. *)
Theorem C34_commitment : forall H C, (forall m, hash_ok (H m)) -> curve_ok C -> forall t k i n, tree_ok t -> height t <= 128 -> build H (dfs 0 t) = Ret (Ok [Some n]) -> finalize H C [Some n] k = Ret (Ok i) ->
  forall cb s, leaf_ok (LScript s (cb_version cb)) -> Forall hash_ok (cb_branch cb) -> xo_key (cb_key cb) = xo_key k -> cb_odd cb = si_odd i -> verify_commitment H C cb (si_output i) s = Ret true ->
  let leaf := leaf_message H s (cb_version cb) in
  In (LScript s (cb_version cb), cb_branch cb) (paths H t) \/
  (exists q h r, cb_branch cb = q ++ r /\ climb H (H leaf) q = h /\ In (LHidden h, r) (paths H t)) \/
  collision H (tweak_message H (xonly_ser k) (Some (climb H (H leaf) (cb_branch cb))) :: tag_messages ++ leaf :: climb_messages H (H leaf) (cb_branch cb))
              (tweak_message H (xonly_ser k) (Some (root H t)) :: tag_messages ++ tree_messages H t).
Proof.
  intros H C HO CO t k i n T HT B FI cb s LO PO KE OE V leaf. destruct (finalize_info H C HO CO t k i n T HT B FI) as (IK & IR & IO & TL & TA & IM).
  unfold verify_commitment in V. rewrite leaf_eq, fold_climb in V by (auto; apply HO). cbn [leaf_root] in V. fold leaf in V. set (c := climb H (H leaf) (cb_branch cb)) in *.
  unfold to_scalar in V. assert (TH : be_val (tweak_hash H C (cb_key cb) (Some c)) = tweak_of H C k (Some c)) by (unfold tweak_hash, tweak_of, xonly_ser; rewrite KE; reflexivity). rewrite TH in V.
  destruct (N.ltb_spec (tweak_of H C k (Some c)) CURVE_ORDER) as [L|]; [|discriminate]. cbn [rbind] in V. injection V as V. unfold tweak_add_check in V. cbn [xo_key xo_odd] in V. apply (check_add C CO) in V. rewrite KE, OE, IO in V.
  pose proof (add_inj C CO _ _ _ _ L TL V TA) as TE. unfold tweak_of in TE. apply be_val_inj in TE; [|destruct (HO (tweak_message H (xonly_ser k) (Some c))), (HO (tweak_message H (xonly_ser k) (Some (root H t)))); auto; congruence..].
  destruct (bytes_dec (tweak_message H (xonly_ser k) (Some c)) (tweak_message H (xonly_ser k) (Some (root H t)))) as [Q|Q].
  - unfold tweak_message in Q. do 3 apply app_inv_head in Q. destruct (sound H HO t s (cb_version cb) (cb_branch cb) T LO PO Q) as [I|[I|I]]; [left; exact I|right; left; exact I|right; right].
    eapply collision_incl; [exact I|apply incl_tl, incl_refl|apply incl_tl, incl_refl].
  - right; right. eexists _, _. split; [now left|]. split; [now left|]. auto.
Qed.
(** An output that commits to no tree has no verifying control block with its internal key and parity, short of a collision. *)
Theorem C34_key_only : forall H C, (forall m, hash_ok (H m)) -> curve_ok C -> forall k i, finalize H C [] k = Ret (Ok i) ->
  forall cb s, Forall hash_ok (cb_branch cb) -> xo_key (cb_key cb) = xo_key k -> cb_odd cb = si_odd i -> verify_commitment H C cb (si_output i) s = Ret true ->
  collision H [tweak_message H (xonly_ser k) (Some (climb H (H (leaf_message H s (cb_version cb))) (cb_branch cb)))] [tweak_message H (xonly_ser k) None].
Proof.
  intros H C HO CO k i FI cb s PO KE OE V. pose proof (C34_finalize H C HO CO [] [] k ltac:(constructor) eq_refl None ltac:(cbn; auto)) as P. rewrite FI in P. destruct P as (IK & IR & IO & TL & _ & TA).
  unfold verify_commitment in V. rewrite leaf_eq, fold_climb in V by (auto; apply HO). cbn [leaf_root] in V. set (c := climb H (H (leaf_message H s (cb_version cb))) (cb_branch cb)) in *.
  assert (CO' : hash_ok c) by (apply climb_ok; [exact HO|apply HO]).
  unfold to_scalar in V. assert (TH : be_val (tweak_hash H C (cb_key cb) (Some c)) = tweak_of H C k (Some c)) by (unfold tweak_hash, tweak_of, xonly_ser; rewrite KE; reflexivity). rewrite TH in V.
  destruct (N.ltb_spec (tweak_of H C k (Some c)) CURVE_ORDER) as [L|]; [|discriminate]. cbn [rbind] in V. injection V as V. unfold tweak_add_check in V. cbn [xo_key xo_odd] in V. apply (check_add C CO) in V. rewrite KE, OE, IO in V.
  pose proof (add_inj C CO _ _ _ _ L TL V TA) as TE. unfold tweak_of in TE. apply be_val_inj in TE; [|destruct (HO (tweak_message H (xonly_ser k) (Some c))), (HO (tweak_message H (xonly_ser k) None)); auto; congruence..].
  eexists _, _. split; [now left|]. split; [now left|]. split; [|exact TE]. unfold tweak_message. intro Q. do 3 apply app_inv_head in Q. destruct CO' as [CL _]. rewrite Q in CL. discriminate.
Qed.

(** * Leaf versions: a byte is one exactly when it is even and not 0x50; the byte comes back, and nothing panics. *)
Lemma lv_exact : forall b, b < 256 -> lv_from_consensus b = Ret (if (b mod 2 =? 0) && negb (b =? 0x50) then Ok (if b =? 0xc0 then TapScript else Future b) else Err b).
Proof.
  intros b B. assert (A : forallb (fun b => match lv_from_consensus b, (if (b mod 2 =? 0) && negb (b =? 0x50) then Ok (if b =? 0xc0 then TapScript else Future b) else Err b) with
    | Ret (Ok TapScript), Ok TapScript => true | Ret (Ok (Future x)), Ok (Future y) => x =? y | Ret (Err x), Err y => x =? y | _, _ => false end) (map N.of_nat (seq 0 256)) = true) by (vm_compute; reflexivity).
  rewrite forallb_forall in A. specialize (A b). assert (I : In b (map N.of_nat (seq 0 256))) by (apply in_map_iff; exists (N.to_nat b); split; [apply N2Nat.id|apply in_seq; lia]). specialize (A I). clear I B.
  destruct (lv_from_consensus b) as [[[|x]|x]|], (if (b mod 2 =? 0) && negb (b =? 0x50) then Ok (if b =? 0xc0 then TapScript else Future b) else Err b) as [[|y]|y]; try discriminate; try reflexivity; apply N.eqb_eq in A as ->; reflexivity.
Qed.
Theorem C34_leaf_version : forall b, b < 256 ->
  match lv_from_consensus b with
  | Ret (Ok v) => b mod 2 = 0 /\ b <> 0x50 /\ version_ok v /\ lv_to_consensus v = b
  | Ret (Err e) => e = b /\ (b mod 2 = 1 \/ b = 0x50)
  | Panic => False
  end.
Proof.
  intros b B. rewrite lv_exact by exact B. destruct (N.eqb_spec (b mod 2) 0) as [E|E]; [|cbn [andb]; split; [reflexivity|lia]]. destruct (N.eqb_spec b 0x50) as [->|NE]; [cbn; auto|]. cbn [andb negb].
  split; [exact E|]. split; [exact NE|]. destruct (N.eqb_spec b 0xc0) as [->|NC]; cbn [version_ok lv_to_consensus]; auto.
Qed.
Theorem C34_leaf_version_back : forall v, version_ok v -> lv_from_consensus (lv_to_consensus v) = Ret (Ok v).
Proof.
  intros [|f] V; [reflexivity|]. destruct V as (L & E & NA & NC). cbn [lv_to_consensus]. rewrite lv_exact by exact L. rewrite E. destruct (N.eqb_spec f 0x50); [contradiction|]. destruct (N.eqb_spec f 0xc0); [contradiction|]. reflexivity.
Qed.

(** * Control blocks as bytes.  Decoding accepts exactly the encodings, and each error says what is wrong. *)
Lemma byte_split : forall f, f < 256 -> N.land f LEAF_MASK = f - f mod 2 /\ (N.land f 1 =? 0) = (f mod 2 =? 0).
Proof.
  intros f L. assert (A : forallb (fun f => (N.land f LEAF_MASK =? f - f mod 2) && Bool.eqb (N.land f 1 =? 0) (f mod 2 =? 0)) (map N.of_nat (seq 0 256)) = true) by (vm_compute; reflexivity).
  rewrite forallb_forall in A. specialize (A f). assert (I : In f (map N.of_nat (seq 0 256))) by (apply in_map_iff; exists (N.to_nat f); split; [apply N2Nat.id|apply in_seq; lia]). apply A in I. apply Bool.andb_true_iff in I as [I J].
  apply N.eqb_eq in I. apply Bool.eqb_prop in J. auto.
Qed.
Lemma first_byte : forall v (o : bool), version_ok v -> N.lor (if o then 1 else 0) (lv_to_consensus v) = version_byte v + (if o then 1 else 0) /\ version_byte v mod 2 = 0 /\ version_byte v < 256 /\ version_byte v <> 0x50.
Proof.
  intros v o V. assert (E : version_byte v = lv_to_consensus v) by (destruct v; reflexivity). assert (P : version_byte v mod 2 = 0 /\ version_byte v < 256 /\ version_byte v <> 0x50) by (destruct v; cbn [version_byte version_ok] in *; [repeat split; easy|tauto]).
  split; [|exact P]. rewrite <- E. destruct P as (P & L & _). clear E V. destruct o; [|cbn [N.lor]; lia]. rewrite N.lor_comm. set (b := version_byte v) in *. clearbody b.
  assert (A : forallb (fun b => implb (b mod 2 =? 0) (N.lor b 1 =? b + 1)) (map N.of_nat (seq 0 256)) = true) by (vm_compute; reflexivity).
  rewrite forallb_forall in A. specialize (A b). assert (I : In b (map N.of_nat (seq 0 256))) by (apply in_map_iff; exists (N.to_nat b); split; [apply N2Nat.id|apply in_seq; lia]). apply A in I. rewrite P in I. cbn [N.eqb implb] in I. now apply N.eqb_eq.
Qed.
Theorem C34_decode : forall C, curve_ok C -> forall sl, bytes_ok sl ->
  match cb_decode C sl with
  | Panic => False
  | Ret (Ok cb) => cb_serialize C cb = sl /\ cb_size C cb = lenN sl /\ version_ok (cb_version cb) /\ lenN (cb_branch cb) <= 128 /\ Forall (fun h => lenN h = 32) (cb_branch cb) /\ xo_odd (cb_key cb) = false
  | Ret (Err (EControlSize n)) => n = lenN sl /\ n < 33
  | Ret (Err (ELeafVersion v)) => v = 0x50 /\ exists r, sl = 0x50 :: r \/ sl = 0x51 :: r
  | Ret (Err (EBranchSize n)) => lenN sl = 33 + n /\ n mod 32 <> 0
  | Ret (Err (ETreeDepth n)) => lenN sl = 33 + 32 * n /\ 128 < n
  | Ret (Err EInternalKey) => 33 <= lenN sl /\ c_parse C (takeN 32 (dropN 1 sl)) = None
  end.
Proof.
  intros C CO sl BO. unfold cb_decode, CONTROL_BASE_SIZE. destruct (N.ltb_spec (lenN sl) 33) as [L|G]; [destruct (takeN 33 sl); auto|].
  destruct sl as [|f sl]; [rewrite lenN_nil in G; lia|]. rewrite lenN_cons in G. inversion BO as [|? ? FB SB]; subst.
  assert (TK : takeN 33 (f :: sl) = f :: takeN 32 sl) by reflexivity. assert (DK : dropN 33 (f :: sl) = dropN 32 sl) by reflexivity. change bytes with (list N) in *. rewrite TK, DK. clear TK DK.
  unfold byte_ok in FB. destruct (byte_split f FB) as [ML MO]. rewrite ML, MO. clear ML MO. rewrite lv_exact by (clear - FB; lia). set (b := f - f mod 2). assert (BE : b mod 2 = 0) by (unfold b; lia). rewrite BE. cbn [N.eqb andb].
  destruct (N.eqb_spec b 0x50) as [E5|N5].
  { cbn [negb]. split; [exact E5|]. exists sl. assert (f = 0x50 \/ f = 0x51) as [-> | ->] by (unfold b in E5; lia); auto. }
  cbn [negb]. pose proof (branch_decode_spec (dropN 32 sl)) as BD. destruct (branch_decode (dropN 32 sl)) as [br|[n|n|n|n|]]; try contradiction.
  2: { destruct BD as [-> BD]. rewrite lenN_dropN, lenN_cons in *. split; [lia|exact BD]. }
  2: { destruct BD as [BD BL]. rewrite lenN_dropN, lenN_cons in *. split; [lia|exact BL]. }
  destruct BD as (BC & BL & BF). unfold xonly_parse. assert (T32 : hash_ok (takeN 32 sl)) by (split; [rewrite lenN_takeN; lia|rewrite <- (takeN_dropN 32 sl) in SB; apply Forall_app in SB as [SB _]; exact SB]). destruct (c_parse C (takeN 32 sl)) as [k|] eqn:PK.
  - cbn [cb_version cb_branch cb_key xo_odd]. split; [|split; [|split; [|auto]]].
    + unfold cb_serialize, xonly_ser, branch_bytes. cbn [cb_version cb_branch cb_key cb_odd xo_key]. rewrite (ser_parse C CO _ _ T32 PK). change bytes with (list N) in *. rewrite BC, takeN_dropN. f_equal.
      set (v := if b =? 0xc0 then TapScript else Future b). assert (V : version_ok v /\ version_byte v = b) by (unfold v; destruct (N.eqb_spec b 0xc0) as [->|NC]; cbn [version_ok version_byte]; repeat split; auto; unfold b; lia). destruct V as [V VB].
      destruct (first_byte v (negb (f mod 2 =? 0)) V) as [-> _]. rewrite VB. unfold b. destruct (N.eqb_spec (f mod 2) 0); cbn [negb]; lia.
    + unfold cb_size, CONTROL_BASE_SIZE, NODE_SIZE. cbn [cb_branch]. pose proof (concat_32 br BF) as CL. change bytes with (list N) in *. rewrite BC, lenN_dropN in CL. rewrite lenN_cons. lia.
    + destruct (N.eqb_spec b 0xc0) as [->|NC]; cbn [version_ok]; repeat split; auto. unfold b. lia.
  - split; [rewrite lenN_cons; lia|exact PK].
Qed.
(** Encoding and decoding gives the control block back, except that the internal key comes out with even parity. *)
Theorem C34_encode : forall C, curve_ok C -> forall cb, version_ok (cb_version cb) -> Forall (fun h => lenN h = 32) (cb_branch cb) -> lenN (cb_branch cb) <= 128 ->
  lenN (cb_serialize C cb) = cb_size C cb /\
  cb_decode C (cb_serialize C cb) = Ret (Ok (mk_cb (cb_version cb) (cb_odd cb) (mk_xonly (xo_key (cb_key cb)) false) (cb_branch cb))).
Proof.
  intros C CO [v o k br] V F L. cbn [cb_version cb_branch cb_odd cb_key] in *. destruct (first_byte v o V) as (FB & E & B & NA).
  assert (KL : lenN (xonly_ser k) = 32) by (destruct (ser_32 C CO (xo_key k)); assumption). unfold cb_serialize, branch_bytes, cb_size, CONTROL_BASE_SIZE, NODE_SIZE. cbn [cb_version cb_branch cb_odd cb_key]. rewrite FB.
  set (f := version_byte v + (if o then 1 else 0)) in *. split; [rewrite lenN_cons, lenN_app, KL, concat_32 by exact F; lia|].
  unfold cb_decode, CONTROL_BASE_SIZE. rewrite lenN_cons, lenN_app, KL. destruct (N.ltb_spec (1 + (32 + lenN (concat br))) 33); [lia|].
  assert (TK : forall sl, takeN 33 (f :: sl) = f :: takeN 32 sl) by reflexivity. assert (DK : forall sl, dropN 33 (f :: sl) = dropN 32 sl) by reflexivity. change bytes with (list N) in *. rewrite TK, DK.
  rewrite takeN_app_le, takeN_all by lia. rewrite dropN_app_ge by lia. replace (32 - lenN (xonly_ser k)) with 0 by lia. change (dropN 0 (concat br)) with (concat br). rewrite branch_decode_concat by assumption.
  destruct (byte_split f ltac:(unfold f; destruct o; lia)) as [-> ->]. assert (FE : f - f mod 2 = version_byte v) by (unfold f; destruct o; lia). assert (FO : (f mod 2 =? 0) = negb o) by (unfold f; destruct o; cbn [negb]; [apply N.eqb_neq|apply N.eqb_eq]; lia).
  rewrite FE, FO, Bool.negb_involutive. assert (LV : lv_from_consensus (version_byte v) = Ret (Ok v)) by (rewrite <- (C34_leaf_version_back v V); now destruct v). rewrite LV.
  unfold xonly_parse, xonly_ser. rewrite (parse_ser C CO). reflexivity.
Qed.
(** The toy curve: keys are the numbers below the group order, the sum is that of the numbers, odd sums are odd. *)
Definition toy_key : Type := { k : N | (k <? CURVE_ORDER) = true }.
Definition toy_make (k : N) : toy_key := exist _ (k mod CURVE_ORDER) (proj2 (N.ltb_lt _ _) (N.mod_lt k CURVE_ORDER ltac:(discriminate))).
Definition toy_add (k : toy_key) (t : N) : option (toy_key * bool) := let s := toy_make (proj1_sig k + t) in Some (s, N.odd (proj1_sig s)).
Definition toy : curve := mk_curve toy_key (fun k => be_bytes 32 (proj1_sig k)) (fun b => if be_val b <? CURVE_ORDER then Some (toy_make (be_val b)) else None) toy_add
  (fun k k' o t => (proj1_sig k' =? proj1_sig (toy_make (proj1_sig k + t))) && Bool.eqb o (N.odd (proj1_sig (toy_make (proj1_sig k + t))))).
Lemma toy_eq : forall a b : toy_key, proj1_sig a = proj1_sig b -> a = b.
Proof. intros [a A] [b B] E. cbn [proj1_sig] in E. subst b. f_equal. apply UIP_dec. decide equality. Qed.
Lemma toy_ok : curve_ok toy.
Proof.
  assert (LT : forall k : toy_key, proj1_sig k < CURVE_ORDER) by (intros [k K]; cbn [proj1_sig]; now apply N.ltb_lt). assert (OL : CURVE_ORDER < 256 ^ 32) by reflexivity.
  assert (VB : forall v, v < 256 ^ 32 -> be_val (be_bytes 32 v) = v) by (intros v V; unfold be_val, be_bytes; rewrite rev_involutive; apply le_val_bytes; exact V).
  constructor; cbn [toy c_key c_ser c_parse c_add c_check].
  - intro k. split; [apply be_bytes_len|apply be_bytes_ok].
  - intro k. rewrite VB by (specialize (LT k); lia). specialize (LT k). destruct (N.ltb_spec (proj1_sig k) CURVE_ORDER); [|lia]. f_equal. apply toy_eq. cbn [toy_make proj1_sig]. now apply N.mod_small.
  - intros b k L. destruct (N.ltb_spec (be_val b) CURVE_ORDER) as [B|B]; [|discriminate]. intro E. injection E as <-. cbn [toy_make proj1_sig]. rewrite N.mod_small by exact B. apply be_val_inj; [split; [apply be_bytes_len|apply be_bytes_ok]|exact L|]. apply VB. lia.
  - intros k k' o t. rewrite Bool.andb_true_iff, N.eqb_eq, Bool.eqb_true_iff. unfold toy_add. split; [intros [A ->]; apply toy_eq in A as ->; reflexivity|intro E; injection E as <- <-; auto].
  - intros k t t' r L L' E E'. rewrite <- E in E'. unfold toy_add in E'. injection E' as E' _. clear - E' L L' LT. specialize (LT k). set (a := proj1_sig k) in *. clearbody a. set (n := CURVE_ORDER) in *. clearbody n.
    assert (MS : forall x, x < 2 * n -> x mod n = if x <? n then x else x - n).
    { intros x X. destruct (N.ltb_spec x n); [now apply N.mod_small|]. symmetry. apply (N.mod_unique x n 1); lia. }
    rewrite !MS in E' by lia. destruct (N.ltb_spec (a + t') n), (N.ltb_spec (a + t) n); lia.
Qed.
(** So the full round trip fails for an internal key made with odd parity: the two blocks differ under ==. *)
Theorem C34_round_trip_refuted : exists C, curve_ok C /\ exists cb, version_ok (cb_version cb) /\ cb_branch cb = [] /\ forall cb', cb_decode C (cb_serialize C cb) = Ret (Ok cb') -> cb' <> cb.
Proof.
  exists toy. split; [exact toy_ok|]. exists (mk_cb TapScript false (mk_xonly (toy_make 7 : c_key toy) true) []). split; [exact I|]. split; [reflexivity|]. intros cb' E.
  destruct (C34_encode toy toy_ok (mk_cb TapScript false (mk_xonly (toy_make 7 : c_key toy) true) [])) as [_ D]; [exact I|constructor|cbn; lia|]. rewrite D in E. injection E as <-. cbn [cb_version cb_odd cb_branch cb_key xo_key]. intro Q.
  apply (f_equal (fun c : control_block toy => xo_odd (cb_key c))) in Q. discriminate.
Qed.
(** Branches of control blocks alone. *)
Theorem C34_branch_codec : forall l b, branch_decode b = Ok l <-> concat l = b /\ lenN l <= 128 /\ Forall (fun h => lenN h = 32) l.
Proof.
  intros l b. split; [|intros (<- & L & F); now apply branch_decode_concat]. intro E. pose proof (branch_decode_spec b) as P. rewrite E in P. exact P.
Qed.
Theorem C34_branch_collection : forall l, branch_from_collection l = if lenN l <=? 128 then Ok l else Err (lenN l).
Proof. intro l. unfold branch_from_collection, MAX_NODE_COUNT. destruct (N.ltb_spec 128 (lenN l)), (N.leb_spec (lenN l) 128); try lia; reflexivity. Qed.

(** * Huffman trees.  Any list of weighted scripts gives one of the trees over exactly these scripts, or the depth error; the
    tree has the least total cost as long as the weights add up to less than 2^32. *)
Definition start (x : N * bytes) : N * wtree := (fst x, WLeaf (fst x) (snd x)).
Lemma huffman_start : forall H, (forall m, hash_ok (H m)) -> forall l, l <> [] -> Forall (fun x => is_u64 (lenN (snd x))) l ->
  exists o, huff (map start l) o /\ with_huffman_tree H l = match o with Some t => Ret (Ok [Some (nodef H (plain_tree t))]) | None => Ret (Err (EDepth 128)) end.
Proof.
  intros H HO l NE F. destruct (loop_huff H HO (length l) (map start l)) as (o & HU & E); [now destruct l|now rewrite map_length| |].
  - apply Forall_forall. intros x X. apply in_map_iff in X as (y & <- & Y). rewrite Forall_forall in F. specialize (F y Y). cbn [start snd wheight]. split; [repeat constructor; exact F|lia].
  - exists o. split; [exact HU|]. rewrite <- E. unfold with_huffman_tree.
    assert (M : map (fun '(p, s) => (p, new_leaf H s TapScript)) l = map (ent H) (map start l)). { rewrite map_map. apply map_ext. intros [p s]. unfold ent, start. cbn [fst snd plain_tree]. unfold new_leaf, nodef. cbn [root nodes hidden]. now rewrite leaf_eq. }
    rewrite M. destruct l; [congruence|]. cbn [map length]. now rewrite !map_length.
Qed.
Lemma start_weighted : forall l, concat (map (fun x => weighted (snd x)) (map start l)) = l.
Proof. induction l as [|[p s] l IH]; [reflexivity|]. cbn [map concat start snd weighted app fst]. now rewrite IH. Qed.
Lemma start_sums : forall l, sums (map start l) = total l /\ costs (map start l) = 0.
Proof. induction l as [|[p s] l [I J]]; [split; reflexivity|]. unfold sums, costs, total in *. cbn. rewrite ?I, ?J. split; lia || reflexivity. Qed.
Lemma weights_weighted : forall t, weights t = map fst (weighted t).
Proof. induction t as [w s|l IL r IR]; [reflexivity|]. cbn [weights weighted]. now rewrite map_app, IL, IR. Qed.
Theorem C34_huffman : forall H, (forall m, hash_ok (H m)) -> forall l, Forall (fun x => is_u64 (lenN (snd x))) l ->
  match with_huffman_tree H l with
  | Panic => False
  | Ret (Err e) => (e = EEmpty /\ l = []) \/ (e = EDepth 128 /\ l <> [])
  | Ret (Ok b) => exists t n, b = [Some n] /\ Permutation (weighted t) l /\ height (plain_tree t) <= 128 /\ stands_for H n (plain_tree t) /\
                  (total l < 2 ^ 32 -> forall u, Permutation (weighted u) l -> cost 0 t <= cost 0 u)
  end.
Proof.
  intros H HO l F. destruct l as [|x l]; [left; auto|]. set (l' := x :: l) in *. destruct (huffman_start H HO l' ltac:(easy) F) as ([t|] & HU & ->); [|right; easy].
  exists t, (nodef H (plain_tree t)). split; [reflexivity|]. destruct (huff_weighted _ _ HU t eq_refl) as [P HT]. rewrite start_weighted in P. split; [exact P|]. split; [|split; [apply nodef_stands|]].
  - rewrite plain_height. destruct HT as [HT|[p HT]]; [exact HT|]. unfold l' in HT. cbn [map start] in HT. injection HT as _ <- _. cbn [wheight]. lia.
  - intros TL u PU. destruct (start_sums l') as [SS SC]. pose proof (huff_optimal _ _ HU) as O. rewrite SS, SC in O.
    assert (EX : exact_weights (map start l')) by (apply Forall_forall; intros y Y; apply in_map_iff in Y as (z & <- & _); reflexivity).
    specialize (O EX TL t eq_refl u). rewrite cost_merges. cbn [N.mul N.add]. rewrite N.add_0_l in O. apply O. rewrite weights_weighted, map_map. cbn [start fst]. now apply Permutation_map.
Qed.
(** With positive weights that add up to less than 2^32 it always succeeds, and no script is deeper than 45. *)
Theorem C34_huffman_depth : forall H, (forall m, hash_ok (H m)) -> forall l, l <> [] -> Forall (fun x => is_u64 (lenN (snd x)) /\ 0 < fst x) l -> total l < 2 ^ 32 ->
  exists t n, with_huffman_tree H l = Ret (Ok [Some n]) /\ Permutation (weighted t) l /\ stands_for H n (plain_tree t) /\ height (plain_tree t) <= 45.
Proof.
  intros H HO l NE F TL. destruct (huffman_start H HO l NE) as (o & HU & E); [eapply Forall_impl; [|exact F]; intros ? [? _]; assumption|]. destruct (start_sums l) as [SS _].
  assert (EX : exact_weights (map start l)) by (apply Forall_forall; intros y Y; apply in_map_iff in Y as (z & <- & _); reflexivity).
  assert (BA : balanced (map start l)).
  { split.
    - apply Forall_forall. intros y Y. apply in_map_iff in Y as (z & <- & Z). rewrite Forall_forall in F. destruct (F z Z) as [_ P]. exact (proj2 (N.le_succ_l 0 _) P).
    - clear. induction l as [|y l IH]; [constructor|]. cbn [map]. constructor; [|exact IH]. apply Forall_forall. intros z Z. apply in_map_iff in Z as (w & <- & _). split; exact I. }
  destruct (huff_shallow _ _ HU EX ltac:(rewrite SS; exact TL) BA) as (t & -> & HT). exists t, (nodef H (plain_tree t)). split; [exact E|]. destruct (huff_weighted _ _ HU t eq_refl) as [P _]. rewrite start_weighted in P.
  split; [exact P|]. split; [apply nodef_stands|]. now rewrite plain_height.
Qed.
(** The spend info made from a Huffman tree is that of finalizing the tree; its [expect] never fails. *)
Theorem C34_huffman_spend : forall H C, (forall m, hash_ok (H m)) -> forall k l, Forall (fun x => is_u64 (lenN (snd x))) l ->
  spend_with_huffman_tree H C k l =
  match with_huffman_tree H l with
  | Ret (Ok [Some n]) => rbind (from_node_info H C k n) (fun i => Ret (Ok i))
  | Ret (Err e) => Ret (Err e)
  | _ => Panic
  end.
Proof.
  intros H C HO k l F. unfold spend_with_huffman_tree. pose proof (C34_huffman H HO l F) as P. destruct (with_huffman_tree H l) as [[b|e]|]; [|reflexivity|contradiction].
  destruct P as (t & n & -> & _). cbn [rbind finalize]. destruct (from_node_info H C k n); reflexivity.
Qed.

(** * Serde of nodes and tap trees *)
Theorem C34_serde : forall H, (forall m, hash_ok (H m)) -> forall t n, tree_ok t -> height t <= 128 -> hidden t = false -> build H (dfs 0 t) = Ret (Ok [Some n]) ->
  try_into_tap_tree [Some n] = Ret (Ok n) /\ tap_tree_of n = Ok n /\ node_deserialize H (node_serialize n) = Ret (Ok n) /\
  Permutation (node_serialize n) (dfs 0 t) /\ Permutation (map (fun x => let '(v, s, p) := x in (LScript s v, p)) (script_leaves (ni_leaves n))) (paths H t).
Proof.
  intros H HO t n T HT HF B. pose proof (C34_leaves H HO (dfs 0 t) n (proj2 (dfs_leaves_ok t 0) T) B) as [PL _]. rewrite build_tree in B by assumption. injection B as <-.
  assert (AS : forall x, In x (paths H t) -> is_script x = true).
  { intros [l p] I. destruct (is_script (l, p)) eqn:E; [reflexivity|]. exfalso. assert (J : In (0 + lenN p, l) (dfs 0 t)) by (rewrite <- (paths_dfs H t 0); apply in_map_iff; exists (l, p); auto).
    assert (X : existsb (fun x => negb (is_script (snd x, @nil bytes))) (dfs 0 t) = true) by (apply existsb_exists; eexists; split; [exact J|]; cbn [snd] in *; unfold is_script in *; cbn [fst] in *; now rewrite E). rewrite hidden_dfs in X. congruence. }
  split; [cbn; now rewrite HF|]. split; [unfold tap_tree_of; cbn; now rewrite HF|]. split; [now apply serde_tree|]. split.
  - unfold node_serialize. rewrite PL. rewrite <- (paths_dfs H t 0). rewrite filter_map. apply Permutation_refl'. f_equal. clear - AS. induction (paths H t) as [|x l IH]; [reflexivity|]. cbn [filter]. pose proof (AS x (or_introl eq_refl)) as A. unfold is_script in A |- *. cbn [fst snd]. rewrite A. f_equal. apply IH. intros y Y. apply AS. now right.
  - destruct (nodef_stands H t) as (_ & P & _). assert (FA : filter is_script (paths H t) = paths H t) by (clear - AS; induction (paths H t) as [|x l IH]; [reflexivity|]; cbn [filter]; rewrite (AS x (or_introl eq_refl)); f_equal; apply IH; intros y Y; apply AS; now right).
    rewrite FA in P. rewrite <- P. assert (AS' : forall x, In x (map (fun l => (ln_leaf l, ln_branch l)) (ni_leaves (nodef H t))) -> is_script x = true) by (intros x X; apply AS; now apply (Permutation_in _ P)). clear - AS'. apply Permutation_refl'. induction (ni_leaves (nodef H t)) as [|[[s v|h] p] l IH]; [reflexivity|..]; cbn [map script_leaves ln_leaf ln_branch].
    + f_equal. apply IH. intros x X. apply AS'. now right.
    + specialize (AS' _ (or_introl eq_refl)). discriminate.
Qed.
(** A tree with hidden parts is no tap tree. *)
Theorem C34_tap_tree_hidden : forall H, (forall m, hash_ok (H m)) -> forall t n, tree_ok t -> height t <= 128 -> hidden t = true -> build H (dfs 0 t) = Ret (Ok [Some n]) ->
  try_into_tap_tree [Some n] = Ret (Err (EHiddenParts [Some n])) /\ tap_tree_of n = Err n.
Proof. intros H HO t n T HT HF B. rewrite build_tree in B by assumption. injection B as <-. unfold tap_tree_of. cbn. now rewrite HF. Qed.
(** Serializing a node drops its hidden parts, so that it cannot be read back. *)
Theorem C34_serde_hidden_refuted : forall H, (forall m, hash_ok (H m)) -> exists t n, tree_ok t /\ build H (dfs 0 t) = Ret (Ok [Some n]) /\ forall m, node_deserialize H (node_serialize n) <> Ret (Ok m).
Proof.
  intros H HO. set (t := Branch (Leaf (LScript [0x51] TapScript)) (Leaf (LHidden (H [])))). assert (T : tree_ok t) by (split; [split; [reflexivity|exact I]|apply HO]).
  exists t, (nodef H t). split; [exact T|]. split; [apply build_tree; [exact HO|exact T|cbn; lia]|]. intro m.
  assert (S : node_serialize (nodef H t) = [(1, LScript [0x51] TapScript)]) by (unfold node_serialize, nodef; cbn [ni_leaves nodes]; unfold t; cbn [nodes]; destruct (_ <? _); reflexivity).
  rewrite S. unfold node_deserialize. rewrite visit_build by (repeat constructor). cbn. discriminate.
Qed.

(** * Concrete cases: the two-leaf tree of the BIP 341 test vectors, with SHA-256 *)
Lemma SHA256_ok : forall m, hash_ok (SSha2.SHA256 m).
Proof. intro m. split; [apply SHA256_32|]. unfold SSha2.SHA256, SSha2.hash_with, SSha2.out. apply Forall_concat, Forall_forall. intros b I. apply in_map_iff in I as (x & <- & _). apply be_bytes_ok. Qed.
Definition ex_script : bytes := [32; 56; 118; 113; 53; 62; 39; 50; 100; 196; 149; 101; 110; 39; 227; 155; 168; 153; 234; 143; 238; 59; 182; 159; 178; 166; 128; 226; 32; 147; 68; 125; 72; 172].
Definition ex_tree : tree := Branch (Leaf (LScript ex_script TapScript)) (Leaf (LScript [6; 66; 73; 80; 51; 52; 49] (Future 250))).
Definition ex_leaf0 : bytes := [138; 214; 158; 199; 207; 65; 194; 164; 0; 31; 209; 247; 56; 191; 30; 80; 92; 226; 39; 122; 205; 202; 166; 63; 228; 118; 81; 146; 73; 127; 71; 167].
Definition ex_leaf1 : bytes := [242; 36; 169; 35; 205; 0; 33; 171; 32; 42; 177; 57; 204; 86; 128; 45; 219; 146; 220; 252; 23; 43; 146; 18; 38; 26; 83; 157; 247; 154; 17; 42].
Definition ex_root : bytes := [108; 45; 193; 6; 171; 129; 107; 115; 249; 208; 126; 60; 209; 239; 44; 140; 18; 86; 245; 25; 116; 142; 8; 19; 228; 237; 210; 64; 93; 39; 123; 239].
Example C34_ex_tree : tree_ok ex_tree /\ height ex_tree <= 128 /\ hidden ex_tree = false.
Proof. split; [repeat split; cbn; try lia; try easy|]. split; [cbn; lia|reflexivity]. Qed.
Example C34_ex_root : exists n, build SSha2.SHA256 (dfs 0 ex_tree) = Ret (Ok [Some n]) /\ ni_hash n = ex_root /\ Permutation (map (fun l => (ln_leaf l, ln_branch l)) (ni_leaves n)) [(LScript ex_script TapScript, [ex_leaf1]); (LScript [6; 66; 73; 80; 51; 52; 49] (Future 250), [ex_leaf0])].
Proof.
  destruct (C34_builder _ SHA256_ok ex_tree (proj1 C34_ex_tree) (proj1 (proj2 C34_ex_tree))) as (n & E & HR & P & _). exists n. split; [exact E|]. split; [rewrite HR; vm_compute; reflexivity|]. rewrite P. apply Permutation_refl'. vm_compute. reflexivity.
Qed.
(** the toy curve has a control block for both scripts *)
Example C34_ex_spend : exists n i cb, build SSha2.SHA256 (dfs 0 ex_tree) = Ret (Ok [Some n]) /\ finalize SSha2.SHA256 toy [Some n] (mk_xonly (toy_make 12345 : c_key toy) false) = Ret (Ok i) /\ control_block_of toy i (ex_script, TapScript) = Ret (Some cb).
Proof.
  destruct (C34_builder _ SHA256_ok ex_tree (proj1 C34_ex_tree) (proj1 (proj2 C34_ex_tree))) as (n & E & _). exists n.
  pose proof (C34_finalize _ toy SHA256_ok toy_ok _ _ (mk_xonly (toy_make 12345 : c_key toy) false) (proj2 (dfs_leaves_ok ex_tree 0) (proj1 C34_ex_tree)) E (Some (root SSha2.SHA256 ex_tree)) (ex_intro _ ex_tree (conj eq_refl eq_refl))) as P.
  destruct (finalize SSha2.SHA256 toy [Some n] _) as [[i|e]|] eqn:F; [|contradiction|exfalso; destruct P as [P|P]; [revert P; vm_compute; intro P; now apply P|discriminate]]. exists i.
  pose proof (C34_control_block _ toy SHA256_ok toy_ok ex_tree _ i n (proj1 C34_ex_tree) (proj1 (proj2 C34_ex_tree)) E F ex_script TapScript) as K. destruct (control_block_of toy i (ex_script, TapScript)) as [[cb|]|]; [eauto| |contradiction].
  exfalso. eapply K. left. reflexivity.
Qed.
Example C34_ex_huffman : with_huffman_tree SSha2.SHA256 [(3, [81]); (1, [82]); (1, [83])] = build SSha2.SHA256 [(2, LScript [82] TapScript); (2, LScript [83] TapScript); (1, LScript [81] TapScript)].
Proof. vm_compute. reflexivity. Qed.
Example C34_ex_hidden : let t := Branch (Leaf (LHidden ex_leaf1)) (Leaf (LScript [81] TapScript)) in tree_ok t /\ hidden t = true /\ height t <= 128.
Proof. cbn. repeat split; try lia; try easy. repeat constructor. Qed.
Example C34_ex_mirror : mirror ex_tree (Branch (Leaf (LScript [6; 66; 73; 80; 51; 52; 49] (Future 250))) (Leaf (LScript ex_script TapScript))). Proof. apply mirror_swap; constructor. Qed.

Print Assumptions C34_builder.
Print Assumptions C34_builder_exact.
Print Assumptions C34_builder_total.
Print Assumptions C34_builder_prefix.
Print Assumptions C34_builder_accepts_refuted.
Print Assumptions C34_builder_complete_stays.
Print Assumptions C34_leaves.
Print Assumptions C34_sorted.
Print Assumptions C34_path_sound.
Print Assumptions C34_finalize.
Print Assumptions C34_finalize_unfinished.
Print Assumptions C34_control_block.
Print Assumptions C34_commitment.
Print Assumptions C34_key_only.
Print Assumptions C34_leaf_version.
Print Assumptions C34_leaf_version_back.
Print Assumptions C34_decode.
Print Assumptions C34_encode.
Print Assumptions C34_round_trip_refuted.
Print Assumptions C34_branch_codec.
Print Assumptions C34_branch_collection.
Print Assumptions C34_huffman.
Print Assumptions C34_huffman_depth.
Print Assumptions C34_huffman_spend.
Print Assumptions C34_serde.
Print Assumptions C34_tap_tree_hidden.
Print Assumptions C34_serde_hidden_refuted.
(** A leaf added without a version is a tapscript leaf (version 0xc0). *)
Theorem C34_add_leaf : forall H b d s, add_leaf H b d s = add_item H b d (LScript s TapScript) /\ version_byte TapScript = 0xc0.
Proof. intros. split; reflexivity. Qed.
Print Assumptions C34_add_leaf.
