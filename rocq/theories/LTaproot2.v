(** Lemmas on script trees: only leaves of the tree lead to its root; the script map; control blocks; serde. *)
From Coq Require Import String Permutation.
From Verif Require Import Base MDec LDec MWitness MTx LWire SWire MText MSighash SSighash MTaproot STaproot LScript LSighash3 LTaproot.
Local Open Scope N_scope.

Lemma version_byte_inj : forall v w, version_ok v -> version_ok w -> version_byte v = version_byte w -> v = w.
Proof. intros [|f] [|g] A B E; cbn [version_byte version_ok] in *; try lia; [reflexivity|now subst]. Qed.

Section Hash.
  Variable H : bytes -> bytes.
  Hypothesis H_ok : forall m, hash_ok (H m).
  Let H32 : forall m, lenN (H m) = 32. Proof. intro m. apply H_ok. Qed.

  Lemma sorted_inj : forall a b c d, hash_ok a -> hash_ok b -> hash_ok c -> hash_ok d ->
    (if be_val a <=? be_val b then a ++ b else b ++ a) = (if be_val c <=? be_val d then c ++ d else d ++ c) -> (a = c /\ b = d) \/ (a = d /\ b = c).
  Proof.
    intros a b c d [A _] [B _] [C _] [D _] E. destruct (_ <=? _), (_ <=? _); apply app_inj_lenN in E as [-> ->]; auto; congruence.
  Qed.
  Lemma climb_messages_snoc : forall p h x, climb_messages H h (p ++ [x]) = climb_messages H h p ++ [branch_message H (climb H h p) x].
  Proof. induction p as [|y p IH]; intros h x; cbn [app climb_messages]; [reflexivity|]. now rewrite IH. Qed.
  Lemma collision_incl : forall la lb la' lb', collision H la lb -> incl la la' -> incl lb lb' -> collision H la' lb'.
  Proof. intros la lb la' lb' (x & y & X & Y & N & E) IA IB. exists x, y. auto. Qed.
  (** a leaf and a branch never hash to the same, unless tags or messages collide *)
  Lemma leaf_branch : forall s v a b, H (leaf_message H s v) = H (branch_message H a b) -> collision H (tag_messages ++ [leaf_message H s v]) (tag_messages ++ [branch_message H a b]).
  Proof.
    intros s v a b E. destruct (bytes_dec (leaf_message H s v) (branch_message H a b)) as [Q|Q].
    - unfold leaf_message, branch_message in Q. apply app_inj_lenN in Q as [Q _]; [|now rewrite !H32]. exists (lit "TapLeaf"), (lit "TapBranch"). repeat split; [now left|right; now left|discriminate|exact Q].
    - exists (leaf_message H s v), (branch_message H a b). repeat split; auto; apply in_app_iff; right; now left.
  Qed.
  Lemma collision_sym : forall la lb, collision H la lb -> collision H lb la.
  Proof. intros la lb (x & y & X & Y & N & E). exists y, x. repeat split; auto. Qed.
  Lemma leaf_inj : forall s v s' v', is_u64 (lenN s) -> is_u64 (lenN s') -> version_ok v -> version_ok v' -> leaf_message H s v = leaf_message H s' v' -> s = s' /\ v = v'.
  Proof.
    intros s v s' v' L L' V V' E. unfold leaf_message in E. apply app_inj_lenN in E as [_ E]; [|reflexivity]. apply app_inj_lenN in E as [_ E]; [|reflexivity].
    cbn [app] in E. injection E as E1 E2. split; [|now apply version_byte_inj]. rewrite <- (app_nil_r (wire_bytes s)), <- (app_nil_r (wire_bytes s')) in E2. apply bytes_split in E2 as [E2 _]; assumption.
  Qed.
  Definition proof_messages (s : bytes) (v : leaf_version) (p : list bytes) : list bytes := tag_messages ++ leaf_message H s v :: climb_messages H (H (leaf_message H s v)) p.
  Lemma sound : forall t s v p, tree_ok t -> leaf_ok (LScript s v) -> Forall hash_ok p -> climb H (H (leaf_message H s v)) p = root H t ->
    In (LScript s v, p) (paths H t) \/ (exists q h r, p = q ++ r /\ climb H (H (leaf_message H s v)) q = h /\ In (LHidden h, r) (paths H t)) \/
    collision H (proof_messages s v p) (tag_messages ++ tree_messages H t).
  Proof.
    induction t as [[s' v'|h]|l IL r IR]; intros s v p T LO PO E.
    - cbn [root leaf_root paths tree_messages] in *. destruct LO as [LS LV]. destruct T as [TS TV]. destruct p as [|x p _] using rev_ind.
      + cbn [climb fold_left] in E. destruct (bytes_dec (leaf_message H s v) (leaf_message H s' v')) as [Q|Q].
        * apply leaf_inj in Q as [-> ->]; auto. left. now left.
        * right; right. exists (leaf_message H s v), (leaf_message H s' v'). repeat split; auto; [unfold proof_messages; right; right; now left|apply in_app_iff; right; now left].
      + rewrite climb_snoc in E. right; right. symmetry in E. apply leaf_branch, collision_sym in E. eapply collision_incl; [exact E|..].
        * intros m M. apply in_app_iff in M as [M|[<-|[]]]; unfold proof_messages; [apply in_app_iff; now left|]. rewrite climb_messages_snoc. right; right; right. apply in_app_iff. right. now left.
        * intros m M. exact M.
    - right; left. exists p, h, []. rewrite app_nil_r. repeat split; [exact E|]. now left.
    - cbn [root paths tree_messages] in *. destruct T as [TL TR]. destruct p as [|x p _] using rev_ind.
      + cbn [climb fold_left] in E. right; right. apply leaf_branch in E. eapply collision_incl; [exact E|..]; intros m M; apply in_app_iff in M as [M|[<-|[]]].
        * apply in_app_iff. now left.
        * right; right. now left.
        * apply in_app_iff. now left.
        * apply in_app_iff. right. now left.
      + rewrite climb_snoc in E. apply Forall_app in PO as [PO PX]. inversion PX as [|? ? X _]; subst.
        assert (CO : hash_ok (climb H (H (leaf_message H s v)) p)) by (apply climb_ok; [exact H_ok|apply H_ok]).
        destruct (bytes_dec (branch_message H (climb H (H (leaf_message H s v)) p) x) (branch_message H (root H l) (root H r))) as [Q|Q].
        2: { right; right. eexists _, _. split; [|split; [|split; [exact Q|exact E]]]; [|apply in_app_iff; right; now left]. unfold proof_messages. rewrite climb_messages_snoc. right; right; right. apply in_app_iff. right. now left. }
        unfold branch_message in Q. apply app_inj_lenN in Q as [_ Q]; [|reflexivity]. apply app_inj_lenN in Q as [_ Q]; [|reflexivity].
        assert (UP : forall u, incl (tag_messages ++ tree_messages H u) (tag_messages ++ branch_message H (root H l) (root H r) :: tree_messages H l ++ tree_messages H r) ->
          collision H (proof_messages s v p) (tag_messages ++ tree_messages H u) -> collision H (proof_messages s v (p ++ [x])) (tag_messages ++ branch_message H (root H l) (root H r) :: tree_messages H l ++ tree_messages H r)).
        { intros u IU CC. eapply collision_incl; [exact CC| |exact IU]. unfold proof_messages. rewrite climb_messages_snoc. intros m M. apply in_app_iff in M as [M|[M|M]]; apply in_app_iff; [now left|right; now left|]. right; right. apply in_app_iff. now left. }
        apply sorted_inj in Q as [[QL QR]|[QL QR]]; auto; try (now apply root_ok).
        * destruct (IL s v p TL LO PO QL) as [I|[(q & h & r' & EP & EH & I)|CC]].
          -- left. apply in_app_iff. left. apply in_map_iff. exists (LScript s v, p). split; [unfold below; cbn; now rewrite QR|exact I].
          -- right; left. exists q, h, (r' ++ [x]). split; [rewrite EP, app_assoc; reflexivity|]. split; [exact EH|]. apply in_app_iff. left. apply in_map_iff. exists (LHidden h, r'). split; [unfold below; cbn; now rewrite QR|exact I].
          -- right; right. apply (UP l); [|exact CC]. intros m M. apply in_app_iff in M as [M|M]; apply in_app_iff; [now left|]. right; right. apply in_app_iff. now left.
        * destruct (IR s v p TR LO PO QL) as [I|[(q & h & r' & EP & EH & I)|CC]].
          -- left. apply in_app_iff. right. apply in_map_iff. exists (LScript s v, p). split; [unfold below; cbn; now rewrite QR|exact I].
          -- right; left. exists q, h, (r' ++ [x]). split; [rewrite EP, app_assoc; reflexivity|]. split; [exact EH|]. apply in_app_iff. right. apply in_map_iff. exists (LHidden h, r'). split; [unfold below; cbn; now rewrite QR|exact I].
          -- right; right. apply (UP r); [|exact CC]. intros m M. apply in_app_iff in M as [M|M]; apply in_app_iff; [now left|]. right; right. apply in_app_iff. now right.
  Qed.
End Hash.

(** * The script map *)
Definition sorted_by {A B} (cmp : A -> A -> comparison) (f : B -> A) : list B -> Prop := ForallOrdPairs (fun x y => cmp (f x) (f y) = Lt).
Lemma set_insert_in : forall s b x, In x (set_insert b s) <-> x = b \/ In x s.
Proof.
  induction s as [|y s IH]; intros b x; cbn [set_insert].
  - split; [intros [<-|[]]; auto|intros [->|[]]; now left].
  - destruct (branch_cmp b y) eqn:E.
    + apply (to_eq _ branch_order) in E as ->. split; [auto|]. intros [->|I]; [now left|exact I].
    + split; [intros [<-|I]; auto|intros [->|I]; [now left|now right]].
    + cbn [In]. rewrite IH. tauto.
Qed.
Lemma set_insert_ne : forall s b, set_insert b s <> [].
Proof. intros [|y s] b; cbn [set_insert]; [easy|]. destruct (branch_cmp b y); easy. Qed.
Definition map_sorted (m : script_map) : Prop := sorted_by key_cmp fst m.
Lemma map_get_lt : forall m k, Forall (fun e => key_cmp k (fst e) = Lt) m -> map_get m k = None.
Proof. induction m as [|[k' s] m IH]; intros k F; [reflexivity|]. inversion F; subst. cbn [map_get fst] in *. now rewrite H1, IH. Qed.
Lemma key_refl : forall k, key_cmp k k = Eq. Proof. intro k. now apply (to_eq _ key_order). Qed.
Definition set_of (o : option (list (list bytes))) : list (list bytes) := match o with Some s => s | None => [] end.
Lemma map_add_spec : forall m k b, map_sorted m -> map_sorted (map_add m k b) /\ (forall e, In e (map_add m k b) -> fst e = k \/ exists e', In e' m /\ fst e = fst e') /\
  map_get (map_add m k b) k = Some (set_insert b (set_of (map_get m k))) /\ forall k', k' <> k -> map_get (map_add m k b) k' = map_get m k'.
Proof.
  assert (NEQ : forall k k', k' <> k -> key_cmp k' k <> Eq) by (intros k k' N E; apply (to_eq _ key_order) in E; auto).
  assert (GT : forall k k', key_cmp k' k = Gt -> key_cmp k k' = Lt) by (intros k k' E; rewrite (to_opp _ key_order), E; reflexivity).
  induction m as [|[k0 s] m IH]; intros k b S; cbn [map_add map_get].
  - split; [repeat constructor|]. split; [intros e [<-|[]]; now left|]. rewrite key_refl. split; [reflexivity|]. intros k' N. specialize (NEQ _ _ N). now destruct (key_cmp k' k).
  - inversion S as [|? ? S1 S2]; subst. destruct (key_cmp k k0) eqn:E.
    + apply (to_eq _ key_order) in E as ->. split; [constructor; assumption|]. split; [intros e [<-|I]; [now left|right; exists e; split; [now right|reflexivity]]|]. cbn [map_get]. rewrite key_refl. split; [reflexivity|].
      intros k' N. specialize (NEQ _ _ N). now destruct (key_cmp k' k0).
    + split.
      { constructor; [|exact S]. constructor; [exact E|]. eapply Forall_impl; [|exact S1]. intros e L. cbn [fst] in L. exact (to_trans _ key_order _ _ _ E L). }
      split; [intros e [<-|I]; [now left|right; exists e; split; [exact I|reflexivity]]|]. cbn [map_get]. rewrite key_refl. split.
      * rewrite map_get_lt; [reflexivity|]. eapply Forall_impl; [|exact S1]. intros e L. cbn [fst] in L. exact (to_trans _ key_order _ _ _ E L).
      * intros k' N. specialize (NEQ _ _ N). now destruct (key_cmp k' k).
    + destruct (IH k b S2) as (A & B & C & D). split.
      { constructor; [|exact A]. rewrite Forall_forall in *. intros e I. cbn [fst]. destruct (B e I) as [->|(e' & I' & ->)]; [now apply GT|]. exact (S1 e' I'). }
      split.
      { intros e [<-|I]; [right; eexists; split; [now left|reflexivity]|]. destruct (B e I) as [->|(e' & I' & E')]; [now left|]. right. exists e'. split; [now right|exact E']. }
      cbn [map_get]. rewrite E. split; [exact C|]. intros k' N. rewrite (D k' N). reflexivity.
Qed.
Definition scripts_of (ls : list leaf_node) (k : script_key) (b : list bytes) : Prop := In (mk_leaf (LScript (fst k) (snd k)) b) ls.
Lemma add_leaves_spec : forall ls m, map_sorted m -> map_sorted (add_leaves m ls) /\
  forall k, (forall b, In b (set_of (map_get (add_leaves m ls) k)) <-> In b (set_of (map_get m k)) \/ scripts_of ls k b) /\
            (map_get m k <> Some [] -> map_get (add_leaves m ls) k <> Some []) /\ (map_get (add_leaves m ls) k = None <-> map_get m k = None /\ forall b, ~ scripts_of ls k b).
Proof.
  induction ls as [|[[s v|h] b0] ls IH]; intros m S; unfold add_leaves; cbn [fold_left ln_leaf ln_branch].
  - split; [exact S|]. intro k. split; [intro b; unfold scripts_of; cbn; tauto|]. split; [auto|]. split; [intro E; split; [exact E|intros b []]|tauto].
  - destruct (map_add_spec m (s, v) b0 S) as (S' & _ & GK & GO). destruct (IH (map_add m (s, v) b0) S') as (SA & AL). unfold add_leaves in SA, AL. split; [exact SA|].
    intro k. destruct (AL k) as (IN & NE & NO). clear AL.
    assert (KD : k = (s, v) \/ k <> (s, v)). { destruct (key_cmp k (s, v)) eqn:E; [left; now apply (to_eq _ key_order)|right; intros ->; rewrite key_refl in E; discriminate..]. }
    destruct KD as [->|KN].
    + rewrite GK in *. cbn [set_of] in *. split.
      { intro b. rewrite IN, set_insert_in. unfold scripts_of. cbn [fst snd In]. split; [intros [[->|I]|I]; auto|intros [I|[E|I]]; auto]. injection E as ->. auto. }
      split; [intros _; apply NE; intros [= E]; now apply set_insert_ne in E|]. rewrite NO. split; [now intros []|]. intros [_ F]. exfalso. apply (F b0). now left.
    + rewrite (GO k KN) in *. split.
      { intro b. rewrite IN. unfold scripts_of. cbn [In]. split; [intros [I|I]; auto|]. intros [I|[E|I]]; auto. exfalso. injection E as -> -> _. apply KN. now destruct k. }
      split; [exact NE|]. rewrite NO. unfold scripts_of. cbn [In]. split; intros [E F]; (split; [exact E|]); intros b I; [destruct I as [Q|I]; [injection Q as -> -> _; apply KN; now destruct k|now apply (F b)]|apply (F b); auto].
  - destruct (IH m S) as (SA & AL). unfold add_leaves in SA, AL. split; [exact SA|]. intro k. destruct (AL k) as (IN & NE & NO). split.
    { intro b. rewrite IN. unfold scripts_of. cbn [In]. split; [intros [I|I]; auto|]. intros [I|[E|I]]; auto. discriminate. }
    split; [exact NE|]. rewrite NO. unfold scripts_of. cbn [In]. split; intros [E F]; (split; [exact E|]); intros b I; [destruct I as [Q|I]; [discriminate|now apply (F b)]|apply (F b); auto].
Qed.
Lemma min_by_len_spec : forall s x, In (min_by_len x s) (x :: s) /\ forall y, In y (x :: s) -> lenN (min_by_len x s) <= lenN y.
Proof.
  induction s as [|y s IH]; intro x; cbn [min_by_len].
  - split; [now left|]. intros y [<-|[]]. lia.
  - destruct (N.ltb_spec (lenN y) (lenN x)) as [L|L].
    + destruct (IH y) as [I A]. split; [now right|]. intros z [<-|Z]; [specialize (A y (or_introl eq_refl)); lia|auto].
    + destruct (IH x) as [I A]. split; [destruct I as [E|I]; [left; exact E|right; now right]|]. intros z [<-|[<-|Z]]; [apply A; now left|specialize (A x (or_introl eq_refl)); lia|apply A; now right].
Qed.

(** * Control blocks *)
Lemma chunk32_spec : forall n b, lenN b = NODE_SIZE * N.of_nat n -> concat (chunk32 n b) = b /\ lenN (chunk32 n b) = N.of_nat n /\ Forall (fun h => lenN h = 32) (chunk32 n b).
Proof.
  unfold NODE_SIZE. induction n as [|n IH]; intros b L; cbn [chunk32 concat].
  - destruct b; [easy|]. rewrite lenN_cons in L. lia.
  - destruct (IH (dropN 32 b)) as (C & LN & F); [rewrite lenN_dropN; lia|]. unfold NODE_SIZE. change bytes with (list N) in *. rewrite C, takeN_dropN, lenN_cons, LN. split; [reflexivity|]. split; [lia|]. constructor; [rewrite lenN_takeN; lia|exact F].
Qed.
Lemma concat_32 : forall l, Forall (fun h : bytes => lenN h = 32) l -> lenN (concat l) = 32 * lenN l.
Proof. induction 1 as [|h l E F IH]; [reflexivity|]. cbn [concat]. rewrite lenN_app, lenN_cons, E, IH. lia. Qed.
Lemma chunk32_concat : forall l, Forall (fun h : bytes => lenN h = 32) l -> chunk32 (length l) (concat l) = l.
Proof.
  induction 1 as [|h l E F IH]; [reflexivity|]. cbn [concat length chunk32]. unfold NODE_SIZE. rewrite takeN_app_le, takeN_all by lia. rewrite dropN_app_ge by lia.
  replace (32 - lenN h) with 0 by lia. change (dropN 0 (concat l)) with (concat l). now rewrite IH.
Qed.
Lemma branch_decode_spec : forall b,
  match branch_decode b with
  | Ok l => concat l = b /\ lenN l <= 128 /\ Forall (fun h => lenN h = 32) l
  | Err (EBranchSize n) => n = lenN b /\ lenN b mod 32 <> 0
  | Err (ETreeDepth n) => lenN b = 32 * n /\ 128 < n
  | Err _ => False
  end.
Proof.
  intro b. unfold branch_decode, decode_err, NODE_SIZE, MAX_NODE_COUNT. destruct (N.eqb_spec (lenN b mod 32) 0) as [Z|NZ].
  - assert (LB : lenN b = 32 * N.of_nat (N.to_nat (lenN b / 32))) by lia. destruct (chunk32_spec _ b LB) as (C & LN & F).
    destruct (N.leb_spec (lenN (chunk32 (N.to_nat (lenN b / 32)) b)) 128) as [L|G]; [auto|]. rewrite N.mod_mul, N.div_mul by lia. cbn [N.eqb]. rewrite LN in *. lia.
  - destruct (N.eqb_spec (lenN b mod 32) 0); [lia|]. auto.
Qed.
Lemma branch_decode_concat : forall l, Forall (fun h => lenN h = 32) l -> lenN l <= 128 -> branch_decode (concat l) = Ok l.
Proof.
  intros l F L. unfold branch_decode, NODE_SIZE, MAX_NODE_COUNT. rewrite concat_32 by exact F. rewrite N.mul_comm, N.mod_mul by lia. cbn [N.eqb]. rewrite N.div_mul by lia.
  assert (NL : N.to_nat (lenN l) = length l) by (unfold lenN; apply Nat2N.id). change bytes with (list N) in *. rewrite NL, chunk32_concat by exact F. destruct (N.leb_spec (lenN l) 128); [reflexivity|lia].
Qed.

(** * Serde: the leaves of a node are listed as those of the tree with the smaller child first *)
Section Serde.
  Variable H : bytes -> bytes.
  Hypothesis H_ok : forall m, hash_ok (H m).
  Fixpoint canon (t : tree) : tree :=
    match t with
    | Leaf l => Leaf l
    | Branch l r => if be_val (root H r) <? be_val (root H l) then Branch (canon r) (canon l) else Branch (canon l) (canon r)
    end.
  Lemma canon_mirror : forall t, mirror t (canon t).
  Proof. induction t as [l|l IL r IR]; cbn [canon]; [constructor|]. destruct (_ <? _); now constructor. Qed.
  Lemma canon_root : forall t, tree_ok t -> root H (canon t) = root H t.
  Proof. intros t T. destruct (mirror_root H H_ok _ _ (canon_mirror t) T) as (_ & E & _). now symmetry. Qed.
  Lemma canon_nodes : forall t, tree_ok t -> nodes H (canon t) = nodes H t.
  Proof.
    induction t as [l|l IL r IR]; intro T; [reflexivity|]. destruct T as [TL TR]. cbn [canon nodes]. destruct (N.ltb_spec (be_val (root H r)) (be_val (root H l))) as [L|G]; cbn [nodes]; rewrite !canon_root by assumption; rewrite IL, IR by assumption.
    - destruct (N.ltb_spec (be_val (root H l)) (be_val (root H r))); [lia|reflexivity].
    - destruct (N.ltb_spec (be_val (root H r)) (be_val (root H l))); [lia|reflexivity].
  Qed.
  Lemma canon_hidden : forall t, hidden (canon t) = hidden t.
  Proof. induction t as [l|l IL r IR]; [reflexivity|]. cbn [canon hidden]. destruct (_ <? _); cbn [hidden]; rewrite IL, IR; [apply Bool.orb_comm|reflexivity]. Qed.
  Lemma canon_nodef : forall t, tree_ok t -> nodef H (canon t) = nodef H t.
  Proof. intros t T. unfold nodef. now rewrite canon_root, canon_nodes, canon_hidden. Qed.
  Lemma nodes_dfs : forall t d, hidden t = false -> map (fun l => (d + lenN (ln_branch l), ln_leaf l)) (nodes H t) = dfs d (canon t).
  Proof.
    assert (P : forall h d ls, map (fun l => (d + lenN (ln_branch l), ln_leaf l)) (map (push_leaf h) ls) = map (fun l => (d + 1 + lenN (ln_branch l), ln_leaf l)) ls).
    { intros h d ls. rewrite map_map. apply map_ext. intro l. unfold push_leaf. cbn [ln_branch ln_leaf]. rewrite lenN_app. change (lenN [h]) with 1. f_equal. lia. }
    induction t as [[s v|h]|l IL r IR]; intros d F; cbn [hidden nodes canon dfs] in *; [cbn [map ln_branch ln_leaf dfs]; rewrite lenN_nil, N.add_0_r; reflexivity|discriminate|].
    apply Bool.orb_false_iff in F as [FL FR]. destruct (_ <? _); cbn [dfs]; rewrite map_app, !P, IL, IR by assumption; reflexivity.
  Qed.
  Lemma visit_build : forall items b, Forall (fun x => fst x < 256) items ->
    visit H b items = match build_from H b items with
                      | Panic => Panic | Ret (Err e) => Ret (Err (SInsert e))
                      | Ret (Ok b') => match try_into_node_info b' with Panic => Panic | Ret (Ok n) => Ret (Ok n) | Ret (Err e) => Ret (Err (SIncomplete e)) end end.
  Proof.
    induction items as [|[d l] items IH]; intros b F; cbn [visit build_from]; [reflexivity|]. inversion F; subst. cbn [fst] in *. destruct (N.leb_spec 256 d); [lia|].
    change (match l with LScript s v => add_leaf_with_ver H b d s v | LHidden h => add_hidden_node H b d h end) with (add_item H b d l). destruct (add_item H b d l) as [[b'|e]|]; auto.
  Qed.
  Lemma dfs_depth : forall t d x, In x (dfs d t) -> fst x <= d + height t.
  Proof. induction t as [l|l IL r IR]; intros d x I; cbn [dfs height] in *; [destruct I as [<-|[]]; cbn [fst]; lia|]. apply in_app_iff in I as [I|I]; [apply IL in I|apply IR in I]; lia. Qed.
  Lemma serde_tree : forall t, tree_ok t -> height t <= 128 -> hidden t = false -> node_deserialize H (node_serialize (nodef H t)) = Ret (Ok (nodef H t)).
  Proof.
    intros t T HT HF. unfold node_deserialize. assert (NS : node_serialize (nodef H t) = dfs 0 (canon t)) by (rewrite <- nodes_dfs by exact HF; unfold node_serialize, nodef; cbn [ni_leaves]; apply map_ext; intro; now rewrite N.add_0_l). rewrite NS.
    destruct (mirror_root H H_ok _ _ (canon_mirror t) T) as (TC & _ & _ & HC).
    rewrite visit_build by (apply Forall_forall; intros x X; apply dfs_depth in X; lia). fold (build H (dfs 0 (canon t))). rewrite build_tree by (auto; lia). cbn [try_into_node_info]. now rewrite canon_nodef.
  Qed.
End Serde.
