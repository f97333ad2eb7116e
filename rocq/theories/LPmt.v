(** Lemmas about partial Merkle trees. *)
From Verif Require Import Base MDec LDec MTx MMerkle MPmt SMerkle SPmt LMerkle.
Local Open Scope N_scope.

Lemma pow1 : forall h, 1 <= 2 ^ h.
Proof. intro h. pose proof (N.pow_nonzero 2 h). lia. Qed.
Lemma pow_S : forall h, 2 ^ (h + 1) = 2 * 2 ^ h.
Proof. intro h. rewrite N.add_1_r, N.pow_succ_r'. reflexivity. Qed.
Lemma lt_nodes : forall n h pos, pos < nodes_at n h <-> pos * 2 ^ h < n.
Proof.
  intros n h pos. unfold nodes_at. pose proof (pow1 h). set (d := 2 ^ h) in *. clearbody d.
  pose proof (N.div_mod (n + d - 1) d ltac:(lia)) as E. pose proof (N.mod_lt (n + d - 1) d ltac:(lia)).
  set (q := (n + d - 1) / d) in *. set (m := (n + d - 1) mod d) in *. clearbody q m. split; intro K; nia.
Qed.
Lemma pow_lt : forall a b, 2 ^ a < 2 ^ b -> a < b.
Proof. intros a b H. apply N.pow_lt_mono_r_iff in H; lia. Qed.
Lemma width_ret : forall n h, n + 2 ^ h < U32 -> calc_tree_width n h = Ret (nodes_at n h).
Proof.
  intros n h H. unfold calc_tree_width. assert (h < 32) by (apply pow_lt; change (2 ^ 32) with U32; lia).
  destruct (N.leb_spec 32 h); [lia|]. destruct (N.leb_spec U32 (n + 2 ^ h)); [lia|reflexivity].
Qed.
Lemma height_spec : forall n h, tree_height n h -> n <= 2 ^ h /\ (h = 0 \/ 2 ^ (h - 1) < n) /\ 1 <= n.
Proof.
  intros n h [H1 H2]. split; [|split].
  - pose proof (lt_nodes n h 1). lia.
  - destruct (N.eq_dec h 0); [auto|right]. specialize (H2 (h - 1) ltac:(lia)). pose proof (lt_nodes n (h - 1) 1). lia.
  - pose proof (lt_nodes n h 0). lia.
Qed.
Lemma height_unique : forall n h k, tree_height n h -> tree_height n k -> h = k.
Proof.
  intros n h k [A1 A2] [B1 B2]. destruct (N.lt_trichotomy h k) as [K|[K|K]]; auto; exfalso.
  - specialize (B2 h K). lia.
  - specialize (A2 k K). lia.
Qed.
Lemma height_loop_ret : forall fuel n h, 1 <= n < 2 ^ 31 -> h <= 31 -> N.of_nat fuel + h = 33 -> (forall k, k < h -> 2 <= nodes_at n k) ->
  exists H, height_loop fuel n h = Ret H /\ tree_height n H /\ H <= 31.
Proof.
  induction fuel as [|fuel IH]; intros n h Hn Hh Hf Hk; [cbn in Hf; lia|]. cbn [height_loop].
  assert (P : 2 ^ h <= 2 ^ 31) by (apply N.pow_le_mono_r; lia).
  rewrite width_ret by (unfold U32; change (2 ^ 31) with 2147483648 in *; lia). cbn [rbind].
  destruct (N.ltb_spec 1 (nodes_at n h)) as [K|K].
  - assert (L : 1 * 2 ^ h < n) by (apply lt_nodes; exact K). assert (h < 31) by (apply pow_lt; lia).
    destruct (IH n (h + 1)) as (hh & E & TH & LH); try lia.
    + intros k Hk'. destruct (N.eq_dec k h) as [->|]; [lia|apply Hk; lia].
    + now exists hh.
  - exists h. split; [reflexivity|]. split; [|exact Hh]. split; [|exact Hk]. pose proof (lt_nodes n h 0). lia.
Qed.
Lemma tree_height_ret : forall n, 1 <= n < 2 ^ 31 -> exists H, calc_tree_height n = Ret H /\ tree_height n H /\ H <= 31.
Proof. intros n Hn. apply height_loop_ret; auto; try lia. Qed.
Lemma height_loop_panic : forall fuel n h, 2 ^ 31 <= n < 2 ^ 32 -> height_loop fuel n h = Panic.
Proof.
  induction fuel as [|fuel IH]; intros n h Hn; [reflexivity|]. cbn [height_loop]. unfold calc_tree_width.
  destruct (N.leb_spec 32 h); [reflexivity|]. destruct (N.leb_spec U32 (n + 2 ^ h)); [reflexivity|]. cbn [rbind].
  change ((n + 2 ^ h - 1) / 2 ^ h) with (nodes_at n h).
  assert (K : 1 < nodes_at n h). { apply lt_nodes. change (2 ^ 31) with 2147483648 in *. unfold U32 in *. destruct (N.eq_dec h 31) as [->|]; [change (2 ^ 31) with 2147483648 in *; lia|].
    assert (2 ^ h <= 2 ^ 30) by (apply N.pow_le_mono_r; lia). change (2 ^ 30) with 1073741824 in *. lia. }
  destruct (N.ltb_spec 1 (nodes_at n h)); [apply IH; exact Hn|lia].
Qed.

(** *** indexing *)
Lemma get_drop : forall {A} i (l : list A), get i l = match dropN i l with x :: _ => Some x | [] => None end.
Proof.
  intros A i l. unfold get, dropN. generalize (N.to_nat i) as k. intro k. revert l. induction k; destruct l; cbn [nth_error skipn]; auto.
Qed.
Definition starts {A} (i : N) (l x : list A) : Prop := exists t, dropN i l = x ++ t.
Lemma dropN_add : forall {A} i j (l : list A), dropN (i + j) l = dropN j (dropN i l).
Proof.
  intros A i j l. unfold dropN. rewrite N2Nat.inj_add. generalize (N.to_nat i), (N.to_nat j). intros a b. revert l.
  induction a; intros l; [reflexivity|]. destruct l; cbn [skipn plus]; [now rewrite skipn_nil|apply IHa].
Qed.
Lemma dropN_pre : forall {A} (x t : list A), dropN (lenN x) (x ++ t) = t.
Proof. intros. unfold dropN, lenN. rewrite Nat2N.id, skipn_app, skipn_all, Nat.sub_diag. reflexivity. Qed.
Lemma starts_app : forall {A} i (l a b : list A), starts i l (a ++ b) <-> starts i l a /\ starts (i + lenN a) l b.
Proof.
  intros A i l a b. unfold starts. split.
  - intros (t & E). rewrite dropN_add, E, <- app_assoc, dropN_pre. split; [now exists (b ++ t)|now exists t].
  - intros ((t & E) & (u & F)). rewrite dropN_add, E, dropN_pre in F. exists u. now rewrite E, F, app_assoc.
Qed.
Lemma starts_one : forall {A} i (l : list A) x, starts i l [x] <-> get i l = Some x.
Proof.
  intros A i l x. rewrite get_drop. unfold starts. split.
  - intros (t & ->). reflexivity.
  - destruct (dropN i l) as [|y t]; [discriminate|]. intros [= ->]. now exists t.
Qed.
Lemma starts_cons : forall {A} i (l : list A) x b, starts i l (x :: b) <-> get i l = Some x /\ starts (i + 1) l b.
Proof. intros. change (x :: b) with ([x] ++ b). rewrite starts_app, starts_one. reflexivity. Qed.

Section Pmt.
Context {T : Type} (combine : T -> T -> T).

Notation next := (next_level combine).
Lemma next_nth : forall l k, nth_error (next l) k =
  match nth_error l (2 * k)%nat with
  | None => None
  | Some a => Some (combine a (match nth_error l (2 * k + 1)%nat with Some b => b | None => a end))
  end.
Proof.
  induction l as [|x|x y l IH] using list_ind2; intro k.
  - cbn [next_level]. destruct k; [reflexivity|]. replace (2 * S k)%nat with (S (S (2 * k))) by lia. reflexivity.
  - cbn [next_level]. destruct k; [reflexivity|]. replace (2 * S k)%nat with (S (S (2 * k))) by lia. cbn [nth_error]. now destruct k.
  - cbn [next_level]. destruct k; [reflexivity|]. replace (2 * S k + 1)%nat with (S (S (2 * k + 1))) by lia.
    replace (2 * S k)%nat with (S (S (2 * k))) by lia. cbn [nth_error]. apply IH.
Qed.
(** node [pos] of level [h] *)
Definition node (l : list T) (h : nat) (pos : N) : option T := get pos (level_up combine h l).
Lemma node_S : forall l h pos, node l (S h) pos =
  match node l h (2 * pos) with
  | None => None
  | Some a => Some (combine a (match node l h (2 * pos + 1) with Some b => b | None => a end))
  end.
Proof.
  intros l h pos. unfold node. rewrite level_up_S. unfold get. rewrite next_nth.
  replace (N.to_nat (2 * pos)) with (2 * N.to_nat pos)%nat by lia. replace (N.to_nat (2 * pos + 1)) with (2 * N.to_nat pos + 1)%nat by lia. reflexivity.
Qed.
Lemma node_some : forall l h pos, node l h pos <> None <-> pos * 2 ^ N.of_nat h < lenN l.
Proof.
  intros l h. induction h as [|h IH]; intro pos.
  - change (2 ^ N.of_nat 0) with 1. unfold node, get. cbn [level_up]. rewrite nth_error_Some. unfold lenN. lia.
  - rewrite node_S. replace (N.of_nat (S h)) with (N.of_nat h + 1) by lia. rewrite pow_S. specialize (IH (2 * pos)).
    replace (pos * (2 * 2 ^ N.of_nat h)) with (2 * pos * 2 ^ N.of_nat h) by lia. rewrite <- IH.
    destruct (node l h (2 * pos)); split; intros; congruence.
Qed.
Lemma node_none : forall l h pos, lenN l <= pos * 2 ^ N.of_nat h -> node l h pos = None.
Proof. intros l h pos H. destruct (node l h pos) eqn:E; [|reflexivity]. exfalso. assert (K : node l h pos <> None) by congruence. apply node_some in K. lia. Qed.
Lemma node_ex : forall l h pos, pos * 2 ^ N.of_nat h < lenN l -> exists x, node l h pos = Some x.
Proof. intros l h pos H. apply node_some in H. destruct (node l h pos); [eauto|congruence]. Qed.
Lemma ofS : forall h, N.of_nat (S h) = N.of_nat h + 1.
Proof. intro. lia. Qed.

(** positions at the level below *)
Lemma below : forall n h pos, pos * 2 ^ (h + 1) < n -> 2 * pos * 2 ^ h < n /\ pos * 2 + 1 <= n.
Proof. intros n h pos H. rewrite pow_S in H. pose proof (pow1 h). split; [nia|]. assert (pos * 2 <= pos * (2 * 2 ^ h)) by nia. lia. Qed.

Lemma calc_hash_ret : forall l h pos, lenN l + 2 ^ N.of_nat h < U32 -> pos * 2 ^ N.of_nat h < lenN l ->
  exists x, calc_hash combine (lenN l) l h pos = Ret x /\ node l h pos = Some x.
Proof.
  intros l h. induction h as [|h IH]; intros pos Hw Hp.
  - destruct (node_ex l 0 pos Hp) as (x & E). exists x. split; [|exact E]. cbn [calc_hash]. unfold node in E. cbn [level_up] in E. now rewrite E.
  - cbn [calc_hash]. rewrite ofS in *. destruct (below _ _ _ Hp) as [B1 B2]. rewrite pow_S in Hw. pose proof (pow1 (N.of_nat h)).
    destruct (N.leb_spec U32 (pos * 2 + 1)); [lia|]. rewrite (N.mul_comm pos 2). destruct (IH (2 * pos) ltac:(lia) B1) as (a & E1 & F1).
    rewrite E1. cbn [rbind]. rewrite width_ret by lia. cbn [rbind]. rewrite node_S, F1.
    destruct (N.ltb_spec (2 * pos + 1) (nodes_at (lenN l) (N.of_nat h))) as [K|K].
    + apply lt_nodes in K. destruct (IH (2 * pos + 1) ltac:(lia) K) as (b & E2 & F2). rewrite E2, F2. cbn [rbind]. eauto.
    + pose proof (lt_nodes (lenN l) (N.of_nat h) (2 * pos + 1)) as L. rewrite node_none by lia. cbn [rbind]. eauto.
Qed.

Definition slice {A} (lo hi : N) (l : list A) : list A := takeN (hi - lo) (dropN lo l).
Lemma slice_app : forall {A} lo mid hi (l : list A), lo <= mid -> mid <= hi -> slice lo hi l = slice lo mid l ++ slice mid hi l.
Proof.
  intros A lo mid hi l H1 H2. unfold slice. replace mid with (lo + (mid - lo)) at 3 by lia. rewrite dropN_add.
  generalize (dropN lo l) as m. intro m. unfold takeN, dropN. replace (N.to_nat (hi - lo)) with (N.to_nat (mid - lo) + N.to_nat (hi - mid))%nat by lia.
  generalize (N.to_nat (mid - lo)), (N.to_nat (hi - mid)). intros a b. clear. revert m. induction a; intro m; [reflexivity|]. destruct m; cbn [plus firstn skipn app]; [now rewrite firstn_nil|]. now rewrite IHa.
Qed.
Lemma slice_len : forall {A} lo hi (l : list A), hi <= lenN l -> lenN (slice lo hi l) = hi - lo.
Proof. intros A lo hi l H. unfold slice. rewrite lenN_takeN, lenN_dropN. lia. Qed.
Lemma slice_one : forall {A} i (l : list A) x, get i l = Some x -> slice i (i + 1) l = [x].
Proof. intros A i l x H. unfold slice. replace (i + 1 - i) with 1 by lia. rewrite get_drop in H. destruct (dropN i l); [discriminate|]. injection H as ->. reflexivity. Qed.
Lemma marked_app : forall a b i (a' : list T) b', length a = length b -> marked i (a ++ a') (b ++ b') = marked i a b ++ marked (i + lenN a) a' b'.
Proof.
  induction a as [|x a IH]; intros [|m b] i a' b' H; try discriminate; cbn [marked app].
  - now rewrite N.add_0_r.
  - rewrite IH by (cbn in H; lia). replace (i + lenN (x :: a)) with (i + 1 + lenN a) by (rewrite lenN_cons; lia). apply app_assoc.
Qed.
Lemma marked_nil : forall a b i, length a = length b -> (@marked T i a b = [] <-> existsb (fun m => m) b = false).
Proof.
  induction a as [|x a IH]; intros [|m b] i H; try discriminate; cbn [marked existsb]; [tauto|].
  destruct m; cbn [orb app]; [split; discriminate|]. apply IH. cbn in H. lia.
Qed.
Lemma found_nil : forall (t : ptree T) p q, found p t = [] -> found q t = [].
Proof.
  induction t as [x|x|l IHl r IHr|l IHl]; intros p q H; cbn [found] in *; auto; [discriminate| |eauto].
  apply app_eq_nil in H as [H1 H2]. now rewrite (IHl _ (2 * q) H1), (IHr _ (2 * q + 1) H2).
Qed.

(** every node of [t] is the node of the tree over [l] *)
Fixpoint agrees (l : list T) (t : ptree T) (h : nat) (pos : N) : Prop :=
  node l h pos = Some (proot combine t) /\
  match t with
  | PBoth a b => exists h', h = S h' /\ agrees l a h' (2 * pos) /\ agrees l b h' (2 * pos + 1)
  | POne a => exists h', h = S h' /\ agrees l a h' (2 * pos)
  | _ => True
  end.
Lemma agrees_root : forall l t h pos, agrees l t h pos -> node l h pos = Some (proot combine t).
Proof. intros l [] h pos H; apply H. Qed.
Section Build.
Variable txids : list T.
Variable marks : list bool.
Hypothesis Hlen : length txids = length marks.
Notation n := (lenN txids).
Notation top h pos := (N.min ((pos + 1) * 2 ^ h) n).

Lemma parent_ret : forall h pos, n + 2 ^ h < U32 -> pos * 2 ^ h < n ->
  parent_of_match n marks h pos = Ret (existsb (fun b => b) (slice (pos * 2 ^ h) (top h pos) marks)).
Proof using Hlen.
  intros h pos Hw Hp. unfold parent_of_match. assert (h < 32) by (apply pow_lt; change (2 ^ 32) with U32; lia). pose proof (pow1 h).
  destruct (N.leb_spec 32 h); [lia|]. assert (pos + 1 <= n) by nia. destruct (N.leb_spec U32 (pos + 1)); [lia|]. cbv zeta.
  rewrite !N.mod_small by lia. assert (E : lenN marks = n) by (unfold lenN; lia).
  destruct (N.leb_spec (top h pos) (pos * 2 ^ h)); [lia|]. destruct (N.ltb_spec (lenN marks) (top h pos)); [lia|]. reflexivity.
Qed.
Lemma build_ret : forall h pos s, n + 2 ^ N.of_nat h < U32 -> pos * 2 ^ N.of_nat h < n ->
  exists t, traverse_and_build combine n txids marks h pos s = Ret (fst s ++ flags t, snd s ++ shown t) /\
    fits n (N.of_nat h) pos t /\ agrees txids t h pos /\ lean t /\
    found pos t = marked (pos * 2 ^ N.of_nat h) (slice (pos * 2 ^ N.of_nat h) (top (N.of_nat h) pos) txids)
                                                (slice (pos * 2 ^ N.of_nat h) (top (N.of_nat h) pos) marks).
Proof using Hlen.
  assert (Hmarks : lenN marks = n) by (unfold lenN; lia).
  assert (SL : forall lo hi, hi <= n -> length (slice lo hi txids) = length (slice lo hi marks)).
  { intros lo hi K. apply Nat2N.inj. fold (lenN (slice lo hi txids)) (lenN (slice lo hi marks)). rewrite !slice_len; lia. }
  induction h as [|h IH]; intros pos s Hw Hp.
  - cbn [traverse_and_build]. rewrite parent_ret by exact Hw || exact Hp. cbn [rbind]. change (2 ^ N.of_nat 0) with 1 in *. change (2 ^ 0) with 1 in *. rewrite !N.mul_1_r in *.
    destruct (calc_hash_ret txids 0 pos ltac:(change (2 ^ N.of_nat 0) with 1; lia) ltac:(change (2 ^ N.of_nat 0) with 1; lia)) as (x & E & F). rewrite E. cbn [rbind].
    replace (N.min (pos + 1) n) with (pos + 1) by lia.
    assert (G : get pos txids = Some x) by (unfold node in F; cbn [level_up] in F; exact F).
    assert (exists m, get pos marks = Some m) as (m & M). { unfold get. destruct (nth_error marks (N.to_nat pos)) eqn:K; [eauto|]. apply nth_error_None in K. unfold lenN in *. lia. }
    rewrite (slice_one _ _ _ G), (slice_one _ _ _ M). cbn [existsb marked app]. rewrite orb_false_r.
    destruct m.
    + exists (PLeaf x). cbn [flags shown proot found lean]. repeat split; auto. constructor.
    + exists (PHash x). cbn [flags shown proot found lean]. repeat split; auto. constructor.
  - cbn [traverse_and_build]. rewrite parent_ret by exact Hw || exact Hp. cbn [rbind]. set (m := existsb _ _) in *.
    pose proof (marked_nil (slice (pos * 2 ^ N.of_nat (S h)) (top (N.of_nat (S h)) pos) txids) (slice (pos * 2 ^ N.of_nat (S h)) (top (N.of_nat (S h)) pos) marks) (pos * 2 ^ N.of_nat (S h)) ltac:(apply SL; lia)) as MN.
    fold m in MN. destruct m eqn:Em; cbn [negb].
    + rewrite ofS in *. destruct (below _ _ _ Hp) as [B1 B2]. rewrite pow_S in *. pose proof (pow1 (N.of_nat h)).
      set (d := 2 ^ N.of_nat h) in *.
      destruct (N.leb_spec U32 (pos * 2 + 1)); [lia|]. rewrite (N.mul_comm pos 2).
      destruct (IH (2 * pos) (fst s ++ [true], snd s) ltac:(lia) B1) as (tl & E1 & F1 & N1 & L1 & M1). rewrite E1. cbn [rbind fst snd].
      rewrite width_ret by (fold d; lia). cbn [rbind].
      assert (MNE : marked (pos * (2 * d)) (slice (pos * (2 * d)) (N.min ((pos + 1) * (2 * d)) n) txids) (slice (pos * (2 * d)) (N.min ((pos + 1) * (2 * d)) n) marks) <> []) by (intro K; apply MN in K; discriminate).
      destruct (N.ltb_spec (2 * pos + 1) (nodes_at n (N.of_nat h))) as [K|K].
      * pose proof K as K0. apply lt_nodes in K0. fold d in K0.
        destruct (IH (2 * pos + 1) ((fst s ++ [true]) ++ flags tl, snd s ++ shown tl) ltac:(lia) K0) as (tr & E2 & F2 & N2 & L2 & M2).
        rewrite E2. cbn [rbind fst snd]. exists (PBoth tl tr). fold d in M1, M2.
        assert (FND : found pos (PBoth tl tr) = marked (pos * (2 * d)) (slice (pos * (2 * d)) (N.min ((pos + 1) * (2 * d)) n) txids) (slice (pos * (2 * d)) (N.min ((pos + 1) * (2 * d)) n) marks)).
        { cbn [found]. rewrite M1, M2. replace (N.min ((2 * pos + 1) * d) n) with ((2 * pos + 1) * d) by lia.
          replace (2 * pos * d) with (pos * (2 * d)) by lia. replace (N.min ((2 * pos + 1 + 1) * d) n) with (N.min ((pos + 1) * (2 * d)) n) by lia.
          assert (X : (2 * pos + 1) * d <= N.min ((pos + 1) * (2 * d)) n) by nia. assert (Y : pos * (2 * d) <= (2 * pos + 1) * d) by nia.
          rewrite (slice_app (pos * (2 * d)) ((2 * pos + 1) * d) (N.min ((pos + 1) * (2 * d)) n) txids) by lia.
          rewrite (slice_app (pos * (2 * d)) ((2 * pos + 1) * d) (N.min ((pos + 1) * (2 * d)) n) marks) by lia.
          rewrite marked_app by (apply SL; lia). rewrite slice_len by lia. do 2 f_equal. lia. }
        rewrite <- FND in MNE. split; [|split; [|split; [|split]]].
        -- cbn [flags shown]. rewrite <- !app_assoc. reflexivity.
        -- constructor; auto.
        -- split; [rewrite node_S, (agrees_root _ _ _ _ N1), (agrees_root _ _ _ _ N2); reflexivity|]. eauto.
        -- cbn [lean]. split; [|split; assumption]. cbn [found] in MNE. destruct (found 0 tl) eqn:Z1; [|left; discriminate]. right. intro Z2. apply MNE.
           now rewrite (found_nil _ _ (2 * pos) Z1), (found_nil _ _ (2 * pos + 1) Z2).
        -- exact FND.
      * exists (POne tl). fold d in M1. pose proof (lt_nodes n (N.of_nat h) (2 * pos + 1)) as LN. fold d in LN.
        assert (FND : found pos (POne tl) = marked (pos * (2 * d)) (slice (pos * (2 * d)) (N.min ((pos + 1) * (2 * d)) n) txids) (slice (pos * (2 * d)) (N.min ((pos + 1) * (2 * d)) n) marks)).
        { cbn [found]. rewrite M1. replace (2 * pos * d) with (pos * (2 * d)) by lia.
          replace (N.min ((2 * pos + 1) * d) n) with (N.min ((pos + 1) * (2 * d)) n) by nia. reflexivity. }
        rewrite <- FND in MNE. split; [|split; [|split; [|split]]].
        -- cbn [flags shown]. rewrite <- !app_assoc. reflexivity.
        -- constructor; auto.
        -- split; [rewrite node_S, (agrees_root _ _ _ _ N1); rewrite node_none by (fold d; lia); reflexivity|]. eauto.
        -- cbn [lean]. split; [|assumption]. cbn [found] in MNE. intro Z. apply MNE. now rewrite (found_nil _ _ (2 * pos) Z).
        -- exact FND.
    + destruct (calc_hash_ret txids (S h) pos Hw Hp) as (x & E & F). rewrite E. cbn [rbind]. exists (PHash x). cbn [flags shown proot found lean].
      split; [reflexivity|]. split; [constructor|]. split; [split; [exact F|exact I]|]. split; [exact I|]. symmetry. now apply MN.
Qed.
End Build.

(** *** extraction *)
Context (eqb : T -> T -> bool) (eqb_spec : forall a b, eqb a b = true <-> a = b).
Lemma fits_len : forall n h pos (t : ptree T), fits n h pos t -> 1 <= lenN (flags t) /\ lenN (flags t) + 1 <= 2 * 2 ^ h /\ 1 <= lenN (shown t) <= 2 ^ h /\ lenN (shown t) <= lenN (flags t).
Proof.
  clear eqb_spec eqb combine. intros n h pos t F. induction F as [h pos x|pos x|h pos l r K Fl IHl Fr IHr|h pos l K Fl IHl]; cbn [flags shown]; rewrite ?pow_S.
  - pose proof (pow1 h). change (lenN [false]) with 1. change (lenN [x]) with 1. lia.
  - change (2 ^ 0) with 1. change (lenN [true]) with 1. change (lenN [x]) with 1. lia.
  - rewrite lenN_cons, !lenN_app. lia.
  - rewrite lenN_cons. pose proof (pow1 h). lia.
Qed.
Definition adv (s : ext) (pos : N) (t : ptree T) : ext :=
  {| bits_used := bits_used s + lenN (flags t); hash_used := hash_used s + lenN (shown t);
     e_matches := e_matches s ++ map snd (found pos t); e_indexes := e_indexes s ++ map fst (found pos t) |}.
Lemma ext_eq : forall (s s' : @ext T), bits_used s = bits_used s' -> hash_used s = hash_used s' -> e_matches s = e_matches s' -> e_indexes s = e_indexes s' -> s = s'.
Proof. intros [] []; cbn. intros; congruence. Qed.
Lemma distinct_dec : forall t, distinct combine t \/ ~ distinct combine t.
Proof using eqb_spec.
  induction t as [x|x|l IHl r IHr|l IHl]; cbn [distinct]; auto.
  destruct (eqb (proot combine l) (proot combine r)) eqn:E; [right; intros [K _]; apply K; now apply eqb_spec|].
  assert (proot combine l <> proot combine r) by (intro K; apply eqb_spec in K; congruence). tauto.
Qed.

Definition room (s : @ext T) (h : N) : Prop := bits_used s + 2 * 2 ^ h <= U32 /\ hash_used s + 2 ^ h < U32.
Lemma room_l : forall s h, room s (h + 1) -> room {| bits_used := bits_used s + 1; hash_used := hash_used s; e_matches := e_matches s; e_indexes := e_indexes s |} h.
Proof. clear eqb_spec eqb combine. intros s h [A B]. rewrite pow_S in *. pose proof (pow1 h). split; cbn [bits_used hash_used]; lia. Qed.
Lemma room_r : forall n s h pos t, room s (h + 1) -> fits n h pos t ->
  room (adv {| bits_used := bits_used s + 1; hash_used := hash_used s; e_matches := e_matches s; e_indexes := e_indexes s |} pos t) h.
Proof. clear eqb_spec eqb combine. intros n s h pos t [A B] F. apply fits_len in F. rewrite pow_S in *. unfold room, adv. cbn [bits_used hash_used]. lia. Qed.

(** what a successful traversal has read *)
Lemma trav_sound : forall p h pos s, pm_num p + 2 ^ N.of_nat h < U32 -> pos * 2 ^ N.of_nat h < pm_num p -> room s (N.of_nat h) ->
  exists s' r, traverse_and_extract eqb combine p h pos s = Ret (s', r) /\
    match r with
    | Ok x => exists t, fits (pm_num p) (N.of_nat h) pos t /\ distinct combine t /\ proot combine t = x /\
                starts (bits_used s) (pm_bits p) (flags t) /\ starts (hash_used s) (pm_hashes p) (shown t) /\ s' = adv s pos t
    | Err e => e = MbBitsOverflow \/ e = MbHashesOverflow \/ e = MbIdentical
    end.
Proof using eqb_spec.
  intros p h. induction h as [|h IH]; intros pos s Hw Hp Hr.
  - cbn [traverse_and_extract]. destruct (get (bits_used s) (pm_bits p)) as [m|] eqn:G; [|eexists _, (Err _); split; [reflexivity|auto]].
    destruct Hr as [R1 R2]. change (2 ^ N.of_nat 0) with 1 in *.
    destruct (N.leb_spec U32 (bits_used s + 1)); [lia|]. cbv zeta. cbn [hash_used bits_used e_matches e_indexes andb].
    destruct (get (hash_used s) (pm_hashes p)) as [x|] eqn:Gh; [|eexists _, (Err _); split; [reflexivity|auto]].
    destruct (N.leb_spec U32 (hash_used s + 1)); [lia|]. eexists _, (Ok _). split; [reflexivity|].
    destruct m.
    + exists (PLeaf x). cbn [flags shown proot distinct found]. rewrite !starts_one. repeat split; auto; try constructor.
    + exists (PHash x). cbn [flags shown proot distinct found]. rewrite !starts_one. repeat split; auto; try constructor. apply ext_eq; cbn [bits_used hash_used e_matches e_indexes adv found map]; auto using app_nil_r; now rewrite app_nil_r.
  - cbn [traverse_and_extract]. destruct (get (bits_used s) (pm_bits p)) as [m|] eqn:G; [|eexists _, (Err _); split; [reflexivity|auto]].
    rewrite ofS in *. pose proof Hr as [R1 R2]. rewrite pow_S in R1, R2, Hw. pose proof (pow1 (N.of_nat h)).
    destruct (N.leb_spec U32 (bits_used s + 1)); [lia|]. cbv zeta. cbn [hash_used bits_used e_matches e_indexes andb].
    destruct m; cbn [negb].
    + destruct (below _ _ _ Hp) as [B1 B2]. destruct (N.leb_spec U32 (pos * 2 + 1)); [lia|]. rewrite (N.mul_comm pos 2).
      pose proof (room_l s _ Hr) as RL. set (s1 := {| bits_used := bits_used s + 1; hash_used := _; e_matches := _; e_indexes := _ |}) in *.
      destruct (IH (2 * pos) s1 ltac:(lia) B1 RL) as (s2 & r2 & E2 & P2). rewrite E2. cbn [rbind].
      destruct r2 as [lft|e]; [|eexists _, (Err _); split; [reflexivity|exact P2]].
      destruct P2 as (tl & F1 & D1 & Q1 & S1 & S1h & ->). rewrite width_ret by lia. cbn [rbind].
      destruct (N.ltb_spec (2 * pos + 1) (nodes_at (pm_num p) (N.of_nat h))) as [K|K].
      * pose proof K as K0. apply lt_nodes in K0. pose proof (room_r _ s _ _ _ Hr F1) as RR. fold s1 in RR.
        destruct (IH (2 * pos + 1) (adv s1 (2 * pos) tl) ltac:(lia) K0 RR) as (s3 & r3 & E3 & P3). rewrite E3. cbn [rbind].
        destruct r3 as [rgt|e]; [|eexists _, (Err _); split; [reflexivity|exact P3]].
        destruct P3 as (tr & F2 & D2 & Q2 & S2 & S2h & ->).
        destruct (eqb rgt lft) eqn:EQ; [eexists _, (Err _); split; [reflexivity|auto]|].
        eexists _, (Ok _). split; [reflexivity|]. exists (PBoth tl tr). cbn [flags shown proot distinct]. rewrite starts_cons, !starts_app.
        split; [constructor; auto|]. split; [split; [|auto]|].
        { rewrite Q1, Q2. intro K1. symmetry in K1. apply eqb_spec in K1. congruence. }
        split; [now rewrite Q1, Q2|]. split; [split; [exact G|split; [exact S1|exact S2]]|]. split; [split; [exact S1h|exact S2h]|].
        apply ext_eq; cbn [adv bits_used hash_used e_matches e_indexes s1 flags shown found]; rewrite ?lenN_cons, ?lenN_app, ?map_app, ?app_assoc; auto; lia.
      * eexists _, (Ok _). split; [reflexivity|]. exists (POne tl). cbn [flags shown proot distinct]. rewrite starts_cons.
        split; [constructor; auto|]. split; [exact D1|]. split; [now rewrite Q1|]. split; [split; [exact G|exact S1]|]. split; [exact S1h|].
        apply ext_eq; cbn [adv bits_used hash_used e_matches e_indexes s1 flags shown found]; rewrite ?lenN_cons; auto; lia.
    + destruct (get (hash_used s) (pm_hashes p)) as [x|] eqn:Gh; [|eexists _, (Err _); split; [reflexivity|auto]].
      destruct (N.leb_spec U32 (hash_used s + 1)); [lia|]. eexists _, (Ok _). split; [reflexivity|].
      exists (PHash x). cbn [flags shown proot distinct found]. rewrite !starts_one. repeat split; auto; try constructor.
      apply ext_eq; cbn [bits_used hash_used e_matches e_indexes adv found map]; auto; now rewrite app_nil_r.
Qed.

(** a written tree is read back *)
Lemma trav_complete : forall p h pos t s, pm_num p + 2 ^ h < U32 -> pos * 2 ^ h < pm_num p -> room s h -> fits (pm_num p) h pos t ->
  starts (bits_used s) (pm_bits p) (flags t) -> starts (hash_used s) (pm_hashes p) (shown t) ->
  (distinct combine t -> traverse_and_extract eqb combine p (N.to_nat h) pos s = Ret (adv s pos t, Ok (proot combine t))) /\
  (~ distinct combine t -> exists s', traverse_and_extract eqb combine p (N.to_nat h) pos s = Ret (s', Err MbIdentical)).
Proof using eqb_spec.
  intros p h pos t s Hw Hp Hr F. revert s Hw Hp Hr. induction F as [h pos x|pos x|h pos l r K Fl IHl Fr IHr|h pos l K Fl IHl]; intros s Hw Hp Hr SB SH.
  - split; [intros _|cbn [distinct]; tauto]. cbn [flags shown] in *. apply starts_one in SB, SH. destruct Hr as [R1 R2]. pose proof (pow1 h).
    assert (E : {| bits_used := bits_used s + 1; hash_used := hash_used s + 1; e_matches := e_matches s; e_indexes := e_indexes s |} = adv s pos (PHash x)).
    { apply ext_eq; cbn [bits_used hash_used e_matches e_indexes adv found map]; auto; now rewrite app_nil_r. }
    destruct (N.to_nat h); cbn [traverse_and_extract]; rewrite SB; cbv zeta; cbn [hash_used bits_used e_matches e_indexes andb negb];
      (destruct (N.leb_spec U32 (bits_used s + 1)); [lia|]); rewrite SH; (destruct (N.leb_spec U32 (hash_used s + 1)); [lia|]); now rewrite E.
  - split; [intros _|cbn [distinct]; tauto]. cbn [flags shown] in *. apply starts_one in SB, SH. destruct Hr as [R1 R2]. change (2 ^ 0) with 1 in *.
    cbn [N.to_nat traverse_and_extract]. rewrite SB; cbv zeta; cbn [hash_used bits_used e_matches e_indexes andb negb].
    destruct (N.leb_spec U32 (bits_used s + 1)); [lia|]. rewrite SH. destruct (N.leb_spec U32 (hash_used s + 1)); [lia|]. reflexivity.
  - cbn [flags shown] in SB, SH. apply starts_cons in SB as [SB1 SB]. apply starts_app in SB as [SB2 SB3]. apply starts_app in SH as [SH2 SH3].
    destruct (below _ _ _ Hp) as [B1 B2]. pose proof (room_l s _ Hr) as RL. pose proof (room_r _ s _ _ _ Hr Fl) as RR.
    set (s1 := {| bits_used := bits_used s + 1; hash_used := _; e_matches := _; e_indexes := _ |}) in *.
    rewrite pow_S in Hw. pose proof (pow1 h).
    replace (N.to_nat (h + 1)) with (S (N.to_nat h)) by lia. cbn [traverse_and_extract]. rewrite SB1. cbv zeta. cbn [negb]. fold s1.
    destruct (N.leb_spec U32 (bits_used s + 1)). { destruct Hr as [R1 R2]. rewrite pow_S in R1. lia. }
    destruct (N.leb_spec U32 (pos * 2 + 1)); [lia|]. rewrite (N.mul_comm pos 2).
    destruct (IHl s1 ltac:(lia) B1 RL SB2 SH2) as [I1 I2]. pose proof K as K0. apply lt_nodes in K0.
    destruct (distinct_dec l) as [Dl|Dl].
    + rewrite (I1 Dl). cbn [rbind]. rewrite N2Nat.id, width_ret by lia. cbn [rbind]. destruct (N.ltb_spec (2 * pos + 1) (nodes_at (pm_num p) h)); [|lia].
      destruct (IHr (adv s1 (2 * pos) l) ltac:(lia) K0 RR SB3 SH3) as [J1 J2]. destruct (distinct_dec r) as [Dr|Dr].
      * rewrite (J1 Dr). cbn [rbind]. destruct (eqb (proot combine r) (proot combine l)) eqn:EQ.
        -- split; [|intros _; eexists; reflexivity]. cbn [distinct]. intros [C _]. apply eqb_spec in EQ. congruence.
        -- split; [intros _|]. { match goal with |- Ret (?a, _) = Ret (?b, _) => assert (a = b) as ->; [|reflexivity] end. apply ext_eq; cbn [adv bits_used hash_used e_matches e_indexes s1 flags shown found]; rewrite ?lenN_cons, ?lenN_app, ?map_app, ?app_assoc; auto; lia. }
           intro C. exfalso. apply C. cbn [distinct]. split; [|tauto]. intro C'. symmetry in C'. apply eqb_spec in C'. congruence.
      * destruct (J2 Dr) as (s' & E). rewrite E. cbn [rbind]. split; [cbn [distinct]; tauto|eauto].
    + destruct (I2 Dl) as (s' & E). rewrite E. cbn [rbind]. split; [cbn [distinct]; tauto|eauto].
  - cbn [flags shown] in SB, SH. apply starts_cons in SB as [SB1 SB2].
    destruct (below _ _ _ Hp) as [B1 B2]. pose proof (room_l s _ Hr) as RL.
    set (s1 := {| bits_used := bits_used s + 1; hash_used := _; e_matches := _; e_indexes := _ |}) in *.
    rewrite pow_S in Hw. pose proof (pow1 h).
    replace (N.to_nat (h + 1)) with (S (N.to_nat h)) by lia. cbn [traverse_and_extract]. rewrite SB1. cbv zeta. cbn [negb]. fold s1.
    destruct (N.leb_spec U32 (bits_used s + 1)). { destruct Hr as [R1 R2]. rewrite pow_S in R1. lia. }
    destruct (N.leb_spec U32 (pos * 2 + 1)); [lia|]. rewrite (N.mul_comm pos 2).
    destruct (IHl s1 ltac:(lia) B1 RL SB2 SH) as [I1 I2]. split.
    + intro D. rewrite (I1 D). cbn [rbind]. rewrite N2Nat.id, width_ret by lia. cbn [rbind]. destruct (N.ltb_spec (2 * pos + 1) (nodes_at (pm_num p) h)); [lia|].
      match goal with |- Ret (?a, _) = Ret (?b, _) => assert (a = b) as ->; [|reflexivity] end. apply ext_eq; cbn [adv bits_used hash_used e_matches e_indexes s1 flags shown found]; rewrite ?lenN_cons; auto; lia.
    + intro D. destruct (I2 D) as (s' & E). rewrite E. cbn [rbind]. eauto.
Qed.
End Pmt.
