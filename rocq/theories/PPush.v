(** C67: data prepared for pushing into a script. *)
From Verif Require Import Base MDec LDec MWitness MScript SScript MPush SPush PScript.
Local Open Scope N_scope.

Lemma pop_snoc : forall s b, vec_pop (s ++ [b]) = (Some b, s).
Proof.
  induction s as [|x s IH]; intro b; [reflexivity|]. cbn [app vec_pop]. rewrite IH. destruct (s ++ [b]) eqn:E; [|reflexivity].
  now destruct s.
Qed.
Lemma skip_skip : forall A (l : list A) i j, skipn i (skipn j l) = skipn (j + i) l.
Proof. intros A l i j. revert l. induction j as [|j IH]; intro l; [reflexivity|]. destruct l; [now rewrite !skipn_nil|]. apply IH. Qed.
Lemma at_split : forall A (s : list A) i, (exists x t, dropN i s = x :: t /\ s = takeN i s ++ x :: t /\ lenN (takeN i s) = i) \/ (dropN i s = [] /\ lenN s <= i).
Proof.
  intros A s i. destruct (N.lt_ge_cases i (lenN s)) as [H|H].
  - left. destruct (dropN i s) as [|x t] eqn:E.
    + pose proof (lenN_dropN i s) as L. rewrite E in L. change (lenN (@nil A)) with 0 in L. lia.
    + exists x, t. split; [reflexivity|]. split; [now rewrite <- E, takeN_dropN|]. rewrite lenN_takeN. lia.
  - right. split; [|exact H]. now apply dropN_all.
Qed.
Lemma range_split : forall A (s : list A) a b, a <= b -> b <= lenN s ->
  s = takeN a s ++ takeN (b - a) (dropN a s) ++ dropN b s /\ lenN (takeN a s) = a /\ lenN (takeN (b - a) (dropN a s)) = b - a.
Proof.
  intros A s a b H1 H2. split; [|split].
  - rewrite <- (takeN_dropN a s) at 1. f_equal. rewrite <- (takeN_dropN (b - a) (dropN a s)) at 1. f_equal.
    unfold dropN. rewrite skip_skip. f_equal. lia.
  - rewrite lenN_takeN. lia.
  - rewrite lenN_takeN, lenN_dropN. lia.
Qed.
Lemma range_app : forall A (l m r : list A), takeN (lenN l) (l ++ m ++ r) = l /\ takeN (lenN m) (dropN (lenN l) (l ++ m ++ r)) = m /\ dropN (lenN l + lenN m) (l ++ m ++ r) = r.
Proof.
  intros A l m r. split; [|split].
  - rewrite takeN_app_le by lia. apply takeN_all. lia.
  - rewrite dropN_app_ge by lia. rewrite N.sub_diag, dropN_0, takeN_app_le by lia. apply takeN_all. lia.
  - rewrite app_assoc, dropN_app_ge by (rewrite lenN_app; lia). rewrite lenN_app, N.sub_diag. apply dropN_0.
Qed.
Lemma into_range_spec : forall n lo hi, n <= LIMIT ->
  match into_range n lo hi with Some (a, b) => a = from lo /\ b = upto n hi /\ a <= b /\ b <= n | None => ~ inside n lo hi end.
Proof.
  intros n lo hi L. unfold LIMIT in L. unfold into_range, inside.
  destruct lo as [x|x|], hi as [y|y|]; cbn [from upto]; unfold USIZE_MAX;
    repeat match goal with |- context[?a =? ?b] => destruct (N.eqb_spec a b) end;
    repeat match goal with |- context[(?a <=? ?b) && (?c <=? ?d)] => destruct (N.leb_spec a b), (N.leb_spec c d); cbn [andb] end; lia.
Qed.

Lemma step_does : forall s o, len s <= LIMIT -> op_ok o -> does s o (fst (pb_step s o)) (snd (pb_step s o)).
Proof.
  intros s o L K. change (len s) with (lenN s) in L. destruct o as [b|bs| |i| |n|i b|lo hi bs]; cbn [pb_step op_ok] in *.
  - unfold check_limit, saturating_add, USIZE_MAX. rewrite N.min_l by (unfold LIMIT in L; lia).
    destruct (N.ltb_spec (lenN s + 1) 4294967296) as [H|H]; cbn [fst snd]; constructor; change (len s) with (lenN s); unfold LIMIT; lia.
  - unfold check_limit, saturating_add, USIZE_MAX. destruct K as [K _]. change (len bs) with (lenN bs) in K. rewrite N.min_l by (unfold LIMIT in L; lia).
    destruct (N.ltb_spec (lenN s + lenN bs) 4294967296) as [H|H]; cbn [fst snd]; constructor; change (len s) with (lenN s); change (len bs) with (lenN bs); unfold LIMIT; lia.
  - destruct s as [|x s _] using rev_ind; [constructor|]. rewrite pop_snoc. cbn [fst snd]. constructor.
  - destruct (at_split _ s i) as [(x & t & E & D & F)|(E & F)]; rewrite E; cbn [fst snd]; [|now constructor].
    rewrite D at 1. rewrite <- F at 2. constructor.
  - constructor.
  - cbn [fst snd]. destruct (N.le_gt_cases (lenN s) n) as [H|H].
    + rewrite takeN_all by exact H. now constructor.
    + rewrite <- (takeN_dropN n s) at 1. assert (F : n = len (takeN n s)) by (change len with (@lenN N); rewrite lenN_takeN; lia).
      rewrite F at 3. constructor.
  - destruct (at_split _ s i) as [(x & t & E & D & F)|(E & F)]; rewrite E; cbn [fst snd]; [|now constructor].
    rewrite D at 1. rewrite <- F at 2. constructor.
  - pose proof (into_range_spec (lenN s) lo hi L) as R. destruct (into_range (lenN s) lo hi) as [[a b]|].
    + destruct R as (A & B & AB & BL). destruct (N.eqb_spec (lenN bs) (b - a)) as [E|E]; cbn [fst snd].
      * destruct (range_split _ s a b AB BL) as (D & F & G). rewrite D at 1. constructor.
        { change len with (@lenN N). lia. } { change len with (@lenN N). lia. }
        rewrite <- D. change len with (@lenN N). rewrite F, G. lia.
      * constructor. change (len s) with (lenN s). change (len bs) with (lenN bs). intros [_ X]. lia.
    + constructor. change (len s) with (lenN s). tauto.
Qed.
Lemma does_keeps : forall s o a t, does s o a t -> op_ok o -> len s <= LIMIT -> bytes_ok s -> len t <= LIMIT /\ bytes_ok t.
Proof.
  assert (A : forall (x y : bytes), len (x ++ y) = len x + len y) by (intros; apply lenN_app).
  intros s o a t D. destruct D; cbn [op_ok]; rewrite ?A; intros K L B; (split; [try (unfold len in *; cbn [length] in *; lia)|]); auto;
    unfold bytes_ok in *; rewrite ?Forall_app in *; try tauto.
  - split; [exact B|]. repeat constructor. exact K.
  - destruct B as [B1 B2]. inversion B2. auto.
  - constructor.
  - destruct B as [B1 B2]. inversion B2. split; [exact B1|]. constructor; [exact (proj2 K)|auto].
Qed.

(** Every history of calls, from any buffer: the answers and the contents are those of a byte string that never
    exceeds 2^32 - 1 bytes; a refused or panicking call changes nothing. *)
Theorem C67_history : forall os s l u, len s <= LIMIT -> bytes_ok s -> Forall op_ok os -> pb_run s os = (l, u) ->
  history s os l u /\ len u <= LIMIT /\ bytes_ok u.
Proof.
  induction os as [|o os IH]; intros s l u L B F E; cbn [pb_run] in E.
  - injection E as <- <-. split; [constructor|auto].
  - inversion F as [|? ? K F']; subst. pose proof (step_does s o L K) as D. destruct (pb_step s o) as [a t]. cbn [fst snd] in D.
    destruct (pb_run t os) as [l' u'] eqn:E'. injection E as <- <-. destruct (does_keeps _ _ _ _ D K L B) as [L' B'].
    destruct (IH t l' u' L' B' F' E') as (H & R). split; [econstructor; eauto|exact R].
Qed.
(** The specification leaves no freedom: a call has one answer and one effect. *)
Lemma app_cut : forall (l l' r r' : bytes), l ++ r = l' ++ r' -> len l = len l' -> l = l' /\ r = r'.
Proof.
  induction l as [|x l IH]; intros [|y l'] r r' E L; unfold len in L; cbn [length app] in *; try lia; [auto|].
  injection E as -> E. destruct (IH l' r r' E) as [-> ->]; [unfold len; lia|auto].
Qed.
Lemma does_unique : forall s o a t, does s o a t -> forall a' t', does s o a' t' -> a = a' /\ t = t'.
Proof.
  assert (A : forall (x y : bytes), len (x ++ y) = len x + len y) by (intros; apply lenN_app).
  assert (AC : forall (x : N) (y : bytes), len (x :: y) = len y + 1) by (intros; unfold len; cbn [length]; lia).
  intros s o a t D a' t' D'. destruct D; inversion D'; subst; try lia; auto;
    repeat match goal with H : len ?x = len ?y, E : ?x ++ _ = ?y ++ _ |- _ => destruct (app_cut _ _ _ _ E H) as [? ?]; clear E; subst end;
    repeat match goal with H : _ :: _ = _ :: _ |- _ => injection H as ? ?; subst end; auto.
  all: rewrite ?A, ?AC in *; try lia.
  - match goal with H : _ ++ [_] = _ ++ [_] |- _ => apply app_inj_tail in H as [-> ->] end. auto.
  - match goal with H : [] = _ ++ [_] |- _ => symmetry in H; apply app_eq_nil in H as [_ H]; discriminate end.
  - match goal with H : _ ++ [_] = [] |- _ => apply app_eq_nil in H as [_ H]; discriminate end.
  - assert (len r = 0) by lia. destruct r; [now rewrite app_nil_r|rewrite AC in *; lia].
  - assert (len r = 0) by lia. destruct r; [now rewrite app_nil_r|rewrite AC in *; lia].
  - match goal with E : ?x ++ ?y ++ ?z = _ ++ _ ++ _ |- _ => apply app_cut in E as [E1 E2]; [|lia]; apply app_cut in E2 as [E2 E3]; [|lia]; subst end. auto.
  - match goal with E : ~ _ |- _ => exfalso; apply E; unfold inside; rewrite ?A in *; lia end.
  - match goal with E : ~ _ |- _ => exfalso; apply E; unfold inside; rewrite ?A in *; lia end.
Qed.
Theorem C67_unique : forall os s l u l' u', history s os l u -> history s os l' u' -> l = l' /\ u = u'.
Proof.
  intros os s l u l' u' H. revert l' u'. induction H as [s|s o a t os l u D H IH]; intros l' u' H'; inversion H'; subst; [auto|].
  match goal with X : does s o ?a' ?t' |- _ => destruct (does_unique _ _ _ _ D _ _ X) as [<- <-] end.
  match goal with X : history t os ?a' ?t' |- _ => destruct (IH _ _ X) as [<- <-] end. auto.
Qed.

(** Ways in: a slice or vector is taken as it is, or refused with its length; arrays up to 76 bytes always fit. *)
Theorem C67_start : forall b, (len b <= LIMIT -> pb_try_from b = Ok b) /\ (LIMIT < len b -> pb_try_from b = Err (len b)) /\
  (forall a, pb_from_array b = Some a -> a = b /\ len a <= LIMIT).
Proof.
  intro b. change (len b) with (lenN b). unfold pb_try_from, check_limit, pb_from_array, LIMIT. split; [|split].
  - intro H. destruct (N.ltb_spec (lenN b) 4294967296); [reflexivity|lia].
  - intro H. destruct (N.ltb_spec (lenN b) 4294967296); [lia|reflexivity].
  - intros a. destruct (N.leb_spec (lenN b) 76) as [H|H]; [|discriminate]. intros [= <-]. split; [reflexivity|]. change (len b) with (lenN b). lia.
Qed.
(** Indexing by a range of any kind: the bytes between the bounds, as push data again; panics exactly when the
    range does not lie in the buffer. *)
Theorem C67_range : forall s lo hi, len s <= LIMIT ->
  (forall m, pb_index_range s lo hi = Ret m <-> exists l r, s = l ++ m ++ r /\ from lo = len l /\ upto (len s) hi = len l + len m) /\
  (pb_index_range s lo hi = Panic <-> ~ inside (len s) lo hi) /\ (forall m, pb_index_range s lo hi = Ret m -> len m <= LIMIT).
Proof.
  intros s lo hi L. pose proof (into_range_spec (len s) lo hi L) as R. change len with (@lenN N) in *.
  assert (M : forall m, pb_index_range s lo hi = Ret m <-> exists l r, s = l ++ m ++ r /\ from lo = lenN l /\ upto (lenN s) hi = lenN l + lenN m).
  { intro m. unfold pb_index_range. destruct (into_range (lenN s) lo hi) as [[a b]|].
    - destruct R as (A & B & AB & BL). destruct (range_split _ s a b AB BL) as (D & F & G). split.
      + intros [= <-]. exists (takeN a s), (dropN b s). split; [exact D|]. rewrite F, G. lia.
      + intros (l & r & E & X & Y). f_equal. destruct (range_app _ l m r) as (P1 & P2 & P3). rewrite E.
        replace a with (lenN l) by lia. replace (b - lenN l) with (lenN m) by lia. exact P2.
    - split; [discriminate|]. intros (l & r & E & X & Y). exfalso. apply R. unfold inside. split; [lia|].
      rewrite Y, E, !lenN_app. lia. }
  split; [exact M|]. split.
  - unfold pb_index_range. destruct (into_range (lenN s) lo hi) as [[a b]|].
    + split; [discriminate|]. intro H. exfalso. apply H. unfold inside. lia.
    + split; auto.
  - intros m E. apply M in E as (l & r & E & _). rewrite E, !lenN_app in L. lia.
Qed.
(** Indexing by a position: that byte, or a panic past the end. *)
Theorem C67_index : forall l b r i, pb_index (l ++ b :: r) (len l) = Ret b /\ (len l <= i -> pb_index l i = Panic).
Proof.
  intros l b r i. unfold pb_index. change len with (@lenN N). split.
  - rewrite dropN_app_ge by lia. now rewrite N.sub_diag, dropN_0.
  - intro H. now rewrite dropN_all.
Qed.
(** Whatever was done to a buffer, what it holds can be pushed: the script then reads back with exactly one more
    instruction, which pushes it. *)
Theorem C67_pushed : forall os b s l u script ins, pb_try_from b = Ok s -> bytes_ok b -> Forall op_ok os -> pb_run s os = (l, u) ->
  bytes_ok script -> instructions script = Ret (map Ok ins) ->
  exists i, pushed i = Some u /\ instructions (sb_push_slice script u) = Ret (map Ok (ins ++ [i])) /\
    instructions (sb_push_slice_non_minimal script u) = Ret (map Ok (ins ++ [PushBytes u])).
Proof.
  intros os b s l u script ins E B F R SB I. destruct (C67_start b) as (X & Y & _).
  assert (LB : len b <= LIMIT). { destruct (N.le_gt_cases (len b) LIMIT) as [H|H]; [exact H|]. rewrite (Y H) in E. discriminate. }
  rewrite (X LB) in E. injection E as <-. destruct (C67_history os b l u LB B F R) as (_ & LU & BU).
  assert (LU' : lenN u < 2 ^ 32). { change (len u) with (lenN u) in LU. unfold LIMIT in LU. lia. }
  destruct (C13_push_slice script ins u SB BU LU' I) as (i & e & _ & _ & _ & P & Q & _). exists i. split; [exact P|]. split; [exact Q|].
  now destruct (C13_push_slice_non_minimal script ins u SB BU LU' I) as (e' & _ & _ & Z).
Qed.

(** ** Examples *)
Definition ex_ops : list op := [OPush 1; OExtend [2; 3; 4]; ORemove 1; OPop; ORemove 7; OSet 0 9; OWrite (Included 1) Unbounded [8]; OWrite (Excluded 5) Unbounded [8]; OTruncate 1].
Example C67_ex_run : pb_run [] ex_ops =
  ([Done; Done; Byte (Some 2); Byte (Some 4); Panicked; Done; Done; Panicked; Done], [9]) /\ Forall op_ok ex_ops.
Proof. split; [vm_compute; reflexivity|]. repeat constructor. Qed.
Example C67_ex_full : forall s, len s = LIMIT -> does s (OPush 1) (Refused (2 ^ 32)) s.
Proof. intros s H. change (2 ^ 32) with (LIMIT + 1). rewrite <- H. constructor. lia. Qed.
Example C67_ex_range : pb_index_range [1; 2; 3; 4] (Included 1) (Included 2) = Ret [2; 3] /\ pb_index_range [1; 2] (Included 2) Unbounded = Ret [] /\
  pb_index_range [1; 2] (Included 2) (Excluded 1) = Panic.
Proof. repeat split. Qed.
Example C67_ex_pushed : pb_try_from [7] = Ok [7] /\ instructions [81] = Ret (map Ok [Op 81]) /\ snd (pb_run [7] [OPush 8]) = [7; 8].
Proof. repeat split. Qed.
Print Assumptions C67_history.
Print Assumptions C67_unique.
Print Assumptions C67_start.
Print Assumptions C67_range.
Print Assumptions C67_index.
Print Assumptions C67_pushed.
