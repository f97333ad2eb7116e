(** C42: vectors of bounded capacity refine lists. *)
From Verif Require Import Base MDec MArrayVec SArrayVec LArrayVec.
Local Open Scope N_scope.

(** Any history of operations on a new vector gives what the list operations give, with the same visible results; it panics
    exactly where the list operation exceeds the capacity or an index, and never reads uninitialised memory ([UB]). *)
Theorem C42_history : forall T c (os : list (op T)),
  match list_ops c [] os with
  | Some (l, ss) => exists v, vec_ops (av_new c) os = Done (v, ss) /\ as_slice v = Done l /\ lenN l <= c /\ cap v = c
  | None => vec_ops (av_new c) os = Panicked
  end.
Proof.
  intros T c os. pose proof (ops_spec c os [] (av_new c) (new_holds c)) as P. destruct (list_ops c [] os) as [[l ss]|]; [|exact P]. destruct P as (v & E & HV). exists v. split; [exact E|].
  split; [exact (holds_slice _ _ _ HV)|]. split; [exact (holds_le _ _ _ HV)|]. destruct HV as (_ & _ & _ & C). exact C.
Qed.
(** The same from a slice, which must fit. *)
Theorem C42_from_slice : forall T c (s : list T) os,
  if lenN s <=? c then
    exists v0, av_from_slice c s = Done v0 /\
    match list_ops c s os with
    | Some (l, ss) => exists v, vec_ops v0 os = Done (v, ss) /\ as_slice v = Done l /\ lenN l <= c /\ cap v = c
    | None => vec_ops v0 os = Panicked
    end
  else av_from_slice c s = Panicked.
Proof.
  intros T c s os. pose proof (from_slice_spec c s) as F. destruct (lenN s <=? c); [|exact F]. destruct F as (v0 & E0 & H0). exists v0. split; [exact E0|].
  pose proof (ops_spec c os s v0 H0) as P. destruct (list_ops c s os) as [[l ss]|]; [|exact P]. destruct P as (v & E & HV). exists v. split; [exact E|].
  split; [exact (holds_slice _ _ _ HV)|]. split; [exact (holds_le _ _ _ HV)|]. destruct HV as (_ & _ & _ & C). exact C.
Qed.
(** Equality and order look only at the contents, not at capacities or at what is left in the unused cells. *)
Theorem C42_equality : forall T (eqb : T -> T -> bool), (forall x y, eqb x y = true <-> x = y) -> forall v w a b, as_slice v = Done a -> as_slice w = Done b ->
  exists r, av_eqb eqb v w = Done r /\ (r = true <-> a = b).
Proof.
  intros T eqb EQ v w a b A B. unfold av_eqb. rewrite A, B. cbn [mbind]. eexists. split; [reflexivity|]. clear A B v w. revert b. induction a as [|x a IH]; intros [|y b]; cbn [slice_eqb]; try easy.
  rewrite Bool.andb_true_iff, EQ, IH. split; [intros [-> ->]; reflexivity|intro E; injection E as -> ->; auto].
Qed.
(** The order is lexicographic: the first difference decides, and a proper prefix is smaller. *)
Inductive lex {T} (lt : T -> T -> Prop) : list T -> list T -> Prop :=
| lex_prefix : forall l x r, lex lt l (l ++ x :: r)
| lex_differ : forall l x y r s, lt x y -> lex lt (l ++ x :: r) (l ++ y :: s).
Theorem C42_order : forall T (cmp : T -> T -> comparison), (forall x y, cmp x y = Eq <-> x = y) -> (forall x y, cmp x y = CompOpp (cmp y x)) ->
  forall v w a b, as_slice v = Done a -> as_slice w = Done b ->
  exists r, av_cmp cmp v w = Done r /\ match r with Eq => a = b | Lt => lex (fun x y => cmp x y = Lt) a b | Gt => lex (fun x y => cmp x y = Lt) b a end.
Proof.
  intros T cmp CE CO v w a b A B. unfold av_cmp. rewrite A, B. cbn [mbind]. eexists. split; [reflexivity|]. clear A B v w.
  assert (UP : forall lt x (l m : list T), lex lt l m -> lex lt (x :: l) (x :: m)).
  { intros lt x l m L. inversion L; subst; [exact (lex_prefix lt (x :: l) x0 r)|exact (lex_differ lt (x :: l0) x0 y r s H)]. }
  revert b. induction a as [|x a IH]; intros [|y b]; cbn [slice_cmp]; [reflexivity|exact (lex_prefix _ [] y b)|exact (lex_prefix _ [] x a)|].
  destruct (cmp x y) eqn:C; [apply CE in C as ->|exact (lex_differ _ [] x y a b C)|].
  - specialize (IH b). destruct (slice_cmp cmp a b); [now subst|now apply UP..].
  - apply (lex_differ _ [] y x b a). rewrite CO, C. reflexivity.
Qed.
(** Deserializing a sequence: it is accepted exactly when it fits (and its size hint does not say otherwise). *)
Theorem C42_serde : forall T c hint (items : list T),
  match hint with Some h => c < h | None => False end /\ (exists h, hint = Some h /\ visit_seq c hint items = Done (Err h)) \/
  match hint with Some h => h <= c | None => True end /\
    (lenN items <= c /\ (exists v, visit_seq c hint items = Done (Ok v) /\ as_slice v = Done items /\ cap v = c) \/ c < lenN items /\ visit_seq c hint items = Done (Err (c + 1))).
Proof.
  intros T c hint items.
  assert (R : visit_seq c hint items = visit_items (av_new c) items -> lenN items <= c /\ (exists v, visit_seq c hint items = Done (Ok v) /\ as_slice v = Done items /\ cap v = c) \/ c < lenN items /\ visit_seq c hint items = Done (Err (c + 1))).
  { intro E. rewrite E. pose proof (visit_spec c items [] (av_new c) (new_holds c)) as P. rewrite lenN_nil, N.add_0_l in P. destruct (N.leb_spec (lenN items) c) as [LE|GT]; [left|right; auto]. split; [exact LE|].
    destruct P as (v & Q & HV). exists v. split; [exact Q|]. split; [exact (holds_slice _ _ _ HV)|]. destruct HV as (_ & _ & _ & C). exact C. }
  unfold visit_seq in *. destruct hint as [h|]; [destruct (N.ltb_spec c h)|].
  - left. split; [assumption|]. eauto.
  - right. auto.
  - right. auto.
Qed.

Example C42_ex : list_ops 2 [] [OPush 5; OTryPush 6; OTryPush 7; OSet 0 9; OLook; OPop; OExtend [1]; OClone; OLook; OTruncate 1; OLook] =
  Some ([9], [SNone; STry (Ok tt); STry (Err 2); SNone; SLook [9; 6]; SPop (Some 6); SNone; SNone; SLook [9; 1]; SNone; SLook [9]]) /\ list_ops 1 [] [OPush 5; OPush 6] = None.
Proof. split; reflexivity. Qed.
Example C42_ex_order : (forall x y, N.compare x y = Eq <-> x = y) /\ (forall x y, N.compare x y = CompOpp (N.compare y x)).
Proof. split; [intros; apply N.compare_eq_iff|intros; apply N.compare_antisym]. Qed.
Example C42_ex_slice : exists v : avec N, as_slice v = Done [1; 2] /\ cap v = 3.
Proof. destruct (C42_from_slice N 3 [1; 2] []) as (v & _ & w & _ & E & _ & C). exists w. split; assumption. Qed.

Print Assumptions C42_history.
Print Assumptions C42_from_slice.
Print Assumptions C42_equality.
Print Assumptions C42_order.
Print Assumptions C42_serde.
