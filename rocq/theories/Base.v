(** Common notations and small libraries used by the whole development.
    Nothing here models code of /repo except where a citation is given. *)
From Coq Require Export List NArith ZArith Lia Bool Arith.
From Coq Require Export ZifyBool ZifyNat ZifyN.
Export ListNotations.

Ltac Zify.zify_post_hook ::= Z.div_mod_to_equations.

(** Rust's [Result<A, E>]. *)
Inductive result (A E : Type) : Type :=
| Ok (a : A)
| Err (e : E).
Arguments Ok {A E} _.
Arguments Err {A E} _.

(** A Rust computation that may panic (failed [assert!], [expect], slice index out of
    range, or arithmetic overflow with overflow checks on). *)
Inductive rust (A : Type) : Type :=
| Ret (a : A)
| Panic.
Arguments Ret {A} _.
Arguments Panic {A}.

Definition rbind {A B} (m : rust A) (f : A -> rust B) : rust B :=
  match m with Ret a => f a | Panic => Panic end.

Definition is_ok {A E} (r : result A E) : bool :=
  match r with Ok _ => true | Err _ => false end.

(** A byte is an [N] below 256, a byte string a list of bytes. *)
Definition byte := N.
Definition bytes := list N.
Definition byte_ok (b : N) : Prop := (b < 256)%N.
Definition bytes_ok (l : bytes) : Prop := Forall byte_ok l.

Definition lenN {A} (l : list A) : N := N.of_nat (length l).

(** Destruct every [if] condition and [match] scrutinee in sight. *)
Ltac destr_if :=
  match goal with
  | |- context [if ?c then _ else _] => destruct c eqn:?
  | H : context [if ?c then _ else _] |- _ => destruct c eqn:?
  end.

Ltac inv H := inversion H; subst; clear H.

Lemma bytes_ok_app : forall a b, bytes_ok (a ++ b) <-> bytes_ok a /\ bytes_ok b.
Proof. intros; apply Forall_app. Qed.

Lemma bytes_ok_cons : forall x l, bytes_ok (x :: l) <-> byte_ok x /\ bytes_ok l.
Proof. intros; split; intro H; [inv H; auto | destruct H; constructor; auto]. Qed.

Lemma bytes_ok_nil : bytes_ok [].
Proof. constructor. Qed.

Lemma bytes_ok_firstn : forall n l, bytes_ok l -> bytes_ok (firstn n l).
Proof.
  intros n l H. rewrite <- (firstn_skipn n l) in H.
  apply bytes_ok_app in H; tauto.
Qed.

Lemma bytes_ok_skipn : forall n l, bytes_ok l -> bytes_ok (skipn n l).
Proof.
  intros n l H. rewrite <- (firstn_skipn n l) in H.
  apply bytes_ok_app in H; tauto.
Qed.

(** Little-endian encoding of [v] on [n] bytes ([to_le_bytes] of Rust) and back. *)
Fixpoint le_bytes (n : nat) (v : N) : bytes :=
  match n with
  | O => []
  | S n' => (v mod 256)%N :: le_bytes n' (v / 256)%N
  end.

Fixpoint le_val (l : bytes) : N :=
  match l with
  | [] => 0%N
  | b :: l' => (b + 256 * le_val l')%N
  end.

Definition be_bytes (n : nat) (v : N) : bytes := rev (le_bytes n v).
Definition be_val (l : bytes) : N := le_val (rev l).

Lemma le_bytes_length : forall n v, length (le_bytes n v) = n.
Proof. induction n; simpl; intros; auto. Qed.

Lemma le_bytes_ok : forall n v, bytes_ok (le_bytes n v).
Proof.
  induction n; intros; cbn [le_bytes]; constructor.
  - unfold byte_ok. apply N.mod_lt. lia.
  - apply IHn.
Qed.

Lemma le_val_bytes : forall n v, (v < 256 ^ N.of_nat n)%N -> le_val (le_bytes n v) = v.
Proof.
  induction n; intros v H.
  - simpl in *. lia.
  - cbn [le_bytes le_val]. rewrite Nat2N.inj_succ, N.pow_succ_r' in H.
    rewrite IHn.
    + pose proof (N.div_mod v 256). lia.
    + apply N.div_lt_upper_bound; lia.
Qed.

Lemma le_bytes_val : forall l, bytes_ok l -> le_bytes (length l) (le_val l) = l.
Proof.
  induction l; intros H; [reflexivity|].
  apply bytes_ok_cons in H as [Ha Hl]. unfold byte_ok in Ha.
  cbn [length le_bytes le_val].
  assert (E1 : ((a + 256 * le_val l) mod 256 = a)%N).
  { rewrite N.mul_comm, N.mod_add by lia. apply N.mod_small; auto. }
  assert (E2 : ((a + 256 * le_val l) / 256 = le_val l)%N).
  { rewrite N.mul_comm, N.div_add by lia. rewrite N.div_small by auto. lia. }
  rewrite E1, E2, IHl by auto. reflexivity.
Qed.

Lemma le_val_lt : forall l, bytes_ok l -> (le_val l < 256 ^ lenN l)%N.
Proof.
  unfold lenN. induction l; intros H.
  - simpl. lia.
  - apply bytes_ok_cons in H as [Ha Hl]. unfold byte_ok in Ha.
    cbn [length le_val]. rewrite Nat2N.inj_succ, N.pow_succ_r'.
    specialize (IHl Hl). lia.
Qed.

Lemma le_val_app : forall a b, le_val (a ++ b) = (le_val a + 256 ^ lenN a * le_val b)%N.
Proof.
  unfold lenN. induction a; intros; cbn [app length le_val].
  - rewrite N.pow_0_r. lia.
  - rewrite IHa, Nat2N.inj_succ, N.pow_succ_r'. lia.
Qed.

Lemma lenN_app : forall A (a b : list A), lenN (a ++ b) = (lenN a + lenN b)%N.
Proof. intros; unfold lenN; rewrite app_length; lia. Qed.

Lemma lenN_nil : forall A, @lenN A [] = 0%N.
Proof. reflexivity. Qed.

Lemma lenN_cons : forall A (x : A) l, lenN (x :: l) = (1 + lenN l)%N.
Proof. intros; unfold lenN; simpl length; lia. Qed.

Lemma skipn_app_exact : forall A (a b : list A) n, length a = n -> skipn n (a ++ b) = b.
Proof.
  intros; subst. rewrite skipn_app, skipn_all, Nat.sub_diag. reflexivity.
Qed.

Lemma firstn_app_exact : forall A (a b : list A) n, length a = n -> firstn n (a ++ b) = a.
Proof.
  intros; subst. rewrite firstn_app, firstn_all, Nat.sub_diag. simpl. apply app_nil_r.
Qed.
