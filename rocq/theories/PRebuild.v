(** Property C13, continued: taking a script apart and putting it together again
    (fuzz/fuzz_targets/bitcoin/arbitrary_script.rs:37-56 asserts the first theorem on random scripts).
    Model: MScript.v.  Specification: SScript.v. *)
From Coq Require Import Lia.
From Verif Require Import Base MDec MWitness MAmount MTx MTxSize SWire MScript SScript LScript LScript2 LScriptNum LScript3.
Local Open Scope N_scope.

(** A builder fed one instruction after the other: opcodes as they are, data through the optimising push
    or through the plain one. *)
Definition rebuild (push : bytes -> bytes -> bytes) (l : list instr) : bytes :=
  fold_left (fun s i => match i with Op op => sb_push_opcode s op | PushBytes d => push s d end) l [].

Lemma rebuild_min : forall l, rebuild sb_push_slice l = fold_left sb_push_instruction l [].
Proof. reflexivity. Qed.
Lemma rebuild_nm : forall l, rebuild sb_push_slice_non_minimal l = fold_left sb_push_instruction_no_opt l [].
Proof. reflexivity. Qed.

(** Whatever the minimal iterator reads in full is rebuilt byte for byte, by either kind of push. *)
Theorem C13_rebuild : forall s l, bytes_ok s -> instructions_minimal s = Ret (map Ok l) ->
  rebuild sb_push_slice_non_minimal l = s /\ rebuild sb_push_slice l = s.
Proof.
  intros s l Hs R. assert (B : built true s l) by (apply built_reads; auto).
  destruct B as (_ & es & -> & F). destruct (fold_rebuild l es F Hs []) as [E1 E2]. rewrite rebuild_min, rebuild_nm. auto.
Qed.
Print Assumptions C13_rebuild.

Lemma push_enc : forall i e s, encodes i e -> exists i' e', sb_push_instruction s i = s ++ e' /\ good true i' e' /\
  pushed i' = pushed i /\ (length e' <= length e)%nat /\ (length e' = length e -> good true i e).
Proof.
  intros i e s En. destruct i as [d|op].
  - pose proof (encodes_len _ _ En) as Hl. cbn [sb_push_instruction].
    assert (A : exists e', sb_push_slice s d = s ++ e' /\ encodes (canon d) e' /\ shortest (canon d) e').
    { rewrite push_slice_cases. unfold canon. destruct (special d) eqn:Sp.
      - exists [special_op d]. split; [reflexivity|]. split; [|apply shortest_op]. constructor. destruct (special_push d Sp). lia.
      - destruct (push_no_opt_enc s d Hl) as (e' & E1 & E2 & _ & E3). exists e'. auto. }
    destruct A as (e' & A1 & A2 & A3). exists (canon d), e'. split; [exact A1|]. split; [split; auto|].
    split; [rewrite canon_pushed; reflexivity|].
    pose proof (A3 d (PushBytes d) e (canon_pushed d) eq_refl En) as Le. split; [exact Le|].
    intro Eq. split; [exact En|]. intros _ d' i2 e2 P P2 En2. cbn [pushed] in P. injection P as <-.
    rewrite <- Eq. exact (A3 d i2 e2 (canon_pushed d) P2 En2).
  - exists (Op op), e. inversion En; subst. split; [reflexivity|].
    assert (G : good true (Op op) [op]) by (split; [exact En|intros _; apply shortest_op]).
    split; [exact G|]. split; [reflexivity|]. split; [lia|auto].
Qed.

Lemma rebuild_shrinks : forall l es, Forall2 (good false) l es -> forall s, exists es' l',
  fold_left sb_push_instruction l s = s ++ concat es' /\ Forall2 (good true) l' es' /\ map pushed l' = map pushed l /\
  (length (concat es') <= length (concat es))%nat /\
  (length (concat es') = length (concat es) -> Forall2 (good true) l es).
Proof.
  intros l es F. induction F as [|i e l es G F IH]; intro s.
  - exists [], []. cbn [fold_left concat]. rewrite app_nil_r. split; [reflexivity|]. split; [constructor|]. auto.
  - destruct G as [En _]. destruct (push_enc i e s En) as (i' & e' & E & G' & P & L & Q).
    cbn [fold_left]. rewrite E. destruct (IH (s ++ e')) as (es' & l' & -> & F' & Pl & Ll & Ql).
    exists (e' :: es'), (i' :: l'). cbn [concat map]. rewrite app_assoc. split; [reflexivity|].
    split; [constructor; auto|]. split; [congruence|]. rewrite !app_length. split; [lia|].
    intro H. constructor; [apply Q; lia|apply Ql; lia].
Qed.

Lemma readable_items : forall l es, Forall2 (good false) l es -> bytes_ok (concat es) ->
  Forall (fun i => match i with Op op => 79 <= op <= 255 | PushBytes d => bytes_ok d /\ lenN d < 2 ^ 32 end) l.
Proof.
  intros l es F. induction F as [|i e l es [En _] F IH]; intro H; [constructor|]. cbn [concat] in H. apply bytes_ok_app in H.
  destruct H as [He Hes]. constructor; [|auto]. destruct i as [d|op].
  - split; [|exact (encodes_len _ _ En)]. inversion En; subst.
    + now apply Forall_inv_tail in He.
    + apply Forall_inv_tail, Forall_app in He. apply He.
    + apply Forall_inv_tail, Forall_app in He. apply He.
    + apply Forall_inv_tail, Forall_app in He. apply He.
  - inversion En; subst. assumption.
Qed.

(** Rebuilding any readable script through the optimising push gives a script that pushes the same data in the
    same places, is read in full by the minimal iterator, is rebuilt to itself, and is never longer.  It is as long
    only when nothing changed, and nothing changes exactly when the minimal iterator accepts the script. *)
Theorem C13_minimise : forall s l, bytes_ok s -> instructions s = Ret (map Ok l) ->
  let t := rebuild sb_push_slice l in
  bytes_ok t /\
  (exists l', instructions_minimal t = Ret (map Ok l') /\ instructions t = Ret (map Ok l') /\
     map pushed l' = map pushed l /\ rebuild sb_push_slice l' = t) /\
  lenN t <= lenN s /\ (lenN t = lenN s -> t = s) /\
  (t = s <-> instructions_minimal s = Ret (map Ok l)).
Proof.
  intros s l Hs R t. assert (B : built false s l) by (apply built_reads; auto).
  destruct B as (_ & es & Es & F). assert (Hc : bytes_ok (concat es)) by (rewrite <- Es; exact Hs).
  destruct (fold_push_built true l [] [] (built_nil true) (readable_items l es F Hc)) as (l1 & B1 & M1 & _).
  cbn [app] in B1. rewrite <- rebuild_min in B1. fold t in B1.
  assert (R1 := proj1 (built_reads true t l1) B1). destruct R1 as [Ht R1].
  assert (R2 := proj1 (built_reads false t l1) (built_weaken _ _ _ B1)). destruct R2 as [_ R2].
  destruct (rebuild_shrinks l es F []) as (es' & l2 & E & F2 & M2 & Le & Eq). cbn [app] in E. rewrite <- rebuild_min in E. fold t in E.
  assert (Same : Forall2 (good true) l es -> t = s).
  { intro G. destruct (fold_rebuild l es G Hc []) as [E1 _]. cbn [app] in E1. unfold t. rewrite rebuild_min, E1. now symmetry. }
  split; [exact Ht|]. split; [exists l1; split; [exact R1|split; [exact R2|split; [exact M1|now apply C13_rebuild]]]|].
  split; [unfold lenN; rewrite E, Es; lia|].
  split; [intro H; apply Same, Eq; unfold lenN in H; rewrite E, Es in H; lia|].
  split.
  - intro H. rewrite H in R1, R2. assert (X := eq_trans (eq_sym R2) R : Ret (map Ok l1) = Ret (map Ok l)).
    injection X as X. rewrite X in R1. exact R1.
  - intro H. now apply C13_rebuild.
Qed.
Print Assumptions C13_minimise.

(** Readable though not minimal: a push of 5 in two bytes and a one-byte push announced with OP_PUSHDATA1. *)
Example C13_minimise_ex :
  instructions [1; 5; 76; 1; 200; 172] = Ret (map Ok [PushBytes [5]; PushBytes [200]; Op 172]) /\
  rebuild sb_push_slice [PushBytes [5]; PushBytes [200]; Op 172] = [85; 1; 200; 172] /\
  instructions_minimal [85; 1; 200; 172] = Ret (map Ok [Op 85; PushBytes [200]; Op 172]) /\
  instructions_minimal [1; 5; 76; 1; 200; 172] <> Ret (map Ok [PushBytes [5]; PushBytes [200]; Op 172]).
Proof. vm_compute. repeat split; congruence. Qed.
