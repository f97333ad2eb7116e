(** C60: SHA-256 on every machine: SHA-NI, SSE4.1, AVX2, ARMv8 and portable code. *)
From Coq Require Import String.
From Verif Require Import Base MDec LDec MHash SHash LHash MSha2 SSha2 SHashApi LSha2b LSha2c LSha2d LBip32b MSimd SSimd LSimd4 LSimd5 LSimd6 LSimd7.
From Verif Require Import LHashP.
Local Open Scope list_scope.
Local Open Scope N_scope.
#[local] Opaque compress sha256_comp SHA256d SHA256.

(** The two hardware block functions compute the compression of FIPS 180-4, block after block. *)
Theorem C60_hardware_blocks : forall ls st, Forall (fun b => bytes_ok b /\ lenN b = 64) ls -> List.length st = 8%nat -> Forall (fun x => x < 2 ^ 32) st ->
  ni_process_blocks st (concat ls) = Ret (fold_left (compress sha256_std) ls st) /\ arm_process_blocks st (concat ls) = Ret (fold_left (compress sha256_std) ls st).
Proof.
  intros ls st F L S. assert (G : good ops256 st) by (split; [exact S|exact L]). assert (FL : full 64 ls) by (unfold full; rewrite Forall_forall in *; intros b I; now apply F). assert (FO : Forall bytes_ok ls) by (rewrite Forall_forall in *; intros b I; now apply F).
  split; [exact (ni_process_ok ls st FL FO G)|exact (arm_process_ok ls st FL FO G)].
Qed.
(** The batch functions of two, four and eight messages compute the double hash of each message. *)
Theorem C60_hardware_batches :
  (forall o1 o2 b1 b2, lenN o1 = 32 -> lenN o2 = 32 -> bytes_ok b1 -> bytes_ok b2 -> lenN b1 = 64 -> lenN b2 = 64 ->
     ni_sha256d_64_2way [o1; o2] [b1; b2] = Ret [SHA256d b1; SHA256d b2] /\ arm_sha256d_64_2way [o1; o2] [b1; b2] = Ret [SHA256d b1; SHA256d b2]) /\
  (forall outs inputs, List.length outs = 4%nat -> List.length inputs = 4%nat -> Forall (fun o => lenN o = 32) outs -> Forall (fun b => bytes_ok b /\ lenN b = 64) inputs ->
     sse_sha256d_64_4way outs inputs = map SHA256d inputs) /\
  (forall outs inputs, List.length outs = 8%nat -> List.length inputs = 8%nat -> Forall (fun o => lenN o = 32) outs -> Forall (fun b => bytes_ok b /\ lenN b = 64) inputs ->
     avx_sha256d_64_8way outs inputs = map SHA256d inputs).
Proof.
  split; [|split; [exact sse_ok|exact avx_ok]]. intros o1 o2 b1 b2 A B C D E F. split; [now apply ni_two_ok|now apply arm_two_ok].
Qed.
(** On every machine the block function computes the standard's compression and runs no instruction the processor lacks. *)
Theorem C60_blocks : forall m ls st, honest m -> ls <> [] -> Forall (fun b => bytes_ok b /\ lenN b = 64) ls -> List.length st = 8%nat -> Forall (fun x => x < 2 ^ 32) st ->
  process_blocks_on m st (concat ls) = Ret (fold_left (compress sha256_std) ls st).
Proof.
  intros m ls st H NE F L S. apply blocks_on; [exact H|exact NE| | |split; [exact S|exact L]]; unfold full; rewrite Forall_forall in *; intros b I; now apply F.
Qed.
(** On every machine hashing a message, in any pieces, is SHA-256 of the message. *)
Theorem C60_hash : forall m pieces, honest m -> bytes_ok (concat pieces) -> lenN (concat pieces) < 2 ^ 61 ->
  hash_chunks_on m pieces = Ret (SHA256 (concat pieces)) /\ hash_chunks_d_on m pieces = Ret (SHA256d (concat pieces)).
Proof.
  intros m pieces H O L. pose proof (hash_on_ok m pieces H O L) as E. split; [exact E|]. unfold hash_chunks_d_on. rewrite E. cbn [rbind]. destruct (SHA256_len (concat pieces) O) as [L1 O1].
  pose proof (hash_on_ok m [SHA256 (concat pieces)] H) as E2. cbn [concat] in E2. rewrite app_nil_r in E2. rewrite (E2 O1); [reflexivity|]. rewrite L1. reflexivity.
Qed.
(** An engine fed on any machines, with midstates taken and resumed anywhere, finalised on any machine, gives the hash of what was fed. *)
Lemma resume_absorbed : forall p, bytes_ok p -> lenN p mod 64 = 0 -> exists h0 n0, absorbed 64 sha256_comp h0 n0 [] (to_engine (midstate_of p)) /\ good ops256 h0.
Proof.
  intros p OK M. destruct (LHashP.aligned_split p M) as (ls & -> & F). exists (fold_left sha256_comp ls sha256_iv), (lenN (concat ls)). split; [exact (to_engine_absorbed ls F OK)|].
  destruct (fold_good ls F OK) as [E G]. exact G.
Qed.
Lemma history_same : forall e msg, history_on e msg -> history e msg.
Proof.
  induction 1 as [|m e msg x e' HM _ IH O E|e msg s _ IH E|m e msg er e' HM _ IH EM E].
  - constructor.
  - destruct (history_absorbed _ _ IH) as [OM A]. rewrite (input_eq m _ _ _ _ _ HM A iv_good OM O) in E. exact (h_input e msg x e' IH O E).
  - exact (h_midstate e msg s IH E).
  - destruct (midstate_spec e msg IH) as [[_ E1]|(_ & er' & p & r & E1 & EP & MP & LR & EN & ME & TK)]; [congruence|]. assert (er' = er) by congruence. subst er'.
    destruct (history_absorbed _ _ IH) as [OM _]. rewrite EP in OM. apply bytes_ok_app in OM as [OP OR]. rewrite TK in E.
    destruct (resume_absorbed p OP MP) as [h0 [n0 [A G]]]. rewrite ME in E. rewrite (input_eq m _ _ _ _ _ HM A G ltac:(constructor) OR) in E. rewrite <- TK, <- ME in E. exact (h_error e msg er e' IH EM E).
Qed.
Theorem C60_engine : forall m e msg, honest m -> history_on e msg ->
  (lenN msg < 2 ^ 61 -> finalize_on m e = Ret (SHA256 msg)) /\
  (forall x, bytes_ok x -> lenN msg + lenN x < 2 ^ 64 -> exists e', input_on m e x = Ret e' /\ history_on e' (msg ++ x)).
Proof.
  intros m e msg HM H. pose proof (history_same e msg H) as HS. destruct (history_absorbed _ _ HS) as [OM A]. split.
  - intro L. rewrite (finalize_eq m _ _ _ _ HM A iv_good OM). now apply finalize256_spec.
  - intros x OX L. destruct (input_absorbed 64 sha256_comp ltac:(lia) sha256_iv 0 msg e x A ltac:(lia)) as (e' & E & _). exists e'. assert (E' : input_on m e x = Ret e') by (rewrite (input_eq m _ _ _ _ _ HM A iv_good OM OX); exact E).
    split; [exact E'|]. exact (ho_input m e msg x e' HM H OX E').
Qed.
(** On every machine the batched double hash writes the double hash of each input, whatever was in the outputs; it wants as many outputs as inputs. *)
Theorem C60_many : forall m outs inputs, honest m -> Forall (fun o => lenN o = 32) outs -> Forall (fun b => bytes_ok b /\ lenN b = 64) inputs ->
  (lenN outs = lenN inputs -> sha256d_64_on m outs inputs = Ret (map SHA256d inputs)) /\ (lenN outs <> lenN inputs -> sha256d_64_on m outs inputs = Panic).
Proof.
  intros m outs inputs H FO FI. split; intro L; [now apply many_on|]. unfold sha256d_64_on. apply N.eqb_neq in L. match goal with |- (if negb ?c then _ else _) = _ => replace c with false by (symmetry; exact L) end. reflexivity.
Qed.
(** The hash does not depend on the machine. *)
Theorem C60_same_everywhere : forall m1 m2 pieces1 pieces2, honest m1 -> honest m2 -> bytes_ok (concat pieces1) -> lenN (concat pieces1) < 2 ^ 61 -> concat pieces1 = concat pieces2 ->
  hash_chunks_on m1 pieces1 = hash_chunks_on m2 pieces2.
Proof.
  intros m1 m2 p1 p2 H1 H2 O L E. rewrite (hash_on_ok m1 p1 H1 O L). rewrite E in *. symmetry. exact (hash_on_ok m2 p2 H2 O L).
Qed.

(** Machines of every kind; the fast paths are taken on them. *)
Definition has_all : feature -> bool := fun _ => true.
Definition has_none : feature -> bool := fun _ => false.
Definition has_avx : feature -> bool := fun f => match f with Sha | Sha2 => false | _ => true end.
Definition ex_ni := mk_machine X86 true false has_all has_none has_all.
Definition ex_arm := mk_machine Aarch64 false true has_none has_all has_all.
Definition ex_avx := mk_machine X86 true true has_avx has_avx has_avx.
Definition ex_soft := mk_machine OtherArch false false has_none has_none has_none.
Example C60_ex_honest : honest ex_ni /\ honest ex_arm /\ honest ex_avx /\ honest ex_soft.
Proof. repeat split; intros f; destruct f; cbn; congruence. Qed.
Example C60_ex_paths : std_ni ex_ni = true /\ cpuf_arm ex_arm = true /\ std_ni ex_avx = false /\ std_avx ex_avx = true /\ cpuf_sse ex_avx = true /\ std_sse ex_soft = false.
Proof. repeat split. Qed.
Example C60_ex_inputs : exists outs inputs : list bytes, lenN outs = 15 /\ lenN inputs = 15 /\ Forall (fun o => lenN o = 32) outs /\ Forall (fun b => bytes_ok b /\ lenN b = 64) inputs.
Proof.
  exists (repeat (repeat 0 32) 15), (repeat (repeat 7 64) 15). split; [reflexivity|]. split; [reflexivity|]. split; apply Forall_forall; intros x I; apply repeat_spec in I; subst x; [reflexivity|]. split; [|reflexivity].
  unfold bytes_ok. apply Forall_forall. intros x I. apply repeat_spec in I. subst x. reflexivity.
Qed.
Example C60_ex_history : exists e, history_on e [97; 98; 99].
Proof.
  destruct (C60_engine ex_avx sha256_new [] (proj1 (proj2 (proj2 C60_ex_honest))) ho_new) as [_ I]. destruct (I [97; 98; 99]) as (e & _ & H); [repeat constructor|reflexivity|]. exists e. exact H.
Qed.
(** A detection that reports a missing feature makes the dispatch call a function the processor cannot run. *)
Example C60_ex_dishonest : process_blocks_on (mk_machine X86 true false has_all has_none has_none) iv256 (repeat 0 64) = Panic.
Proof. reflexivity. Qed.
Print Assumptions C60_hardware_blocks.
Print Assumptions C60_hardware_batches.
Print Assumptions C60_blocks.
Print Assumptions C60_hash.
Print Assumptions C60_engine.
Print Assumptions C60_many.
Print Assumptions C60_same_everywhere.
