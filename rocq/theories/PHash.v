(** C27: hash engines. *)
From Verif Require Import Base MDec MHash SHash MSha2 SSha2 SHashApi MHash2 SHash2 MHmac SHmac LSha2b LSha2c LSha2d LHmac LHashP.
Local Open Scope N_scope.

(** Every hash function of the crate, fed with a message in any sequence of pieces, gives the standard's hash
    of the message. *)
Theorem C27_every_splitting : forall h H pieces, In (h, H) hashers ->
  bytes_ok (concat pieces) -> lenN (concat pieces) < 2 ^ 61 -> hash_byte_chunks h pieces = Ret (H (concat pieces)).
Proof. intros h H ps I. pose proof all_compute as A. rewrite Forall_forall in A. exact (A (h, H) I ps). Qed.
(** Hashing at once is hashing one piece. *)
Theorem C27_at_once : forall h H m, In (h, H) hashers -> bytes_ok m -> lenN m < 2 ^ 61 -> hash_one h m = Ret (H m).
Proof.
  intros h H m I OK L. pose proof all_compute as A. rewrite Forall_forall in A. specialize (A (h, H) I [m]). cbn [concat fst snd] in A. rewrite app_nil_r in A. specialize (A OK L).
  unfold hash_byte_chunks in A. cbn [feed] in A. unfold hash_one. destruct (h_input h (h_default h) m); cbn [rbind] in *; exact A.
Qed.
(** The digests have the declared lengths and are bytes. *)
Theorem C27_lengths : forall h H m, In (h, H) hashers -> bytes_ok m -> lenN (H m) = h_len h /\ bytes_ok (H m).
Proof. intros h H m I. pose proof all_sized as A. rewrite Forall_forall in A. exact (A (h, H) I m). Qed.
(** SHA-256: any history of inputs and midstate extractions and resumptions leads to the hash of what was fed. *)
Theorem C27_history : forall e m, history e m -> lenN m < 2 ^ 61 -> sha256_finalize e = Ret (SHA256 m) /\ e_n e = lenN m.
Proof.
  intros e m H L. destruct (history_absorbed e m H) as [OK A]. split; [exact (finalize256_spec m e A OK L)|].
  destruct A as (ls & r & _ & _ & _ & _ & _ & EN & _). exact EN.
Qed.
(** A midstate is given exactly when the bytes fed are whole blocks; otherwise the error holds the midstate of the
    whole blocks and the bytes after them. *)
Theorem C27_midstate : forall e m, history e m ->
  (lenN m mod 64 = 0 /\ engine_midstate e = Ok (midstate_of m)) \/
  (lenN m mod 64 <> 0 /\ exists er p r, engine_midstate e = Err er /\ m = p ++ r /\ lenN p mod 64 = 0 /\ lenN r < 64 /\
     me_n er = lenN m /\ me_mid er = midstate_of p /\ takeN (me_len er) (me_bytes er) = r).
Proof. exact midstate_spec. Qed.
(** Resuming from the midstate of whole blocks [p] hashes [p] followed by what is fed then. *)
Theorem C27_resume : forall p pieces, bytes_ok p -> lenN p mod 64 = 0 -> bytes_ok (concat pieces) -> lenN p + lenN (concat pieces) < 2 ^ 61 ->
  hash_byte_chunks (sha256t_h (midstate_of p)) pieces = Ret (SHA256 (p ++ concat pieces)).
Proof. exact resume_spec. Qed.
(** Feeding a block to a midstate, by the fast or by the constant evaluation, gives the midstate of the longer message. *)
Theorem C27_update_64 : forall p b, bytes_ok p -> bytes_ok b -> lenN p mod 64 = 0 -> lenN b = 64 -> lenN p + 64 < 2 ^ 64 ->
  update_64 (midstate_of p) b = Ret (midstate_of (p ++ b)) /\ update_midstate_unoptimized (midstate_of p) b false = Ret (midstate_of (p ++ b)).
Proof. intros. split; [now apply update_64_spec|now apply const_update_spec]. Qed.
(** The constant hash function agrees with the engine. *)
Theorem C27_unoptimized : forall m, bytes_ok m -> lenN m < 2 ^ 61 -> hash_unoptimized m = Ret (SHA256 m).
Proof. exact hash_unopt_spec. Qed.
(** Tagged hashes: the engine of a tag computes the hash of BIP 340. *)
Theorem C27_tagged : forall tag pieces, bytes_ok tag -> lenN tag < 2 ^ 61 -> bytes_ok (concat pieces) -> lenN (concat pieces) + 64 < 2 ^ 61 ->
  exists s, hash_tag tag = Ret s /\ hash_byte_chunks (sha256t_h s) pieces = Ret (tagged_hash tag (concat pieces)).
Proof.
  intros tag ps OT LT OP L. exists (midstate_of (SHA256 tag ++ SHA256 tag)). pose proof (hash_tag_spec tag OT LT) as E. split; [exact E|].
  exact (tagged_spec tag _ ps OT LT E OP L).
Qed.
(** The batched double hash is the double hash of each input; it wants as many outputs as inputs. *)
Theorem C27_many : forall n inputs, Forall (fun b => bytes_ok b /\ lenN b = 64) inputs ->
  (n = lenN inputs -> hash_64_many n inputs = Ret (map SHA256d inputs)) /\ (n <> lenN inputs -> hash_64_many n inputs = Panic).
Proof.
  intros n ins F. unfold hash_64_many. split; intro E.
  - rewrite (proj2 (N.eqb_eq _ _) E), many_spec by exact F. reflexivity.
  - rewrite (proj2 (N.eqb_neq _ _) E). reflexivity.
Qed.
(** Input panics exactly when the byte counter overflows. *)
Theorem C27_input_total : forall e m x, history e m ->
  (lenN m + lenN x < 2 ^ 64 -> exists e', sha256_input e x = Ret e') /\ (2 ^ 64 <= lenN m + lenN x -> sha256_input e x = Panic).
Proof. exact input_total. Qed.
(** "Every engine can be finalized" is false: a midstate may be made with any byte count that is a multiple of 64. *)
Theorem C27_finalize_total_refuted : forall state, length state = 32%nat -> exists s, midstate_new state (2 ^ 61) = Ret s /\ sha256_finalize (to_engine s) = Panic.
Proof. exact overflow_finalize. Qed.

(** The hypotheses are met by concrete cases; the standards' functions give the published values. *)
Example C27_abc : SHA256 [97; 98; 99] = [186; 120; 22; 191; 143; 1; 207; 234; 65; 65; 64; 222; 93; 174; 34; 35; 176; 3; 97; 163; 150; 23; 122; 156; 180; 16; 255; 97; 242; 0; 21; 173] /\
  SHA1 [97; 98; 99] = [169; 153; 62; 54; 71; 6; 129; 106; 186; 62; 37; 113; 120; 80; 194; 108; 156; 208; 216; 157] /\
  RIPEMD160 [97; 98; 99] = [142; 178; 8; 247; 224; 93; 152; 122; 155; 4; 74; 142; 152; 198; 176; 135; 241; 90; 11; 252].
Proof. split; [|split]; vm_compute; reflexivity. Qed.
Example C27_ex_split : hash_byte_chunks sha256_h [[97]; []; [98; 99]] = Ret (SHA256 [97; 98; 99]).
Proof. apply (C27_every_splitting sha256_h SHA256 [[97]; []; [98; 99]]); [now left|repeat constructor|reflexivity]. Qed.
(** three bytes, an attempt to take the midstate, and the engine restarted from the error *)
Example C27_ex_history : exists e, history e [97; 98; 99].
Proof.
  destruct (C27_input_total sha256_new [] [97; 98; 99] h_new) as [T _]. destruct (T ltac:(reflexivity)) as [e E].
  assert (H : history e [97; 98; 99]) by (apply (SHashApi.h_input sha256_new [] [97; 98; 99] e h_new); [repeat constructor|exact E]).
  destruct (C27_midstate e _ H) as [[X _]|(_ & er & p & r & EM & EQ & A1 & A2 & A3 & A4 & A5)]; [discriminate|].
  assert (HP : history (to_engine (midstate_of [])) []) by (apply (h_midstate sha256_new [] (midstate_of []) h_new); vm_compute; reflexivity).
  assert (p = []) as ->.
  { assert (lenN p <= 3) by (apply (f_equal lenN) in EQ; rewrite lenN_app in EQ; change (lenN [97; 98; 99]) with 3 in EQ; lia). rewrite N.mod_small in A1 by lia. destruct p; auto. rewrite lenN_cons in A1. lia. }
  cbn [app] in EQ. subst r. destruct (C27_input_total _ [] [97; 98; 99] HP) as [T2 _]. destruct (T2 ltac:(reflexivity)) as [e2 E2].
  exists e2. apply (h_error e _ er e2 H EM). rewrite A4, A5. exact E2.
Qed.
Example C27_ex_tag : bytes_ok [84; 97; 112] /\ lenN [84; 97; 112] < 2 ^ 61. Proof. split; [repeat constructor|reflexivity]. Qed.
Example C27_ex_many : Forall (fun b => bytes_ok b /\ lenN b = 64) [repeat 7 64; repeat 9 64].
Proof. repeat constructor. Qed.

Print Assumptions C27_every_splitting.
Print Assumptions C27_at_once.
Print Assumptions C27_lengths.
Print Assumptions C27_history.
Print Assumptions C27_midstate.
Print Assumptions C27_resume.
Print Assumptions C27_update_64.
Print Assumptions C27_unoptimized.
Print Assumptions C27_tagged.
Print Assumptions C27_many.
Print Assumptions C27_input_total.
Print Assumptions C27_finalize_total_refuted.

(** Hashing a digest again, and hashing at once with a tag. *)
Theorem C27_again : forall m, bytes_ok m -> lenN m < 2 ^ 61 ->
  hash_again (SHA256 m) = Ret (SHA256d m) /\
  (forall tag, bytes_ok tag -> lenN tag < 2 ^ 61 -> lenN m + 64 < 2 ^ 61 -> exists s, hash_tag tag = Ret s /\ sha256t_hash s m = Ret (tagged_hash tag m)).
Proof.
  intros m OK L. destruct (SHA256_len m OK) as [HL HO]. split.
  - unfold hash_again. rewrite hash256_spec; [reflexivity|exact HO|]. rewrite HL. reflexivity.
  - intros tag OT LT L2. destruct (C27_tagged tag [m] OT LT) as (s & E & R); cbn [concat] in *; try rewrite app_nil_r in *; auto. exists s. split; [exact E|].
    rewrite <- R. unfold hash_byte_chunks, sha256t_hash. cbn [feed sha256t_h h_default h_input h_finalize]. now destruct (sha256_input (to_engine s) m).
Qed.
Print Assumptions C27_again.
