(** C31: the size of partial Merkle trees.  The documentation, p2p/src/merkle_tree.rs:177-194, promises at most 10 + ceil(32.25 N) bytes
    and 2 N - 1 flag bits for N hashes, N being at most the number of transactions and at most 1 + matched * height. *)
From Verif Require Import Base MDec LDec MWitness MTx MMerkle MPmt SWire SMerkle SPmt LWitness LMerkle LCompact LPmt LPmt2 LPmt3 PPmt SBlock.
Local Open Scope N_scope.

Section Count.
Context {T : Type}.
Implicit Type t : ptree T.
(** nodes with a single child *)
Fixpoint ones (t : ptree T) : N :=
  match t with PHash _ | PLeaf _ => 0 | PBoth l r => ones l + ones r | POne l => 1 + ones l end.
Lemma flags_ones : forall t, lenN (flags t) + 1 = 2 * lenN (shown t) + ones t.
Proof. induction t; cbn [flags shown ones]; rewrite ?lenN_cons, ?lenN_app, ?lenN_nil; lia. Qed.
Lemma nodes_up : forall n h pos, pos + 1 < nodes_at n (h + 1) <-> 2 * pos + 2 < nodes_at n h.
Proof. intros. rewrite !lt_nodes, pow_S. replace ((pos + 1) * (2 * 2 ^ h)) with ((2 * pos + 2) * 2 ^ h) by ring. reflexivity. Qed.
Lemma ones_inner : forall n h pos t, fits n h pos t -> pos + 1 < nodes_at n h -> ones t = 0.
Proof.
  intros n h pos t F. induction F as [h pos x|pos x|h pos l r W Fl IHl Fr IHr|h pos l W Fl IHl]; intro L; cbn [ones]; try reflexivity; apply nodes_up in L.
  - rewrite IHl, IHr by lia. reflexivity.
  - lia.
Qed.
Lemma ones_height : forall n h pos t, fits n h pos t -> ones t <= h.
Proof.
  intros n h pos t F. induction F as [h pos x|pos x|h pos l r W Fl IHl Fr IHr|h pos l W Fl IHl]; cbn [ones]; try lia.
  rewrite (ones_inner _ _ _ _ Fl) by lia. lia.
Qed.
(** the hashes of a tree that shows no more than it has to *)
Lemma found_len : forall t p q, lenN (found p t) = lenN (found q t).
Proof. induction t; intros p q; cbn [found]; rewrite ?lenN_app; [reflexivity|reflexivity|rewrite (IHt1 (2 * p) (2 * q)), (IHt2 (2 * p + 1) (2 * q + 1)); reflexivity|apply IHt]. Qed.
Lemma len_pos : forall A (l : list A), l <> [] -> 1 <= lenN l.
Proof. intros A [|x l] N; [contradiction|]. rewrite lenN_cons. lia. Qed.
Lemma found_le : forall t p, lenN (found p t) <= lenN (shown t).
Proof. induction t; intro p; cbn [found shown]; rewrite ?lenN_app, ?lenN_cons, ?lenN_nil; [lia|lia| |apply IHt]. specialize (IHt1 (2 * p)). specialize (IHt2 (2 * p + 1)). lia. Qed.
Lemma shown_lean : forall n h pos t, fits n h pos t -> lean t -> lenN (shown t) <= 1 + lenN (found pos t) * h.
Proof.
  intros n h pos t F. induction F as [h pos x|pos x|h pos l r W Fl IHl Fr IHr|h pos l W Fl IHl]; cbn [lean shown found]; rewrite ?lenN_app, ?lenN_cons, ?lenN_nil; intro L; try lia.
  - destruct L as (X & Ll & Lr). specialize (IHl Ll). specialize (IHr Lr). assert (1 <= lenN (found (2 * pos) l) + lenN (found (2 * pos + 1) r)).
    { destruct X as [X|X]; apply len_pos in X; [rewrite (found_len l 0 (2 * pos)) in X|rewrite (found_len r 0 (2 * pos + 1)) in X]; lia. }
    rewrite N.mul_add_distr_r, !N.mul_add_distr_l, !N.mul_1_r. lia.
  - destruct L as (X & Ll). specialize (IHl Ll). rewrite N.mul_add_distr_l, N.mul_1_r. lia.
Qed.
(** below the node of the last transaction alone there are only single children *)
Lemma ones_last : forall n h pos t, fits n h pos t -> pos * 2 ^ h + 1 = n -> found pos t <> [] -> ones t = h.
Proof.
  intros n h pos t F. induction F as [h pos x|pos x|h pos l r W Fl IHl Fr IHr|h pos l W Fl IHl]; intros E X; cbn [ones found] in *; [contradiction|reflexivity| |].
  - exfalso. apply lt_nodes in W. rewrite pow_S in E. pose proof (pow1 h). nia.
  - rewrite IHl; [lia| |exact X]. rewrite pow_S in E. nia.
Qed.
End Count.
Lemma marked_all : forall {T} (l : list T) i, lenN (marked i l (repeat true (length l))) = lenN l.
Proof. induction l as [|x l IH]; intro i; [reflexivity|]. cbn [length repeat marked]. rewrite lenN_app, !lenN_cons, IH, lenN_nil. lia. Qed.
Lemma marked_le : forall {T} (l : list T) marks i, lenN (marked i l marks) <= lenN l.
Proof. induction l as [|x l IH]; intros [|m marks] i; cbn [marked]; rewrite ?lenN_app, ?lenN_cons, ?lenN_nil; try lia. specialize (IH marks (i + 1)). destruct m; rewrite ?lenN_cons, ?lenN_nil; lia. Qed.

Section Size.
Context {T : Type} (eqb : T -> T -> bool) (eqb_spec : forall a b, eqb a b = true <-> a = b) (combine : T -> T -> T).
(** The promised bounds on N hold; the flag bits may exceed 2 N - 1, by at most the height of the tree. *)
Theorem C31_counts : forall txids marks p h, length txids = length marks -> lenN txids < 2 ^ 31 -> from_txids combine txids marks = Ret p -> tree_height (lenN txids) h ->
  1 <= lenN (pm_hashes p) <= lenN txids /\ lenN (pm_hashes p) <= 1 + lenN (marked 0 txids marks) * h /\
  2 * lenN (pm_hashes p) - 1 <= lenN (pm_bits p) <= 2 * lenN (pm_hashes p) - 1 + h.
Proof using eqb_spec.
  intros txids marks p h L L31 E TH. destruct (height_spec _ _ TH) as (_ & _ & N1).
  destruct (C31_build eqb eqb_spec combine txids marks ltac:(lia) L) as (p' & h' & t & E' & Pn & TH' & F & B & S & Fo & Le & _). rewrite E in E'. injection E' as <-. rewrite (height_unique _ _ _ TH' TH) in F.
  rewrite B, S. destruct (fits_shown _ _ _ _ F ltac:(rewrite N.mul_0_l; lia)) as (A & _). destruct (LPmt.fits_len _ _ _ _ F) as (_ & _ & [A2 _] & _). rewrite N.mul_0_l, N.add_0_r in A. split; [lia|]. split.
  - rewrite <- Fo. exact (shown_lean _ _ _ _ F Le).
  - pose proof (flags_ones t). pose proof (ones_height _ _ _ _ F). lia.
Qed.
(** They do for every block of 2^k + 1 transactions of which all are matched (or, with fewer hashes, the last one). *)
Theorem C31_many_bits : forall txids k p, lenN txids = 2 ^ k + 1 -> k < 31 -> from_txids combine txids (repeat true (length txids)) = Ret p ->
  lenN (pm_hashes p) = lenN txids /\ lenN (pm_bits p) = 2 * lenN txids - 1 + k.
Proof using eqb_spec.
  intros txids k p Ln K E. assert (L31 : lenN txids < 2 ^ 31). { rewrite Ln. assert (2 ^ k <= 2 ^ 30) by (apply N.pow_le_mono_r; lia). change (2 ^ 30) with 1073741824 in *. change (2 ^ 31) with 2147483648. lia. }
  pose proof (pow1 k) as P1. destruct (C31_build eqb eqb_spec combine txids (repeat true (length txids)) ltac:(lia) (eq_sym (repeat_length _ _))) as (p' & h & t & E' & Pn & TH & F & B & S & Fo & Le & _).
  rewrite E in E'. injection E' as <-. assert (Hh : h = k + 1).
  { apply (height_unique (lenN txids)); [exact TH|]. split.
    - destruct (N.lt_ge_cases 1 (nodes_at (lenN txids) (k + 1))) as [X|X]; [apply lt_nodes in X; rewrite pow_S, Ln in X; lia|]. assert (0 < nodes_at (lenN txids) (k + 1)) by (apply lt_nodes; lia). lia.
    - intros j J. assert (1 < nodes_at (lenN txids) j); [apply lt_nodes|lia]. assert (2 ^ j <= 2 ^ k) by (apply N.pow_le_mono_r; lia). lia. }
  subst h. rewrite B, S. assert (Sh : lenN (shown t) = lenN txids).
  { destruct (fits_shown _ _ _ _ F ltac:(rewrite N.mul_0_l; lia)) as (A & _). pose proof (found_le t 0) as A2. rewrite Fo, marked_all in A2. lia. }
  split; [exact Sh|]. assert (On : ones t = k).
  { pose proof (f_equal lenN Fo) as Lf. rewrite marked_all in Lf. remember (k + 1) as h eqn:Eh. remember 0 as pos eqn:Ep. destruct F as [h pos x|pos x|h pos l r W Fl Fr|h pos l W Fl]; [cbn [found] in Lf; rewrite lenN_nil in Lf; lia|lia| |].
    - assert (h = k) by lia. subst h pos. cbn [ones]. rewrite (ones_inner _ _ _ _ Fl W). rewrite (ones_last _ _ _ _ Fr); [reflexivity|lia|]. intro Z. cbn [found] in Lf. rewrite Z, app_nil_r in Lf.
      pose proof (found_le l (2 * 0)) as Y. destruct (LPmt.fits_len _ _ _ _ Fl) as (_ & _ & [_ Q] & _). lia.
    - exfalso. assert (h = k) by lia. subst h pos. assert (1 < nodes_at (lenN txids) k) by (apply lt_nodes; lia). lia. }
  pose proof (flags_ones t). lia.
Qed.
End Size.


Lemma calc_hash_all : forall {T} (combine : T -> T -> T) (P : T -> Prop), (forall a b, P (combine a b)) -> forall n txids, Forall P txids -> forall h pos x, calc_hash combine n txids h pos = Ret x -> P x.
Proof.
  intros T combine P C n txids F. induction h as [|h IH]; intros pos x E; cbn [calc_hash] in E.
  - destruct (get pos txids) as [y|] eqn:G; [|discriminate]. injection E as <-. unfold get in G. apply nth_error_In in G. rewrite Forall_forall in F. auto.
  - destruct (U32 <=? pos * 2 + 1); [discriminate|]. destruct (calc_hash combine n txids h (pos * 2)) as [a|]; cbn [rbind] in E; [|discriminate]. destruct (calc_tree_width n (N.of_nat h)) as [w|]; cbn [rbind] in E; [|discriminate].
    destruct (if pos * 2 + 1 <? w then calc_hash combine n txids h (pos * 2 + 1) else Ret a) as [b|]; cbn [rbind] in E; [|discriminate]. injection E as <-. apply C.
Qed.
Lemma build_all : forall {T} (combine : T -> T -> T) (P : T -> Prop), (forall a b, P (combine a b)) -> forall n txids marks, Forall P txids -> forall h pos s s',
  traverse_and_build combine n txids marks h pos s = Ret s' -> Forall P (snd s) -> Forall P (snd s').
Proof.
  intros T combine P C n txids marks F. induction h as [|h IH]; intros pos s s' E Fs; cbn [traverse_and_build] in E.
  - destruct (parent_of_match n marks (N.of_nat 0) pos) as [m|]; cbn [rbind] in E; [|discriminate]. destruct (calc_hash combine n txids 0 pos) as [x|] eqn:X; cbn [rbind] in E; [|discriminate]. injection E as <-. cbn [snd]. apply Forall_app. split; [exact Fs|]. constructor; [|constructor]. exact (calc_hash_all combine P C n txids F _ _ _ X).
  - destruct (parent_of_match n marks (N.of_nat (S h)) pos) as [m|]; cbn [rbind] in E; [|discriminate]. destruct m; cbn [negb] in E.
    + destruct (U32 <=? pos * 2 + 1); [discriminate|]. match type of E with rbind ?X _ = _ => destruct X as [s1|] eqn:E1 end; cbn [rbind] in E; [|discriminate]. apply IH in E1; [|exact Fs].
      destruct (calc_tree_width n (N.of_nat h)) as [w|]; cbn [rbind] in E; [|discriminate]. destruct (pos * 2 + 1 <? w); [exact (IH _ _ _ E E1)|]. now injection E as <-.
    + destruct (calc_hash combine n txids (S h) pos) as [x|] eqn:X; cbn [rbind] in E; [|discriminate]. injection E as <-. cbn [snd]. apply Forall_app. split; [exact Fs|]. constructor; [|constructor]. exact (calc_hash_all combine P C n txids F _ _ _ X).
Qed.
Lemma from_all : forall {T} (combine : T -> T -> T) (P : T -> Prop), (forall a b, P (combine a b)) -> forall txids marks p, Forall P txids -> from_txids combine txids marks = Ret p -> Forall P (pm_hashes p).
Proof.
  intros T combine P C txids marks p F E. unfold from_txids in E. destruct (lenN txids =? 0); [discriminate|]. destruct (negb (lenN txids =? lenN marks)); [discriminate|].
  destruct (calc_tree_height _) as [h|]; cbn [rbind] in E; [|discriminate]. destruct (traverse_and_build _ _ _ _ _ _ _) as [s|] eqn:B; cbn [rbind] in E; [|discriminate]. injection E as <-. cbn [pm_hashes]. exact (build_all combine P C _ _ _ F _ _ _ _ B (Forall_nil _)).
Qed.
Lemma from_lens : forall {T} (combine : T -> T -> T) txids marks p, from_txids combine txids marks = Ret p -> length txids = length marks /\ 1 <= lenN txids.
Proof.
  intros T combine txids marks p E. unfold from_txids in E. destruct (N.eqb_spec (lenN txids) 0) as [Z|Z]; [discriminate|]. destruct (N.eqb_spec (lenN txids) (lenN marks)) as [X|X]; cbn [negb] in E; [|discriminate]. split; [unfold lenN in X|]; lia.
Qed.
Lemma concat_len : forall (l : list bytes), Forall (fun x => lenN x = 32) l -> lenN (flat_map (fun h : bytes => h) l) = 32 * lenN l.
Proof. induction 1 as [|x l X F IH]; [reflexivity|]. cbn [flat_map]. rewrite lenN_app, IH, X, lenN_cons, N.mul_add_distr_l. reflexivity. Qed.
Lemma encode_len : forall p, Forall (fun x => lenN x = 32) (pm_hashes p) -> lenN (pmt_encode p) =
  4 + cs_encoded_size (lenN (pm_hashes p)) + 32 * lenN (pm_hashes p) + cs_encoded_size (div_ceil8 (lenN (pm_bits p))) + div_ceil8 (lenN (pm_bits p)).
Proof. intros p F. unfold pmt_encode, slice_encode. rewrite !lenN_app, le_bytes_lenN, !cs_encode_len, pack_len. pose proof (concat_len _ F) as X. unfold bytes in *. rewrite X. lia. Qed.
Lemma encode_len_eq : forall p n b, Forall (fun x => lenN x = 32) (pm_hashes p) -> lenN (pm_hashes p) = n -> lenN (pm_bits p) = b ->
  lenN (pmt_encode p) = 4 + cs_encoded_size n + 32 * n + cs_encoded_size (div_ceil8 b) + div_ceil8 b.
Proof. intros p n b F <- <-. exact (encode_len p F). Qed.
Lemma size_arith : forall n b h, 1 <= n -> n <= 16666 -> b <= 2 * n - 1 + h -> h <= 15 ->
  4 + cs_encoded_size n + 32 * n + cs_encoded_size (div_ceil8 b) + div_ceil8 b <= 12 + (129 * n + 3) / 4.
Proof.
  intros n b h A1 A5 A4 H15.
  assert (B1 : div_ceil8 b <= (n + 3) / 4 + 2). { unfold div_ceil8. apply N.le_trans with ((2 * n + 22) / 8); [apply N.div_le_mono; [discriminate|lia]|]. replace (2 * n + 22) with (2 * (n + 11)) by lia. change 8 with (2 * 4). rewrite N.div_mul_cancel_l by discriminate.
    replace (n + 11) with (n + 3 + 2 * 4) by lia. rewrite N.div_add by discriminate. lia. }
  assert (B2 : div_ceil8 b < 65536). { apply N.le_lt_trans with (1 := B1). assert ((n + 3) / 4 <= n + 3) by (apply N.div_le_upper_bound; [discriminate|lia]). lia. }
  assert (B3 : (129 * n + 3) / 4 = 32 * n + (n + 3) / 4). { replace (129 * n + 3) with (n + 3 + 32 * n * 4) by lia. rewrite N.div_add by discriminate. lia. }
  rewrite B3. assert (Cs : forall v, v < 65536 -> cs_encoded_size v <= 3). { intros v V. unfold cs_encoded_size. destruct (v <=? 252); [lia|]. destruct (N.leb_spec v 65535); lia. }
  pose proof (Cs n ltac:(lia)). pose proof (Cs (div_ceil8 b) B2). lia.
Qed.
(** A node is 32 bytes: in [combine] a double SHA-256. *)
Section Wire.
Context (combine : bytes -> bytes -> bytes) (C32 : forall a b, lenN (combine a b) = 32).
(** On the wire the size is at most 12 + ceil(32.25 N), for the numbers of transactions that extraction accepts; *)
Theorem C31_size : forall txids marks p, Forall (fun x => lenN x = 32) txids -> lenN txids <= 16666 -> from_txids combine txids marks = Ret p ->
  lenN (pmt_encode p) <= 12 + (129 * lenN (pm_hashes p) + 3) / 4.
Proof using C32.
  intros txids marks p F L E. rewrite (encode_len p (from_all combine _ C32 txids marks p F E)).
  destruct (from_lens combine txids marks p E) as (El & Ne).
  assert (L31 : lenN txids < 2 ^ 31) by (apply N.le_lt_trans with (1 := L); reflexivity). destruct (tree_height_ret (lenN txids) (conj Ne L31)) as (h & _ & TH & _).
  destruct (C31_counts beqb beqb_spec combine txids marks p h El L31 E TH) as ((A1 & A2) & _ & A3 & A4). destruct (small_height _ _ L TH) as (H15 & _).
  exact (size_arith _ _ h A1 (N.le_trans _ _ _ A2 L) A4 H15).
Qed.
(** the promised 10 + ceil(32.25 N) is exceeded by every block of 1025 transactions that are all matched. *)
Theorem C31_size_refuted : forall txids, Forall (fun x => lenN x = 32) txids -> lenN txids = 1025 -> exists p, from_txids combine txids (repeat true (length txids)) = Ret p /\
  lenN (pm_hashes p) = 1025 /\ 2 * 1025 - 1 < lenN (pm_bits p) /\ 10 + (129 * 1025 + 3) / 4 < lenN (pmt_encode p).
Proof using C32.
  intros txids F L. assert (R : 1 <= lenN txids < 2 ^ 31) by (rewrite L; split; [discriminate|reflexivity]).
  destruct (C31_build beqb beqb_spec combine txids (repeat true (length txids)) R (eq_sym (repeat_length _ _))) as (p & _ & _ & E & _).
  exists p. split; [exact E|]. destruct (C31_many_bits beqb beqb_spec combine txids 10 p L eq_refl E) as (A & B). pose proof (eq_trans A L) as A'. pose proof (eq_trans B (f_equal (fun n => 2 * n - 1 + 10) L)) as B'. clear A B.
  pose proof (encode_len_eq p _ _ (from_all combine _ C32 _ _ p F E) A' B') as X. cbv beta in B', X. split; [exact A'|]. split; [rewrite B'; reflexivity|].
  apply N.lt_le_trans with (4 + cs_encoded_size 1025 + 32 * 1025 + cs_encoded_size (div_ceil8 2059) + div_ceil8 2059); [vm_compute; reflexivity|]. rewrite X. apply N.le_refl.
Qed.
End Wire.
(** Three matched transactions: three hashes and six bits; the last of five: two hashes, five bits; and lists as in the theorems exist. *)
Example C31_size_ex : from_txids N.add [1; 2; 3] [true; true; true] = Ret {| pm_num := 3; pm_bits := [true; true; true; true; true; true]; pm_hashes := [1; 2; 3] |} /\
  from_txids N.add [1; 2; 3; 4; 5] [false; false; false; false; true] = Ret {| pm_num := 5; pm_bits := [true; false; true; true; true]; pm_hashes := [10; 5] |} /\
  tree_height 5 3 /\
  exists p, from_txids (fun _ _ => repeat 0 32) (repeat (repeat 1 32) 1025) (repeat true (length (repeat (repeat 1 32) 1025))) = Ret p /\ 33067 < lenN (pmt_encode p).
Proof.
  split; [reflexivity|]. split; [reflexivity|]. split.
  - split; [reflexivity|]. intros k K. assert (k = 0 \/ k = 1 \/ k = 2) as [->|[->| ->]] by lia; vm_compute; discriminate.
  - destruct (C31_size_refuted (fun _ _ => repeat 0 32) (fun _ _ => eq_refl) (repeat (repeat 1 32) 1025)) as (p & E & _ & _ & L); [apply Forall_forall; intros x X; apply repeat_spec in X; subst x; reflexivity|unfold lenN; rewrite repeat_length; reflexivity|].
    exists p. split; [exact E|exact L].
Qed.
Print Assumptions C31_counts.
Print Assumptions C31_many_bits.
Print Assumptions C31_size.
Print Assumptions C31_size_refuted.
