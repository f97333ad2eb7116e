(** Typing errors in the texts of segwit addresses: up to four wrong characters. *)
From Coq Require Import String.
From Verif Require Import Base MDec LDec MText SBip158 SBech32 MBech32 LBech32 LBech32b LBech32c LBech32d MScript SScript MAddress SAddress LAddress LAddress2.
Local Open Scope N_scope.

Lemma differences_comm : forall s t, differences s t = differences t s.
Proof. induction s as [|a s IH]; intros [|b t]; [reflexivity..|]. cbn [differences]. rewrite IH, N.eqb_sym. reflexivity. Qed.
Lemma nonzero_xors_comm : forall l m, nonzero (xors l m) = nonzero (xors m l).
Proof. induction l as [|a l IH]; intros [|b m]; [reflexivity..|]. cbn [xors]. unfold nonzero in *. cbn [filter]. rewrite (N.lxor_comm a b). destruct (negb _); cbn [length]; rewrite IH; reflexivity. Qed.
(** the symbols of a text *)
Lemma text_symbols : forall k v p s, program_valid v p -> segwit_text (prefix_text k) v p s ->
  exists l, s = prefix_text k ++ lit "1" ++ map fe_to_char (v :: l) /\ small (v :: l) /\ v <= 16 /\ polymod (expand (prefix_text k) ++ v :: l) = residue v /\
    (7 <= length l <= 70)%nat /\ (v = 0 -> (length l = 38 \/ length l = 58)%nat).
Proof.
  intros k v p s PV T. destruct T as (g & c & ch & V & [SG (pad & PP & EB)] & L6 & SC & P & F & ->). apply symbols_unmap in F. destruct F as [-> SM]. exists (g ++ c). repeat (split; [assumption || reflexivity|]).
  apply (f_equal (@length bool)) in EB. rewrite app_length, repeat_length, !flat_bits_len in EB. destruct PV as [[_ LP] V0]. rewrite app_length. unfold lenN in *. split; [lia|]. intro E. destruct (V0 E) as [Q|Q]; [left|right]; lia.
Qed.
Lemma map_char_differences : forall l m, small l -> small m -> length l = length m -> differences (map fe_to_char l) (map fe_to_char m) = N.of_nat (nonzero (xors l m)).
Proof. intros l m A B E. apply differences_symbols; [apply symbols_map, A|apply symbols_map, B|rewrite !map_length; exact E]. Qed.
Lemma residue_gap : forall v w, (v = 0 <-> w = 0) /\ residue v = residue w \/ (v = 0 /\ w <> 0 \/ v <> 0 /\ w = 0) /\ N.lxor (residue v) (residue w) = GAP.
Proof.
  intros v w. unfold residue. destruct (N.eqb_spec v 0) as [A|A], (N.eqb_spec w 0) as [B|B]; [left|right|right|left]; split; try reflexivity; tauto.
Qed.
Lemma nonzero_zero : forall d, nonzero d = 0%nat -> Forall (fun e => e = 0) d.
Proof. induction d as [|a d IH]; intro Z; constructor; unfold nonzero in Z; cbn [filter] in Z; destruct (N.eqb_spec a 0); cbn [negb length] in Z; [assumption|lia|apply IH; exact Z|lia]. Qed.
(** ** The same prefix *)
Lemma same_prefix : forall k v l w m, small (v :: l) -> small (w :: m) -> length l = length m -> (length l <= 70)%nat -> (v = 0 -> (length l = 38 \/ length l = 58)%nat) -> (w = 0 -> (length l = 38 \/ length l = 58)%nat) ->
  polymod (expand (prefix_text k) ++ v :: l) = residue v -> polymod (expand (prefix_text k) ++ w :: m) = residue w ->
  (nonzero (xors (v :: l) (w :: m)) <= 4)%nat -> ((v = 0 <-> w = 0) \/ (nonzero (xors (v :: l) (w :: m)) <= 3)%nat) -> v :: l = w :: m.
Proof.
  intros k v l w m SV SW LL L70 LV LW PV PW D4 D3. destruct (residue_gap v w) as [[Z R]|[Z R]].
  - apply (polymod_four (expand (prefix_text k))); [apply expand_small, prefix_ok|exact SV|exact SW|cbn [length]; lia|unfold SPAN4; cbn [length]; lia|exact D4|congruence].
  - exfalso. destruct D3 as [D3|D3]; [tauto|]. inversion SV as [|? ? V32 SL]; inversion SW as [|? ? W32 SM]; subst. rewrite polymod_app in PV, PW by assumption. rewrite <- PV, <- PW in R. cbn [length] in R. rewrite LL in R.
    set (z := zs _ _) in R. assert (G : val (xors (v :: l) (w :: m)) = GAP).
    { rewrite val_xors by (cbn [length]; lia). rewrite <- R. clearbody z. rewrite (N.lxor_comm z (val (w :: m))), N.lxor_assoc, (N.lxor_comm z), !N.lxor_assoc. rewrite N.lxor_nilpotent, N.lxor_0_r. reflexivity. }
    cbn [xors] in G, D3. assert (NX : N.lxor v w <> 0) by (intro X; apply N.lxor_eq in X; lia). revert G. apply gap_detects; [apply xor32; assumption|exact NX|apply xors_small; assumption|rewrite xors_len by exact LL; lia|].
    unfold nonzero in *. cbn [filter] in D3. rewrite (proj2 (N.eqb_neq _ _) NX) in D3. cbn [negb length] in D3. lia.
Qed.
(** ** "bc" and "tb" *)
Lemma swapped_prefix : forall v l w m, small (v :: l) -> small (w :: m) -> length l = length m -> (length l <= 70)%nat -> (v = 0 -> (length l = 38 \/ length l = 58)%nat) -> (w = 0 -> (length l = 38 \/ length l = 58)%nat) ->
  polymod (expand (lit "bc") ++ v :: l) = residue v -> polymod (expand (lit "tb") ++ w :: m) = residue w ->
  (nonzero (xors (v :: l) (w :: m)) <= 2)%nat -> ((v = 0 <-> w = 0) \/ (nonzero (xors (v :: l) (w :: m)) <= 1)%nat) -> False.
Proof.
  intros v l w m SV SW LL L70 LV LW PV PW D4 D3.
  change (expand (lit "bc") ++ v :: l) with ([3; 3; 0] ++ 2 :: 3 :: v :: l) in PV. change (expand (lit "tb") ++ w :: m) with ([3; 3; 0] ++ 20 :: 2 :: w :: m) in PW.
  assert (S1 : small (2 :: 3 :: v :: l)) by (repeat (constructor; [reflexivity|]); exact SV). assert (S2 : small (20 :: 2 :: w :: m)) by (repeat (constructor; [reflexivity|]); exact SW).
  destruct (residue_gap v w) as [[Z R]|[Z R]].
  - enough (2 :: 3 :: v :: l = 20 :: 2 :: w :: m) by discriminate. apply (polymod_four [3; 3; 0]); [repeat constructor|exact S1|exact S2|cbn [length]; lia|unfold SPAN4; cbn [length]; lia| |congruence].
    change (xors (2 :: 3 :: v :: l) (20 :: 2 :: w :: m)) with (22 :: 1 :: xors (v :: l) (w :: m)). unfold nonzero in *. cbn [filter N.eqb negb length]. cbn [filter] in D4. lia.
  - destruct D3 as [D3|D3]; [tauto|]. inversion SV as [|? ? V32 SL]; inversion SW as [|? ? W32 SM]; subst. rewrite polymod_app in PV, PW by assumption. rewrite <- PV, <- PW in R.
    assert (LX : length (2 :: 3 :: v :: l) = length (20 :: 2 :: w :: m)) by (cbn [length]; lia). rewrite LX in R. set (z := zs _ _) in R.
    assert (G : val (xors (2 :: 3 :: v :: l) (20 :: 2 :: w :: m)) = GAP).
    { rewrite val_xors by exact LX. rewrite <- R. clearbody z. set (a := val _). set (b := val _). clearbody a b. rewrite (N.lxor_comm z b), N.lxor_assoc, (N.lxor_comm z), !N.lxor_assoc. rewrite N.lxor_nilpotent, N.lxor_0_r. reflexivity. }
    change (xors (2 :: 3 :: v :: l) (20 :: 2 :: w :: m)) with (22 :: 1 :: N.lxor v w :: xors l m) in G. cbn [xors] in D3. assert (NX : N.lxor v w <> 0) by (intro X; apply N.lxor_eq in X; lia). revert G.
    apply hrp_gap_detects; [apply xor32; assumption|exact NX|rewrite xors_len by exact LL; lia|]. apply nonzero_zero. unfold nonzero in *. cbn [filter] in D3. rewrite (proj2 (N.eqb_neq _ _) NX) in D3. cbn [negb length] in D3. lia.
Qed.
(** ** "bcrt" and a shorter prefix *)
Lemma char_facts : forall x, x < 32 -> (49 =? fe_to_char x) = false /\ (fe_to_char x =? 116 = true -> x = 11).
Proof.
  intros x X. assert (C : forallb (fun x => negb (49 =? fe_to_char x) && (negb (fe_to_char x =? 116) || (x =? 11))) (map N.of_nat (seq 0 32)) = true) by (vm_compute; reflexivity).
  rewrite forallb_forall in C. specialize (C x (in32 x X)). apply andb_true_iff in C. destruct C as [C D]. split; [apply negb_true_iff, C|]. intro E. rewrite E in D. apply N.eqb_eq, D.
Qed.
Lemma skewed_prefix : forall hrp v l w m, hrp = lit "bc" \/ hrp = lit "tb" -> small (v :: l) -> small (w :: m) -> w <= 16 -> length m = (2 + length l)%nat -> (7 <= length l <= 70)%nat ->
  polymod (expand (lit "bcrt") ++ v :: l) = residue v -> polymod (expand hrp ++ w :: m) = residue w ->
  let D := differences (lit "bcrt1" ++ map fe_to_char (v :: l)) (hrp ++ lit "1" ++ map fe_to_char (w :: m)) in
  D <= 4 -> ((v = 0 <-> w = 0) \/ D <= 3) -> False.
Proof.
  intros hrp v l w m Q SV SW W16 LM L70 PV PW D D4 D3. destruct m as [|y m]; [cbn [length] in LM; lia|]. inversion SW as [|? ? W32 SM]; subst. inversion SM as [|? ? Y32 SM']; subst. cbn [length] in LM.
  assert (LL : length (v :: l) = length m) by (cbn [length]; lia). destruct (char_facts w W32) as [W1 WT], (char_facts y Y32) as [Y1 _].
  assert (DE : D = (if nth 0 hrp 0 =? 98 then 1 else 3) + (if fe_to_char w =? 116 then 0 else 1) + 1 + N.of_nat (nonzero (xors (v :: l) m))).
  { unfold D. rewrite <- map_char_differences by assumption. set (x := map fe_to_char (v :: l)). cbn [map]. set (z := map fe_to_char m). clearbody x z.
    destruct Q as [-> | ->].
    - change (lit "bcrt1" ++ x) with (98 :: 99 :: 114 :: 116 :: 49 :: x). change (lit "bc" ++ lit "1" ++ fe_to_char w :: fe_to_char y :: z) with (98 :: 99 :: 49 :: fe_to_char w :: fe_to_char y :: z). change (nth 0 (lit "bc") 0) with 98.
      cbn [differences]. rewrite Y1, (N.eqb_sym 116). cbn [N.eqb Pos.eqb]. lia.
    - change (lit "bcrt1" ++ x) with (98 :: 99 :: 114 :: 116 :: 49 :: x). change (lit "tb" ++ lit "1" ++ fe_to_char w :: fe_to_char y :: z) with (116 :: 98 :: 49 :: fe_to_char w :: fe_to_char y :: z). change (nth 0 (lit "tb") 0) with 116.
      cbn [differences]. rewrite Y1, (N.eqb_sym 116). cbn [N.eqb Pos.eqb]. lia. }
  clearbody D. apply (skew_detects hrp w y (v :: l) m (N.lxor (residue v) (residue w))); auto; [cbn [length]; unfold SPAN4; lia|rewrite <- PV, <- PW; reflexivity|].
  assert (WC : fe_to_char w =? 116 = true /\ w = 11 \/ fe_to_char w =? 116 = false) by (destruct (fe_to_char w =? 116); auto).
  destruct (residue_gap v w) as [[Z R]|[Z R]]; [left|right].
  - rewrite R, N.lxor_nilpotent. split; [reflexivity|]. destruct Q as [-> | ->].
    + change (nth 0 (lit "bc") 0) with 98 in DE. cbn [N.eqb Pos.eqb] in DE. destruct WC as [[WC ->]|WC]; rewrite WC in DE; [right; right; split; [reflexivity|]; split; [reflexivity|]; lia|right; left; lia].
    + change (nth 0 (lit "tb") 0) with 116 in DE. cbn [N.eqb Pos.eqb] in DE. left. destruct (fe_to_char w =? 116); lia.
  - split; [exact R|]. destruct D3 as [D3|D3]; [tauto|]. destruct Q as [-> | ->].
    + change (nth 0 (lit "bc") 0) with 98 in DE. cbn [N.eqb Pos.eqb] in DE. destruct WC as [[WC ->]|WC]; rewrite WC in DE; [right; split; [reflexivity|]; split; [reflexivity|]; lia|left; lia].
    + change (nth 0 (lit "tb") 0) with 116 in DE. cbn [N.eqb Pos.eqb] in DE. destruct (fe_to_char w =? 116); lia.
Qed.
(** ** All texts *)
Lemma text_four : forall k k' v p w q s t, bytes_ok p -> bytes_ok q -> program_valid v p -> program_valid w q ->
  segwit_text (prefix_text k) v p s -> segwit_text (prefix_text k') w q t -> lenN s = lenN t -> differences s t <= 4 -> ((v = 0 <-> w = 0) \/ differences s t <= 3) ->
  k = k' /\ v = w /\ p = q.
Proof.
  intros k k' v p w q s t OP OQ PV PW T1 T2 LS D4 D3.
  destruct (text_symbols k v p s PV T1) as (l & E1 & S1 & V1 & R1 & L1 & Z1), (text_symbols k' w q t PW T2) as (m & E2 & S2 & V2 & R2 & L2 & Z2).
  assert (LN : forall h x, length (prefix_text h ++ lit "1" ++ map fe_to_char x) = (length (prefix_text h) + 1 + length x)%nat) by (intros h x; rewrite !app_length, map_length; change (length (lit "1")) with 1%nat; lia).
  assert (LE : (length (prefix_text k) + length l = length (prefix_text k') + length m)%nat) by (unfold lenN in LS; rewrite E1, E2, !LN in LS; cbn [length] in LS; lia).
  assert (SAME : k = k' -> k = k' /\ v = w /\ p = q).
  { intros <-. split; [reflexivity|]. assert (LL : length l = length m) by lia. enough (X : v :: l = w :: m).
    - rewrite X in E1. rewrite <- E2 in E1. subst s. destruct (text_inj _ _ _ _ _ _ _ OP OQ T1 T2) as (_ & A & B). auto.
    - rewrite E1, E2, !differences_app, map_char_differences in D4, D3 by (assumption || (cbn [length]; lia)). apply (same_prefix k); auto; [lia|rewrite LL; auto|lia|destruct D3 as [D3|D3]; [left; exact D3|right; lia]]. }
  assert (SW : forall v l w m, small (v :: l) -> small (w :: m) -> length l = length m ->
     differences (lit "bc" ++ lit "1" ++ map fe_to_char (v :: l)) (lit "tb" ++ lit "1" ++ map fe_to_char (w :: m)) = 2 + N.of_nat (nonzero (xors (v :: l) (w :: m)))).
  { intros v0 l0 w0 m0 A B C. rewrite <- map_char_differences by (assumption || (cbn [length]; lia)). set (x := map fe_to_char _). set (y := map fe_to_char _). clearbody x y.
    change (lit "bc" ++ lit "1" ++ x) with (98 :: 99 :: 49 :: x). change (lit "tb" ++ lit "1" ++ y) with (116 :: 98 :: 49 :: y). cbn [differences N.eqb Pos.eqb]. lia. }
  assert (BR : forall x, lit "bcrt" ++ lit "1" ++ x = lit "bcrt1" ++ x) by reflexivity.
  assert (LC : forall h, length (prefix_text h) = match h with HRegtest => 4%nat | _ => 2%nat end) by (intros []; reflexivity). rewrite !LC in LE. subst s t.
  destruct k, k'; try (apply SAME; reflexivity); cbn [prefix_text] in *; exfalso.
  - rewrite SW in D4, D3 by (assumption || lia). apply (swapped_prefix v l w m); auto; [lia|lia|replace (length l) with (length m) by lia; exact Z2|lia|destruct D3 as [D3|D3]; [left; exact D3|right; lia]].
  - rewrite differences_comm, BR in D4, D3. apply (skewed_prefix (lit "bc") w m v l); auto; [lia|]. destruct D3 as [D3|D3]; [left; tauto|right; exact D3].
  - rewrite differences_comm, SW in D4, D3 by (assumption || lia). apply (swapped_prefix w m v l); auto; [lia|lia|replace (length m) with (length l) by lia; exact Z1|lia|destruct D3 as [D3|D3]; [left; tauto|right; lia]].
  - rewrite differences_comm, BR in D4, D3. apply (skewed_prefix (lit "tb") w m v l); auto; [lia|]. destruct D3 as [D3|D3]; [left; tauto|right; exact D3].
  - rewrite BR in D4, D3. apply (skewed_prefix (lit "bc") v l w m); auto. lia.
  - rewrite BR in D4, D3. apply (skewed_prefix (lit "tb") v l w m); auto. lia.
Qed.
