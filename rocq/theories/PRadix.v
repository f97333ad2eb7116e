(** C35: child numbers in other radices. *)
From Coq Require Import String.
From Verif Require Import Base MText SText LText MBip32 SBip32 LBip32 MRadix.
Local Open Scope N_scope.

(** A digit of the form: the usual ones, with letters of the form's case. *)
Definition digit_of (f : form) (c d : N) : Prop :=
  d < radix f /\ ((d < 10 /\ c = 48 + d) \/ (10 <= d /\ c = (match f with FUpperHex => 65 | _ => 97 end) + (d - 10))).
Definition prefix_of (f : form) : str := match f with FLowerHex | FUpperHex => lit "0x" | FOctal => lit "0o" | FBinary => lit "0b" end.
(** What the text of a child number looks like: the prefix if asked for, the digits of the index without leading zeros, and
    a mark when hardened. *)
Definition child_form (f : form) (alt : bool) (hardened : bool) (index : N) (s : str) : Prop :=
  exists digits, s = (if alt then prefix_of f else []) ++ digits ++ (if hardened then (if alt then (match f with FUpperHex => [72] | _ => [104] end) else [39]) else []) /\
  numeral (digit_of f) (radix f) digits index /\ (index = 0 -> digits = [48]) /\ (index <> 0 -> hd 0 digits <> 48).

Lemma radix_ge2 : forall f, 2 <= radix f <= 16. Proof. intros []; cbn [radix]; lia. Qed.
Lemma digit_char : forall f d, d < radix f -> digit_of f (hex_char (match f with FUpperHex => true | _ => false end) d) d.
Proof.
  intros f d D. split; [exact D|]. unfold hex_char. destruct (N.ltb_spec d 10); [left; lia|right]. split; [lia|]. destruct f; cbn [radix] in D; lia.
Qed.
Lemma rev_numeral : forall f k n, n < 2 ^ N.of_nat k -> (0 < k)%nat ->
  numeral (digit_of f) (radix f) (rev (radix_rev k (match f with FUpperHex => true | _ => false end) (radix f) n)) n /\
  (n = 0 -> rev (radix_rev k (match f with FUpperHex => true | _ => false end) (radix f) n) = [48]) /\
  (n <> 0 -> hd 0 (rev (radix_rev k (match f with FUpperHex => true | _ => false end) (radix f) n)) <> 48).
Proof.
  intros f. pose proof (radix_ge2 f) as R. set (r := radix f) in *. set (u := match f with FUpperHex => true | _ => false end).
  assert (DC : forall d, d < r -> digit_of f (hex_char u d) d) by (intros d; apply digit_char).
  assert (DZ : forall d, d < r -> d <> 0 -> hex_char u d <> 48).
  { intros d D Z. unfold hex_char. destruct (N.ltb_spec d 10); [lia|]. destruct u; lia. }
  clearbody u. induction k as [|k IH]; intros n L P; [lia|]. cbn [radix_rev].
  pose proof (N.div_mod n r ltac:(lia)) as D. pose proof (N.mod_lt n r ltac:(lia)) as M. set (q := n / r) in *. set (m := n mod r) in *. clearbody q m.
  destruct (N.eqb_spec q 0) as [Z|Z].
  - cbn [rev app]. assert (X : n = m) by (rewrite Z in D; lia). clear D. subst n. split; [constructor; apply DC; lia|]. split.
    + intros ->. reflexivity.
    + intros NZ. cbn [hd]. apply DZ; lia.
  - assert (QN : q < n) by nia. assert (Q : q < 2 ^ N.of_nat k).
    { rewrite Nat2N.inj_succ, N.pow_succ_r' in L. nia. }
    destruct k as [|k]; [cbn in Q; lia|]. destruct (IH q Q ltac:(lia)) as (A & B & C). cbn [rev]. split; [|split; [lia|]].
    + rewrite D. constructor; [exact A|]. apply DC. lia.
    + intros _. specialize (C Z). destruct (rev (radix_rev (S k) u r q)) eqn:E; [inversion A; destruct s; discriminate|]. exact C.
Qed.
(** Every child number has the text described, in every form. *)
Theorem C35_radix : forall f alt c, cn_ok c -> child_form f alt (2 ^ 31 <=? c) (c mod 2 ^ 31) (cn_format f alt c).
Proof.
  intros f alt c OK. unfold cn_format. rewrite cn_index_mod, is_hardened_iff by exact OK. set (i := c mod 2 ^ 31).
  assert (L : i < 2 ^ N.of_nat (S (N.to_nat (N.log2 i)))).
  { rewrite Nat2N.inj_succ, N2Nat.id. destruct (N.eq_dec i 0) as [->|Z]; [vm_compute; reflexivity|]. apply N.log2_spec. lia. }
  destruct (rev_numeral f _ i L ltac:(lia)) as (A & B & C). unfold fmt_radix. eexists. split; [|split; [exact A|split; [exact B|exact C]]].
  destruct (2 ^ 31 <=? c); [|now rewrite app_nil_r]. rewrite <- app_assoc. destruct alt, f; reflexivity.
Qed.
Lemma digit_fun : forall f c d d', digit_of f c d -> digit_of f c d' -> d = d'.
Proof. intros f c d d' [A B] [A' B']. destruct f; cbn [radix] in *; lia. Qed.
Lemma snoc_inv : forall (A : Type) (s t : list A) a b, s ++ [a] = t ++ [b] -> s = t /\ a = b.
Proof. intros A s t a b E. now apply app_inj_tail in E. Qed.
Lemma num_fun : forall f s n, numeral (digit_of f) (radix f) s n -> forall m, numeral (digit_of f) (radix f) s m -> n = m.
Proof.
  intros f s n H. induction H as [c d D|s n c d H IH D]; intros m K.
  - inversion K as [c' d' D'|s' n' c' d' H' D' E]; subst; [now apply (digit_fun f c)|]. apply (snoc_inv _ _ []) in E. destruct E as [-> ->]. inversion H'. now destruct s.
  - inversion K as [c' d' D' E|s' n' c' d' H' D' E]; subst.
    + apply (snoc_inv _ []) in E. destruct E as [<- ->]. inversion H. now destruct s.
    + apply snoc_inv in E. destruct E as [-> ->]. rewrite (IH _ H'), (digit_fun f c d d'); auto.
Qed.
Lemma num_last : forall f s n, numeral (digit_of f) (radix f) s n -> exists t c d, s = t ++ [c] /\ digit_of f c d.
Proof. intros f s n H. destruct H as [c d D|s n c d H D]; [now exists [], c, d|now exists s, c, d]. Qed.
(** Different child numbers never share a text in the same form. *)
Theorem C35_radix_injective : forall f alt a b, cn_ok a -> cn_ok b -> cn_format f alt a = cn_format f alt b -> a = b.
Proof.
  intros f alt a b A B E. destruct (C35_radix f alt a A) as (s & Es & Ns & _). destruct (C35_radix f alt b B) as (t & Et & Nt & _). rewrite Es, Et in E.
  apply app_inv_head in E. unfold cn_ok in *.
  set (m := if alt then match f with FUpperHex => [72] | _ => [104] end else [39]) in *.
  assert (M : exists x, m = [x] /\ forall d, ~ digit_of f x d).
  { unfold m. destruct alt; [destruct f|]; eexists; (split; [reflexivity|]); intros d [Dr D]; cbn [radix] in *; try lia. destruct f; cbn [radix] in *; lia. }
  destruct M as (x & Mx & NX). rewrite Mx in E. destruct (num_last _ _ _ Ns) as (s1 & cs & ds & Hs & Ds). destruct (num_last _ _ _ Nt) as (t1 & ct & dt & Ht & Dt).
  destruct (N.leb_spec (2 ^ 31) a) as [Ha|Ha], (N.leb_spec (2 ^ 31) b) as [Hb|Hb]; rewrite ?app_nil_r in E.
  - apply snoc_inv in E. destruct E as [E _]. rewrite <- E in Nt. pose proof (num_fun _ _ _ Ns _ Nt). lia.
  - rewrite Ht in E. apply snoc_inv in E. destruct E as [_ ->]. now apply NX in Dt.
  - rewrite Hs in E. apply snoc_inv in E. destruct E as [_ E]. subst cs. now apply NX in Ds.
  - rewrite <- E in Nt. pose proof (num_fun _ _ _ Ns _ Nt). lia.
Qed.
Example C35_radix_ex : cn_ok (2 ^ 31 + 42) /\ cn_format FUpperHex true (2 ^ 31 + 42) = lit "0x2AH" /\ cn_format FOctal false (2 ^ 31 + 42) = lit "52'" /\
  cn_format FBinary true 5 = lit "0b101" /\ cn_format FLowerHex false 0 = lit "0".
Proof. vm_compute. repeat split. Qed.
Print Assumptions C35_radix.
Print Assumptions C35_radix_injective.
