(** Lemmas on the group, tweaks and signatures of MSign.v. *)
From Coq Require Import String Bool.
From Verif Require Import Base MDec MText MBip32 MWitness MKey MTaproot MSighash MSig MSign STaproot SSign LDec LWire.
Local Open Scope N_scope.

Definition n := CURVE_ORDER.
Lemma n_pos : 1 < n.
Proof. reflexivity. Qed.

Section Group.
  Variable E : group.
  Hypothesis OK : group_ok E.
  Notation mul := (g_mul E).
  Notation G := (g_gen E).
  Notation zero := (g_zero E).
  Notation opp := (g_opp E).

  Lemma add_zero_r : forall a, g_add E a zero = a.
  Proof. intro a. rewrite (add_comm E OK). apply (add_zero E OK). Qed.
  Lemma add_cancel : forall a b c, g_add E a b = g_add E a c -> b = c.
  Proof.
    intros a b c Q. assert (K : g_add E (opp a) (g_add E a b) = g_add E (opp a) (g_add E a c)) by now rewrite Q.
    rewrite !(add_assoc E OK), !(add_comm E OK (opp a) a), (add_opp E OK), !(add_zero E OK) in K. exact K.
  Qed.
  Lemma opp_unique : forall a b, g_add E a b = zero -> b = opp a.
  Proof. intros a b Q. apply (add_cancel a). now rewrite (add_opp E OK). Qed.
  Lemma opp_opp : forall a, opp (opp a) = a.
  Proof. intro a. symmetry. apply opp_unique. rewrite (add_comm E OK). apply (add_opp E OK). Qed.
  Lemma opp_zero : opp zero = zero.
  Proof. symmetry. apply opp_unique. apply (add_zero E OK). Qed.
  Lemma mul_0 : forall p, mul 0 p = zero.
  Proof. reflexivity. Qed.
  Lemma mul_succ : forall k p, mul (N.succ k) p = g_add E p (mul k p).
  Proof. intros. unfold g_mul. now rewrite N.iter_succ. Qed.
  Lemma mul_add : forall a b p, mul (a + b) p = g_add E (mul a p) (mul b p).
  Proof.
    intros a b p. induction a as [|a IH] using N.peano_ind; [now rewrite mul_0, (add_zero E OK)|].
    rewrite N.add_succ_l, !mul_succ, IH. apply (add_assoc E OK).
  Qed.
  Lemma mul_mul : forall a b p, mul a (mul b p) = mul (a * b) p.
  Proof.
    intros a b p. induction a as [|a IH] using N.peano_ind; [reflexivity|]. rewrite N.mul_succ_l, N.add_comm, mul_add, mul_succ, IH. reflexivity.
  Qed.
  Lemma mul_n : mul n G = zero.
  Proof. apply (order E OK). apply N.mod_same. discriminate. Qed.
  Lemma mul_zero : forall k, mul k zero = zero.
  Proof. intro k. induction k as [|k IH] using N.peano_ind; [reflexivity|]. now rewrite mul_succ, IH, (add_zero E OK). Qed.
  Lemma mul_mod : forall k, mul (k mod n) G = mul k G.
  Proof.
    intro k. rewrite (N.div_mod k n) at 2 by discriminate. rewrite mul_add, N.mul_comm, <- mul_mul, mul_n, mul_zero. now rewrite (add_zero E OK).
  Qed.
  Lemma mul_opp : forall k, k <= n -> opp (mul k G) = mul (n - k) G.
  Proof. intros k L. symmetry. apply opp_unique. rewrite <- mul_add. replace (k + (n - k)) with n by lia. apply mul_n. Qed.
  Lemma mul_inj : forall a b, mul a G = mul b G <-> a mod n = b mod n.
  Proof.
    intros a b. split; intro Q; [|now rewrite <- (mul_mod a), <- (mul_mod b), Q].
    assert (K : mul (a + (n - b mod n)) G = zero).
    { rewrite mul_add, Q, <- (mul_mod b), <- mul_opp by (apply N.lt_le_incl, N.mod_lt; discriminate). apply (add_opp E OK). }
    apply (order E OK) in K. change CURVE_ORDER with n in K. rewrite <- N.add_mod_idemp_l in K by discriminate.
    pose proof (N.mod_lt a n ltac:(discriminate)). pose proof (N.mod_lt b n ltac:(discriminate)). set (x := a mod n) in *. set (y := b mod n) in *. clearbody x y.
    apply N.mod_divide in K; [|discriminate]. destruct K as [c K]. assert (c = 1) by nia. lia.
  Qed.
  Lemma mul_nonzero : forall d, SSign.secret_ok d -> mul d G <> zero.
  Proof. intros d [A B] Q. apply (order E OK) in Q. rewrite N.mod_small in Q by assumption. lia. Qed.

  (** ** x coordinates *)
  Lemma x_some : forall p, p <> zero -> exists b, g_x E p = Some b /\ hash_ok b.
  Proof. intros p Q. destruct (g_x E p) as [b|] eqn:K; [|now apply (x_none E OK) in K]. exists b. split; [reflexivity|]. now apply (x_32 E OK p). Qed.
  Lemma x_nz : forall p b, g_x E p = Some b -> p <> zero.
  Proof. intros p b Q K. apply (x_none E OK) in K. congruence. Qed.
  Lemma x_opp : forall p, g_x E (opp p) = g_x E p.
  Proof.
    intro p. destruct (g_x E p) as [b|] eqn:K; [apply (x_same E OK p _ b K); now right|]. apply (x_none E OK). apply (x_none E OK) in K. subst. apply opp_zero.
  Qed.
  Lemma lift_x : forall p b, g_x E p = Some b -> g_lift E b = Some (if g_odd E p then opp p else p).
  Proof.
    intros p b Q. apply (lift_iff E OK). destruct (g_odd E p) eqn:O; [|now split]. rewrite x_opp. split; [exact Q|]. rewrite (odd_opp E OK) by now apply (x_nz p b). now rewrite O.
  Qed.
  Lemma lift_some : forall b p, g_lift E b = Some p -> g_x E p = Some b /\ g_odd E p = false /\ p <> zero.
  Proof. intros b p Q. apply (lift_iff E OK) in Q. destruct Q as [Q O]. split; [exact Q|]. split; [exact O|]. now apply (x_nz p b). Qed.
  Lemma even_ok : forall d, SSign.secret_ok d -> SSign.secret_ok (even_secret E d) /\ mul (even_secret E d) G = (if g_odd E (mul d G) then opp (mul d G) else mul d G).
  Proof.
    intros d [A B]. unfold even_secret. change CURVE_ORDER with n in *. destruct (g_odd E (mul d G)).
    - split; [unfold SSign.secret_ok; change CURVE_ORDER with n; lia|]. symmetry. apply mul_opp. lia.
    - now repeat split.
  Qed.
  Lemma even_even : forall d, SSign.secret_ok d -> g_odd E (mul (even_secret E d) G) = false /\ g_x E (mul (even_secret E d) G) = g_x E (mul d G).
  Proof.
    intros d D. destruct (even_ok d D) as [_ Q]. rewrite Q. pose proof (mul_nonzero d D) as NZ. destruct (g_odd E (mul d G)) eqn:O; [|now split].
    rewrite (odd_opp E OK), O, x_opp by assumption. now split.
  Qed.
  Lemma lift_kp : forall d b, SSign.secret_ok d -> g_x E (mul d G) = Some b -> g_lift E b = Some (mul (even_secret E d) G).
  Proof. intros d b D Q. rewrite (lift_x _ _ Q). destruct (even_ok d D) as [_ K]. now rewrite K. Qed.

  (** ** x-only keys *)
  Lemma gk_eq : forall a b : gk E, proj1_sig a = proj1_sig b -> a = b.
  Proof. intros [a p] [b q] Q. cbn [proj1_sig] in Q. subst b. f_equal. apply Eqdep_dec.UIP_dec. apply bool_dec. Qed.
  Lemma gk_make_self : forall k : gk E, gk_make E (proj1_sig k) = Some k.
  Proof. intros [b p]. unfold gk_make. cbn [proj1_sig]. destruct (bool_dec _ _) as [q|q]; [|contradiction]. apply (f_equal Some). now apply gk_eq. Qed.
  Lemma gk_make_some : forall b k, gk_make E b = Some k -> proj1_sig k = b.
  Proof. intros b k. unfold gk_make. destruct (bool_dec _ _); [|discriminate]. intro Q. injection Q as <-. reflexivity. Qed.
  Lemma gk_make_x : forall p b, g_x E p = Some b -> exists k, gk_make E b = Some k /\ proj1_sig k = b.
  Proof.
    intros p b Q. unfold gk_make. destruct (bool_dec (liftable E b) true) as [q|q]; [now eexists|]. exfalso. apply q. unfold liftable. now rewrite (lift_x p b Q).
  Qed.
  Lemma gk_lift : forall k : gk E, exists p, g_lift E (proj1_sig k) = Some p.
  Proof. intros [b q]. cbn [proj1_sig]. unfold liftable in q. destruct (g_lift E b) as [p|]; [now exists p|discriminate]. Qed.
  Lemma gk_point : forall p, match gk_of_point E p with
    | Some (k, o) => p <> zero /\ g_x E p = Some (proj1_sig k) /\ o = g_odd E p
    | None => p = zero end.
  Proof.
    intro p. unfold gk_of_point. destruct (g_x E p) as [b|] eqn:Q; [|now apply (x_none E OK)]. destruct (gk_make_x p b Q) as (k & K & KB). rewrite K.
    split; [now apply (x_nz p b)|]. split; [now rewrite KB|reflexivity].
  Qed.
  (** a point is given by its x coordinate and the oddness of y *)
  Lemma point_eq : forall p q, p <> zero -> g_x E p = g_x E q -> g_odd E p = g_odd E q -> p = q.
  Proof.
    intros p q NZ X O. destruct (x_some p NZ) as (b & B & _). rewrite B in X. symmetry in X. apply (x_same E OK p q b B) in X. destruct X as [->| ->]; [reflexivity|].
    rewrite (odd_opp E OK) in O by assumption. now destruct (g_odd E p).
  Qed.
  Lemma lib_curve_ok : curve_ok (lib_curve E).
  Proof.
    constructor; cbn [lib_curve c_key c_ser c_parse c_add c_check].
    - intro k. destruct (gk_lift k) as [p Q]. apply lift_some in Q. now apply (x_32 E OK p).
    - apply gk_make_self.
    - intros b k _ Q. now apply gk_make_some.
    - intros k k' o t. unfold gk_check. destruct (gk_add E k t) as [[k2 o2]|]; [|split; discriminate]. rewrite andb_true_iff, LWitness.beqb_spec, Bool.eqb_true_iff.
      split; [intros [Q ->]; do 2 f_equal; apply gk_eq; exact Q|intro Q; injection Q as -> ->; now split].
    - intros k t t' r L L' Q Q'. unfold gk_add in *. destruct (g_lift E (proj1_sig k)) as [p|]; [|discriminate].
      pose proof (gk_point (g_add E p (mul t G))) as A. pose proof (gk_point (g_add E p (mul t' G))) as B. rewrite Q in A. rewrite Q' in B. destruct r as [kr o]. destruct A as (NZ & X & O), B as (_ & X' & O').
      assert (K : g_add E p (mul t G) = g_add E p (mul t' G)) by (apply point_eq; congruence). apply add_cancel, mul_inj in K. rewrite !N.mod_small in K by assumption. exact K.
  Qed.
  Lemma kp_xonly_spec : forall d, SSign.secret_ok d -> exists k, kp_xonly E d = Ret (@mk_xonly (lib_curve E) k (g_odd E (mul d G))) /\ g_x E (mul d G) = Some (proj1_sig k).
  Proof.
    intros d D. unfold kp_xonly, xonly_of_point, kp_public. pose proof (gk_point (mul d G)) as A. destruct (gk_of_point E (mul d G)) as [[k o]|]; [|exfalso; exact (mul_nonzero d D A)].
    destruct A as (_ & X & ->). exists k. now split.
  Qed.
End Group.
