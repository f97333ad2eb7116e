(** Prefix parsers and their sequencing: the denotations of stateful decoders are built from these. *)
From Verif Require Import Base MDec LDec.
Local Open Scope N_scope.

Record prefixy {A E} (P : bytes -> outcome A E) : Prop := {
  pf_done : forall l v r, P l = Done v r -> exists p, l = p ++ r /\ forall t, P (p ++ t) = Done v t;
  pf_fail : forall l e t, P l = Fail e -> P (l ++ t) = Fail e;
  pf_boom : forall l t, P l = Boom -> P (l ++ t) = Boom }.

Definition obind {A EA B E} (fm ff : EA -> E) (o : outcome A EA) (Q : A -> bytes -> outcome B E) : outcome B E :=
  match o with
  | Done v r => Q v r
  | More e => More (fm e)
  | Fail e => Fail (ff e)
  | Boom => Boom
  end.

Lemma prefixy_bind : forall A EA B E (fm ff : EA -> E) (P : bytes -> outcome A EA) (Q : A -> bytes -> outcome B E),
  prefixy P -> (forall v, prefixy (Q v)) -> prefixy (fun l => obind fm ff (P l) Q).
Proof.
  intros A EA B E fm ff P Q HP HQ. constructor.
  - intros l v r H. unfold obind in H. destruct (P l) as [a r1| | |] eqn:Hl; try discriminate.
    destruct (pf_done _ HP _ _ _ Hl) as (p & -> & Hp).
    destruct (pf_done _ (HQ a) _ _ _ H) as (q & -> & Hq).
    exists (p ++ q). rewrite <- app_assoc. split; auto. intro t. unfold obind.
    rewrite <- app_assoc, Hp. apply Hq.
  - intros l e t H. unfold obind in *. destruct (P l) as [a r1| | |] eqn:Hl; try discriminate.
    + destruct (pf_done _ HP _ _ _ Hl) as (p & -> & Hp). rewrite <- app_assoc, Hp.
      now apply (pf_fail _ (HQ a)).
    + erewrite pf_fail by eauto. assumption.
  - intros l t H. unfold obind in *. destruct (P l) as [a r1| | |] eqn:Hl; try discriminate.
    + destruct (pf_done _ HP _ _ _ Hl) as (p & -> & Hp). rewrite <- app_assoc, Hp.
      now apply (pf_boom _ (HQ a)).
    + rewrite pf_boom by auto. reflexivity.
Qed.

Lemma prefixy_fin : forall A E (x : rust (result A E)), prefixy (fun l => of_fin x l).
Proof.
  intros A E [[v|e]|]; constructor; cbn; intros; inv H; auto. exists []. auto.
Qed.
Lemma prefixy_fail : forall A E (e : E), prefixy (fun _ => Fail e : outcome A E).
Proof. intros. constructor; intros; congruence. Qed.

Lemma prefixy_lawful : forall A E (D : decoder A E) g den, lawful D g den -> forall s, g s -> prefixy (den s).
Proof.
  intros A E D g den L s G. constructor; intros.
  - now apply (law_done _ _ _ L).
  - now apply (law_fail _ _ _ L).
  - now apply (law_boom _ _ _ L).
Qed.

Lemma prefixy_ext : forall A E (P Q : bytes -> outcome A E), (forall l, P l = Q l) -> prefixy P -> prefixy Q.
Proof.
  intros A E P Q H HP. constructor; intros; rewrite <- H in *.
  - destruct (pf_done _ HP _ _ _ H0) as (p & ? & ?). exists p. split; auto. intro. now rewrite <- H.
  - now apply pf_fail.
  - now apply pf_boom.
Qed.

(** Take exactly [n] bytes. *)
Definition otake {E} (n : N) (e : E) (l : bytes) : outcome bytes E :=
  if lenN l <? n then More e else Done (takeN n l) (dropN n l).
Lemma prefixy_take : forall E n (e : E), prefixy (otake n e).
Proof.
  intros. constructor; intros; unfold otake in *.
  - destruct (lenN l <? n) eqn:Hl; inv H. exists (takeN n l). split; [now rewrite takeN_dropN|].
    assert (lenN (takeN n l) = n) by (rewrite lenN_takeN; lia).
    intro t. rewrite lenN_app. replace (_ <? _) with false by lia.
    rewrite takeN_app_le, dropN_app_le by lia. rewrite (takeN_all n (takeN n l)), dropN_all by lia. reflexivity.
  - destruct (lenN l <? n) in H; discriminate.
  - destruct (lenN l <? n) in H; discriminate.
Qed.

Lemma prefixy_shrink : forall A E (P : bytes -> outcome A E) l v r, prefixy P -> P l = Done v r -> lenN r <= lenN l.
Proof. intros A E P l v r H HP. destruct (pf_done _ H _ _ _ HP) as (p & -> & _). rewrite lenN_app. lia. Qed.

Lemma of_fin_done : forall A E (x : rust (result A E)) l v r, of_fin x l = Done v r -> x = Ret (Ok v) /\ r = l.
Proof. intros A E [[]|] l v r H; cbn in H; inv H; auto. Qed.
