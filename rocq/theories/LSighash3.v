(** Lemmas: the signed messages determine what they cover. *)
From Coq Require Import String.
From Verif Require Import Base MDec LDec MWitness MTx SWire LCompact LWire MScript LScript MText LHash2 MSighash SSighash LSighash LSighash2.
Local Open Scope N_scope.

Definition splits {A B} (f : A -> bytes) (g : A -> B) (ok : A -> Prop) : Prop := forall x y s t, ok x -> ok y -> f x ++ s = f y ++ t -> g x = g y /\ s = t.
Lemma le_split : forall n, splits (le_bytes n) (fun v => v) (fun v => v < 256 ^ N.of_nat n).
Proof.
  intros n x y s t X Y E. apply app_inj_lenN in E as [E1 E2]; [|now rewrite !le_bytes_lenN]. split; [|exact E2]. apply (le_bytes_inj n); assumption.
Qed.
Lemma bytes_split : splits wire_bytes (fun b => b) (fun b => is_u64 (lenN b)).
Proof.
  intros x y s t X Y E. unfold wire_bytes in E. rewrite <- !wire_compact_eq, <- !app_assoc in E. apply cs_encode_inj in E as [E1 E2]; [|exact X|exact Y]. now apply app_inj_lenN in E2.
Qed.
Definition outpoint_repr (o : outpoint) : Prop := lenN (op_txid o) = 32 /\ is_u32 (op_vout o).
Lemma outpoint_split : splits wire_outpoint (fun o => o) outpoint_repr.
Proof.
  intros [x v] [y w] s t [X V] [Y W] E. cbn [op_txid op_vout] in *. unfold wire_outpoint in E. cbn [op_txid op_vout] in E. rewrite <- !app_assoc in E. apply app_inj_lenN in E as [-> E]; [|congruence].
  apply (le_split 4) in E as [-> ->]; [|exact V|exact W]. split; reflexivity.
Qed.
Lemma txout_split : splits wire_txout (fun o => o) txout_repr.
Proof.
  intros [x v] [y w] s t [X V] [Y W] E. cbn [to_amount to_script] in *. unfold wire_txout in E. cbn [to_amount to_script] in E. rewrite <- !app_assoc in E.
  apply (le_split 8) in E as [-> E]; [|exact X|exact Y]. apply bytes_split in E as [-> ->]; [|exact V|exact W]. split; reflexivity.
Qed.
Definition in3 (x : txin) := (ti_prevout x, ti_script x, ti_sequence x).
Lemma txin_split : splits wire_txin in3 txin_repr.
Proof.
  intros x y s t (X1 & X2 & X3 & X4) (Y1 & Y2 & Y3 & Y4) E. unfold wire_txin in E. rewrite <- !app_assoc in E. apply outpoint_split in E as [E1 E]; [|now split..].
  apply bytes_split in E as [E2 E]; [|exact X4|exact Y4]. apply (le_split 4) in E as [E3 ->]; [|exact X3|exact Y3]. unfold in3. split; [congruence|reflexivity].
Qed.
Lemma cat_split : forall A B (f : A -> bytes) (g : A -> B) ok, splits f g ok -> forall l m s t, Forall ok l -> Forall ok m -> length l = length m -> cat f l ++ s = cat f m ++ t -> map g l = map g m /\ s = t.
Proof.
  intros A B f g ok SP l. induction l as [|x l IH]; intros [|y m] s t Fl Fm LE E; try easy. inversion Fl; inversion Fm; subst. unfold cat in E. cbn [map concat] in E. rewrite <- !app_assoc in E.
  apply SP in E as [G E]; [|assumption..]. apply IH in E as [M ->]; [|assumption..|now injection LE]. cbn [map]. split; [congruence|reflexivity].
Qed.
Lemma cat_inj : forall A B (f : A -> bytes) (g : A -> B) ok, splits f g ok -> (forall x, f x <> []) -> forall l m, Forall ok l -> Forall ok m -> cat f l = cat f m -> map g l = map g m.
Proof.
  intros A B f g ok SP NE l. induction l as [|x l IH]; intros [|y m] Fl Fm E; try easy.
  - unfold cat in E. cbn [map concat] in E. destruct (f y) eqn:Y; [now apply NE in Y|easy].
  - unfold cat in E. cbn [map concat] in E. destruct (f x) eqn:Y; [now apply NE in Y|easy].
  - inversion Fl; inversion Fm; subst. unfold cat in E. cbn [map concat] in E. apply SP in E as [G E]; [|assumption..]. apply IH in E; [|assumption..]. cbn [map]. congruence.
Qed.
Lemma list_split : forall A B (f : A -> bytes) (g : A -> B) ok, splits f g ok -> splits (wire_list f) (map g) (fun l => Forall ok l /\ is_u64 (lenN l)).
Proof.
  intros A B f g ok SP l m s t [Fl Ul] [Fm Um] E. unfold wire_list in E. rewrite <- !wire_compact_eq, <- !app_assoc in E. apply cs_encode_inj in E as [E1 E2]; [|exact Ul|exact Um].
  eapply cat_split; eauto. unfold lenN in E1. lia.
Qed.
Lemma wire_bytes_ne : forall b, wire_bytes b <> [].
Proof.
  intros b E. apply (f_equal (@length _)) in E. unfold wire_bytes in E. rewrite app_length in E. unfold wire_compact in E. destruct (_ <? _); [cbn [length Nat.add] in E; lia|].
  destruct (_ <? _); [cbn [length Nat.add] in E; lia|]. destruct (_ <? _); cbn [length Nat.add] in E; lia.
Qed.
Lemma ne_app : forall A (a b : list A), a <> [] -> a ++ b <> []. Proof. now intros A [|x a] b N. Qed.
Lemma le_ne : forall n v, n <> O -> le_bytes n v <> [].
Proof. intros n v N E. apply (f_equal (@lenN _)) in E. rewrite le_bytes_lenN, lenN_nil in E. lia. Qed.
Lemma app_ne : forall A (a b : list A), b <> [] -> a ++ b <> []. Proof. now intros A [|x a] b N. Qed.
Lemma bytes_dec : forall a b : bytes, {a = b} + {a <> b}. Proof. apply list_eq_dec, N.eq_dec. Qed.
Lemma map_inv : forall A B C (f : A -> B) (g : A -> C) l m, map (fun x => (f x, g x)) l = map (fun x => (f x, g x)) m -> map f l = map f m /\ map g l = map g m.
Proof.
  intros A B C f g l. induction l as [|x l IH]; intros [|y m] E; try easy. cbn [map] in *. injection E as E1 E2 E3. destruct (IH _ E3) as [-> ->]. split; congruence.
Qed.
Lemma spent_eq : forall l m, map to_amount l = map to_amount m -> map to_script l = map to_script m -> l = m.
Proof.
  induction l as [|[x y] l IH]; intros [|[x' y'] m] E1 E2; try easy. cbn [map to_amount to_script] in *. injection E1 as -> E1. injection E2 as -> E2. f_equal. now apply IH.
Qed.
Lemma map_out : forall (l m : list txout), map (fun o => o) l = map (fun o => o) m -> l = m. Proof. intros l m. now rewrite !map_id. Qed.

(** projections of representable transactions *)
Lemma prevouts_repr : forall ins, Forall txin_repr ins -> Forall outpoint_repr (map ti_prevout ins).
Proof. intros ins F. apply Forall_map. eapply Forall_impl; [|exact F]. intros x (A & B & _). now split. Qed.
Lemma sequences_repr : forall ins, Forall txin_repr ins -> Forall is_u32 (map ti_sequence ins).
Proof. intros ins F. apply Forall_map. eapply Forall_impl; [|exact F]. now intros x (A & B & C & _). Qed.
Lemma cat_via : forall A B (f : A -> B) (g : B -> bytes) l, cat (fun x => g (f x)) l = cat g (map f l). Proof. intros. unfold cat. now rewrite map_map. Qed.
Lemma prevouts_inj : forall a b, Forall txin_repr a -> Forall txin_repr b -> cat (fun i => wire_outpoint (ti_prevout i)) a = cat (fun i => wire_outpoint (ti_prevout i)) b -> map ti_prevout a = map ti_prevout b.
Proof.
  intros a b FA FB E. rewrite !(cat_via _ _ ti_prevout wire_outpoint) in E. eapply cat_inj in E; [|apply outpoint_split|intro; apply app_ne, le_ne; discriminate|now apply prevouts_repr..]. now rewrite !map_id in E.
Qed.
Lemma sequences_inj : forall a b, Forall txin_repr a -> Forall txin_repr b -> cat (fun i => le_bytes 4 (ti_sequence i)) a = cat (fun i => le_bytes 4 (ti_sequence i)) b -> map ti_sequence a = map ti_sequence b.
Proof.
  intros a b FA FB E. rewrite !(cat_via _ _ ti_sequence (le_bytes 4)) in E. eapply cat_inj in E; [|apply (le_split 4)|intro; apply le_ne; discriminate|now apply sequences_repr..]. now rewrite !map_id in E.
Qed.
Lemma outputs_inj : forall a b, Forall txout_repr a -> Forall txout_repr b -> cat wire_txout a = cat wire_txout b -> a = b.
Proof.
  intros a b FA FB E. eapply cat_inj in E; [|apply txout_split|intro; apply app_ne, wire_bytes_ne|exact FA|exact FB]. now apply map_out.
Qed.
Lemma amounts_inj : forall a b, Forall txout_repr a -> Forall txout_repr b -> cat (fun o => le_bytes 8 (to_amount o)) a = cat (fun o => le_bytes 8 (to_amount o)) b -> map to_amount a = map to_amount b.
Proof.
  intros a b FA FB E. rewrite !(cat_via _ _ to_amount (le_bytes 8)) in E. eapply cat_inj in E; [|apply (le_split 8)|intro; apply le_ne; discriminate|..]; [now rewrite !map_id in E|..];
    apply Forall_map; (eapply Forall_impl; [|eassumption]); now intros x [A _].
Qed.
Lemma scripts_inj : forall a b, Forall txout_repr a -> Forall txout_repr b -> cat (fun o => wire_bytes (to_script o)) a = cat (fun o => wire_bytes (to_script o)) b -> map to_script a = map to_script b.
Proof.
  intros a b FA FB E. rewrite !(cat_via _ _ to_script wire_bytes) in E. eapply cat_inj in E; [|apply bytes_split|intro; apply wire_bytes_ne|..]; [now rewrite !map_id in E|..];
    apply Forall_map; (eapply Forall_impl; [|eassumption]); now intros x [_ A].
Qed.

Section Hash.
  Variable H : bytes -> bytes.
  Hypothesis H32 : forall m, lenN (H m) = 32.
  Definition collide (la lb : list bytes) : Prop := exists x y, In x la /\ In y lb /\ x <> y /\ H x = H y.
  Lemma collide_incl : forall la lb la' lb', collide la lb -> incl la la' -> incl lb lb' -> collide la' lb'.
  Proof. intros la lb la' lb' (x & y & X & Y & N & E) IA IB. exists x, y. auto. Qed.
  Lemma hashed_split : forall la lb s t, length la = length lb -> cat H la ++ s = cat H lb ++ t -> (la = lb \/ collide la lb) /\ s = t.
  Proof.
    induction la as [|x la IH]; intros [|y lb] s t L E; try easy; [split; auto|]. unfold cat in E. cbn [map concat] in E. rewrite <- !app_assoc in E. apply app_inj_lenN in E as [E1 E]; [|now rewrite !H32].
    apply IH in E as [E2 E3]; [|now injection L]. split; [|exact E3]. destruct (bytes_dec x y) as [<-|N].
    - destruct E2 as [->|C]; [now left|]. right. eapply collide_incl; [exact C|apply incl_tl, incl_refl..].
    - right. exists x, y. repeat split; auto; now left.
  Qed.
  Lemma hashed1 : forall x y, H x = H y -> x = y \/ collide [x] [y].
  Proof. intros x y E. destruct (bytes_dec x y) as [<-|N]; [now left|]. right. exists x, y. repeat split; auto; now left. Qed.

  Lemma tap_commits : forall a b, tap_repr a -> tap_repr b -> tap_valid a -> tap_valid b -> bip341_hash H a = bip341_hash H b ->
    tap_agree a b \/ collide (tap_messages H a) (tap_messages H b).
  Proof.
    intros a b RA RB VA VB E. unfold bip341_hash, tagged in E. destruct (hashed1 _ _ E) as [E1|C].
    2: { right. eapply collide_incl; [exact C|..]; intros x X; unfold tap_messages; rewrite !in_app_iff; auto. }
    clear E. apply app_inj_lenN in E1 as [_ E1]; [|reflexivity]. apply app_inj_lenN in E1 as [_ E1]; [|reflexivity]. assert (E : sig_msg H a = sig_msg H b) by congruence. clear E1.
    destruct RA as ((A1 & A2 & A3 & A4 & A5 & A6) & A7 & A8 & A9 & A10 & A11). destruct RB as ((B1 & B2 & B3 & B4 & B5 & B6) & B7 & B8 & B9 & B10 & B11).
    unfold sig_msg in E. cbn [app] in E. assert (ET : ta_ty a = ta_ty b) by congruence. apply (f_equal (@tl _)) in E. cbn [tl] in E.
    apply (le_split 4) in E as [EV E]; [|assumption..]. apply (le_split 4) in E as [EL E]; [|assumption..].
    apply hashed_split in E as [EH E]; [|unfold bip341_hashed; rewrite ET, !app_length; destruct (anyone (ta_ty b)), (_ || _); reflexivity].
    assert (EB : (ta_leaf a = None <-> ta_leaf b = None) /\ (ta_annex a = None <-> ta_annex b = None)).
    { injection E as E _. destruct (ta_leaf a), (ta_leaf b), (ta_annex a), (ta_annex b); try lia; split; split; easy. }
    apply (f_equal (@tl _)) in E. cbn [tl] in E. destruct VA as [VA1 VA2]. destruct VB as [VB1 VB2].
    set (ia := if anyone (ta_ty a) then _ else _) in E. set (ib := if anyone (ta_ty b) then _ else _) in E.
    assert (EI : (if anyone (ta_ty a) then option_map ti_prevout (nthN (tx_inputs (ta_tx a)) (ta_i a)) = option_map ti_prevout (nthN (tx_inputs (ta_tx b)) (ta_i b)) /\
       option_map ti_sequence (nthN (tx_inputs (ta_tx a)) (ta_i a)) = option_map ti_sequence (nthN (tx_inputs (ta_tx b)) (ta_i b)) /\ ta_prev a = ta_prev b
       else ta_i a = ta_i b) /\ exists sa sb, sa = sb /\ sa = cat H (fst (bip341_hashed2 a)) ++ cat H (snd (bip341_hashed2 a)) ++ match ta_leaf a with Some (h, pos) => h ++ 0 :: le_bytes 4 pos | None => [] end /\
         sb = cat H (fst (bip341_hashed2 b)) ++ cat H (snd (bip341_hashed2 b)) ++ match ta_leaf b with Some (h, pos) => h ++ 0 :: le_bytes 4 pos | None => [] end).
    { revert E. generalize (cat H (fst (bip341_hashed2 a)) ++ cat H (snd (bip341_hashed2 a)) ++ match ta_leaf a with Some (h, pos) => h ++ 0 :: le_bytes 4 pos | None => [] end).
      generalize (cat H (fst (bip341_hashed2 b)) ++ cat H (snd (bip341_hashed2 b)) ++ match ta_leaf b with Some (h, pos) => h ++ 0 :: le_bytes 4 pos | None => [] end). intros sb sa E.
      cut ((if anyone (ta_ty a) then option_map ti_prevout (nthN (tx_inputs (ta_tx a)) (ta_i a)) = option_map ti_prevout (nthN (tx_inputs (ta_tx b)) (ta_i b)) /\
       option_map ti_sequence (nthN (tx_inputs (ta_tx a)) (ta_i a)) = option_map ti_sequence (nthN (tx_inputs (ta_tx b)) (ta_i b)) /\ ta_prev a = ta_prev b
       else ta_i a = ta_i b) /\ sa = sb); [intros [Q1 Q2]; split; [exact Q1|]; exists sa, sb; auto|].
      subst ia ib. rewrite <- ET in E. unfold at_input in E. destruct (anyone (ta_ty a)).
      - destruct (nthN_some _ _ _ VA1) as [x X]. destruct (nthN_some _ _ _ VB1) as [y Y]. rewrite X, Y in E |- *. rewrite <- !app_assoc in E.
        assert (XR : txin_repr x) by (eapply Forall_forall; [exact A3|]; eapply nth_error_In; exact X). assert (YR : txin_repr y) by (eapply Forall_forall; [exact B3|]; eapply nth_error_In; exact Y).
        destruct XR as (X1 & X2 & X3 & X4). destruct YR as (Y1 & Y2 & Y3 & Y4). apply outpoint_split in E as [E1 E]; [|now split..].
        destruct (ta_prev a) as [pa sca]. destruct (ta_prev b) as [pb scb]. destruct A8 as [A8 A8']. destruct B8 as [B8 B8']. cbn [to_amount to_script] in *.
        apply (le_split 8) in E as [-> E]; [|assumption..]. apply bytes_split in E as [-> E]; [|assumption..]. apply (le_split 4) in E as [E2 E]; [|assumption..]. cbv beta in *. cbn [option_map]. rewrite E1, E2. split; [repeat split|exact E].
      - apply (le_split 4) in E as [E1 E]; [|assumption..]. split; [exact E1|exact E]. }
    destruct EI as [EI (sa & sb & E2 & SA & SB)]. clear E. rewrite SA, SB in E2. clear sa sb SA SB ia ib.
    apply hashed_split in E2 as [EX E2]; [|unfold bip341_hashed2; cbn [fst]; destruct (ta_annex a), (ta_annex b); try reflexivity; destruct EB as [_ [EB1 EB2]]; (specialize (EB1 eq_refl) || specialize (EB2 eq_refl)); easy].
    assert (OS : N.land (ta_ty a) 3 = 3 -> exists x y, nthN (tx_outputs (ta_tx a)) (ta_i a) = Some x /\ nthN (tx_outputs (ta_tx b)) (ta_i b) = Some y /\ txout_repr x /\ txout_repr y).
    { intro S3. destruct (nthN_some _ _ _ (VA2 S3)) as [x X]. rewrite ET in S3. destruct (nthN_some _ _ _ (VB2 S3)) as [y Y]. exists x, y. split; [exact X|]. split; [exact Y|].
      split; (eapply Forall_forall; [|eapply nth_error_In; eassumption]); assumption. }
    apply hashed_split in E2 as [EO E2].
    2: { unfold bip341_hashed2. cbn [snd]. rewrite <- ET. destruct (N.eqb_spec (N.land (ta_ty a) 3) 3) as [S3|]; [|reflexivity]. destruct (OS S3) as (x & y & X & Y & _). unfold at_output. now rewrite X, Y. }
    (* every list of hashed messages is equal, or there is a collision *)
    destruct EH as [EH|C]; [|right; eapply collide_incl; [exact C|..]; intros x X; unfold tap_messages; rewrite !in_app_iff; auto].
    destruct EX as [EX|C]; [|right; eapply collide_incl; [exact C|..]; intros x X; unfold tap_messages; rewrite !in_app_iff; auto].
    destruct EO as [EO|C]; [|right; eapply collide_incl; [exact C|..]; intros x X; unfold tap_messages; rewrite !in_app_iff; auto].
    left. unfold tap_agree. split; [exact ET|]. split; [exact EV|]. split; [exact EL|].
    split; [|split].
    - unfold bip341_hashed2 in EX. cbn [fst] in EX. destruct (ta_annex a) as [x|], (ta_annex b) as [y|]; try easy. injection EX as EX. rewrite <- (app_nil_r (wire_bytes x)), <- (app_nil_r (wire_bytes y)) in EX.
      apply bytes_split in EX as [-> _]; [reflexivity|now apply A10|now apply B10].
    - destruct EB as [[EB1 EB2] _]. destruct (ta_leaf a) as [[h p]|], (ta_leaf b) as [[h' p']|]; [|now specialize (EB2 eq_refl)|now specialize (EB1 eq_refl)|reflexivity].
      destruct (A11 _ _ eq_refl) as [L1 L2]. destruct (B11 _ _ eq_refl) as [L3 L4]. apply app_inj_lenN in E2 as [-> E2]; [|congruence]. cbn [app] in E2. assert (E3 : le_bytes 4 p = le_bytes 4 p') by congruence.
      apply le_bytes_inj in E3 as ->; [reflexivity|exact L2|exact L4].
    - unfold bip341_hashed in EH. rewrite <- ET in EH. split; [|split; [|split]].
      + intro NA. rewrite NA in EH, EI. cbn [app] in EH. injection EH as E1 E3 E4 E5 _. split; [now apply prevouts_inj|]. split; [now apply sequences_inj|]. split; [|exact EI].
        apply spent_eq; [now apply amounts_inj|now apply scripts_inj].
      + intro AN. rewrite AN in EI. exact EI.
      + intros N2 N3. apply N.eqb_neq in N2, N3. rewrite N2, N3 in EH. cbn [orb] in EH. apply outputs_inj; [assumption..|]. destruct (anyone (ta_ty a)); cbn [app] in EH; congruence.
      + intro S3. destruct (OS S3) as (x & y & X & Y & RX & RY). unfold bip341_hashed2 in EO. cbn [snd] in EO. rewrite <- ET in EO. apply N.eqb_eq in S3. rewrite S3 in EO. unfold at_output in EO. rewrite X, Y in EO |- *.
        f_equal. apply (txout_split x y [] []); [assumption..|]. f_equal. exact (f_equal (hd []) EO).
  Qed.

  (** * BIP 143 *)
  Definition zero32 : bytes := repeat 0 32.
  Definition parts_of (o : option bytes) : list bytes := opt_list o ++ map H (opt_list o).
  Lemma or_zero_split : forall oa ob s t, or_zero H oa ++ s = or_zero H ob ++ t ->
    (oa = ob \/ collide (parts_of oa) (parts_of ob) \/ exists m, (In m (parts_of oa) \/ In m (parts_of ob)) /\ H m = zero32) /\ s = t.
  Proof.
    intros oa ob s t E. assert (L : forall o, lenN (or_zero H o) = 32) by (intros [o|]; [apply H32|reflexivity]). apply app_inj_lenN in E as [E ->]; [|now rewrite !L]. split; [|reflexivity].
    destruct oa as [x|], ob as [y|]; cbn [or_zero] in E; [|..|now left].
    - unfold double in E. destruct (hashed1 _ _ E) as [E1|C]; [destruct (hashed1 _ _ E1) as [->|C]; [now left|]|].
      + right. left. eapply collide_incl; [exact C|..]; intros z Z; unfold parts_of; cbn [opt_list map]; rewrite in_app_iff; now left.
      + right. left. eapply collide_incl; [exact C|..]; intros z Z; unfold parts_of; cbn [opt_list map]; rewrite in_app_iff; now right.
    - right. right. exists (H x). split; [|exact E]. left. right. now left.
    - right. right. exists (H y). split; [|now symmetry]. right. right. now left.
  Qed.
  Lemma parts_incl : forall a o, incl (opt_list o) (v0_parts H a) -> incl (parts_of o) (v0_messages H a).
  Proof. intros a o I z Z. unfold parts_of, v0_messages in *. rewrite in_app_iff in *. destruct Z as [Z|Z]; [left; auto|right]. rewrite in_map_iff in *. destruct Z as (w & <- & W). exists w. auto. Qed.
  Lemma v0_commits : forall a b, v0_repr a -> v0_repr b -> va_i a < lenN (tx_inputs (va_tx a)) -> va_i b < lenN (tx_inputs (va_tx b)) ->
    double H (bip143_msg H a) = double H (bip143_msg H b) ->
    v0_agree a b \/ collide (v0_messages H a) (v0_messages H b) \/ exists m, (In m (v0_messages H a) \/ In m (v0_messages H b)) /\ H m = zero32.
  Proof.
    intros a b ((A1 & A2 & A3 & A4 & A5 & A6) & A7 & A8 & A9) ((B1 & B2 & B3 & B4 & B5 & B6) & B7 & B8 & B9) VA VB E.
    assert (IN : forall a z, In z (v0_messages H a) <-> In z (v0_parts H a) \/ In z (map H (v0_parts H a))) by (intros; unfold v0_messages; apply in_app_iff).
    unfold double in E. destruct (hashed1 _ _ E) as [E1|C].
    2: { right. left. eapply collide_incl; [exact C|..]; intros z [<-|[]]; apply IN; right; apply in_map; unfold v0_parts; rewrite !in_app_iff; do 3 right; now left. }
    clear E. destruct (hashed1 _ _ E1) as [E|C].
    2: { right. left. eapply collide_incl; [exact C|..]; intros z [<-|[]]; apply IN; left; unfold v0_parts; rewrite !in_app_iff; do 3 right; now left. }
    clear E1 IN. unfold bip143_msg in E. destruct (nthN_some _ _ _ VA) as [x X]. destruct (nthN_some _ _ _ VB) as [y Y]. rewrite X, Y in E. rewrite <- !app_assoc in E.
    assert (XR : txin_repr x) by (eapply Forall_forall; [exact A3|]; eapply nth_error_In; exact X). assert (YR : txin_repr y) by (eapply Forall_forall; [exact B3|]; eapply nth_error_In; exact Y).
    destruct XR as (X1 & X2 & X3 & X4). destruct YR as (Y1 & Y2 & Y3 & Y4).
    apply (le_split 4) in E as [EV E]; [|assumption..]. apply or_zero_split in E as [EP E]. apply or_zero_split in E as [ES E]. apply outpoint_split in E as [E1 E]; [|now split..].
    apply bytes_split in E as [E2 E]; [|assumption..]. apply (le_split 8) in E as [E3 E]; [|assumption..]. apply (le_split 4) in E as [E4 E]; [|assumption..]. apply or_zero_split in E as [EO E].
    apply (le_split 4) in E as [EL E]; [|assumption..]. apply le_bytes_inj in E as ET; [|assumption..]. clear E.
    assert (FIN : forall oa ob, incl (opt_list oa) (v0_parts H a) -> incl (opt_list ob) (v0_parts H b) ->
      oa = ob \/ collide (parts_of oa) (parts_of ob) \/ (exists m, (In m (parts_of oa) \/ In m (parts_of ob)) /\ H m = zero32) ->
      oa = ob \/ collide (v0_messages H a) (v0_messages H b) \/ exists m, (In m (v0_messages H a) \/ In m (v0_messages H b)) /\ H m = zero32).
    { intros oa ob IA IB [Q|[Q|(m & Q & Z)]]; [now left| |].
      - right. left. eapply collide_incl; [exact Q|now apply parts_incl..].
      - right. right. exists m. split; [|exact Z]. destruct Q as [Q|Q]; [left|right]; revert Q; now apply parts_incl. }
    destruct (FIN (v0_prevouts a) (v0_prevouts b) (fun z Z => ltac:(unfold v0_parts; rewrite !in_app_iff; tauto)) (fun z Z => ltac:(unfold v0_parts; rewrite !in_app_iff; tauto)) EP) as [EP'|Q]; [clear EP|now right].
    destruct (FIN (v0_sequences a) (v0_sequences b) (fun z Z => ltac:(unfold v0_parts; rewrite !in_app_iff; tauto)) (fun z Z => ltac:(unfold v0_parts; rewrite !in_app_iff; tauto)) ES) as [ES'|Q]; [clear ES|now right].
    destruct (FIN (v0_outputs a) (v0_outputs b) (fun z Z => ltac:(unfold v0_parts; rewrite !in_app_iff; tauto)) (fun z Z => ltac:(unfold v0_parts; rewrite !in_app_iff; tauto)) EO) as [EO'|Q]; [clear EO FIN|now right].
    left. unfold v0_prevouts in EP'. unfold v0_sequences in ES'. unfold v0_outputs in EO'. rewrite <- ET in EP', ES', EO'. unfold v0_agree. rewrite X, Y. cbn [option_map]. cbv beta in *. rewrite E1, E4.
    repeat split; try assumption.
    - intro NA. rewrite NA in EP'. injection EP' as EP'. now apply prevouts_inj.
    - intros NA PL. rewrite NA, PL in ES'. cbn [negb andb] in ES'. injection ES' as ES'. now apply sequences_inj.
    - intro PL. rewrite PL in EO'. injection EO' as EO'. now apply outputs_inj.
    - intro S3. assert (PL : plain (va_ty a) = false) by (unfold plain; rewrite S3; reflexivity). rewrite PL, S3 in EO'. change (3 =? 3) with true in EO'. cbn [option_map] in EO'.
      assert (IN : forall tx i o, Forall txout_repr (tx_outputs tx) -> nthN (tx_outputs tx) i = Some o -> txout_repr o) by (intros tx i o F Q; eapply Forall_forall; [exact F|]; eapply nth_error_In; exact Q).
      destruct (nthN (tx_outputs (va_tx a)) (va_i a)) as [oa|] eqn:QA, (nthN (tx_outputs (va_tx b)) (va_i b)) as [ob|] eqn:QB; try easy. cbn [option_map] in EO'. f_equal.
      apply (txout_split oa ob [] []); [exact (IN _ _ _ A4 QA)|exact (IN _ _ _ B4 QB)|]. f_equal. congruence.
  Qed.
End Hash.

(** * The original algorithm *)
Lemma wire_legacy_split : forall a b s t, tx_repr a -> tx_repr b -> wire_legacy a ++ s = wire_legacy b ++ t ->
  tx_version a = tx_version b /\ tx_lock_time a = tx_lock_time b /\ map in3 (tx_inputs a) = map in3 (tx_inputs b) /\ tx_outputs a = tx_outputs b /\ s = t.
Proof.
  intros a b s t (A1 & A2 & A3 & A4 & A5 & A6) (B1 & B2 & B3 & B4 & B5 & B6) E. unfold wire_legacy in E. rewrite <- !app_assoc in E.
  apply (le_split 4) in E as [EV E]; [|assumption..]. apply (list_split _ _ _ _ _ txin_split) in E as [EI E]; [|now split..]. apply (list_split _ _ _ _ _ txout_split) in E as [EO E]; [|now split..].
  apply (le_split 4) in E as [EL E]; [|assumption..]. apply map_out in EO. auto.
Qed.
Lemma forall_mapi : forall A B (P : A -> Prop) (Q : B -> Prop) (f : N -> A -> B), (forall n x, P x -> Q (f n x)) -> forall l n, Forall P l -> Forall Q (mapi f n l).
Proof. intros A B P Q f PQ l. induction l as [|x l IH]; intros n F; [constructor|]. inversion F; subst. constructor; auto. Qed.
Lemma copy_repr : forall ty i code tx, tx_repr tx -> i < lenN (tx_inputs tx) -> is_u64 (lenN code) -> single_bug tx i ty = false -> tx_repr (legacy_copy ty i code tx).
Proof.
  intros ty i code tx (A1 & A2 & A3 & A4 & A5 & A6) LT U NB. destruct (nthN_some _ _ _ LT) as [x X].
  assert (M : Forall txin_repr (mapi (copy_input ty i code) 0 (tx_inputs tx))).
  { eapply forall_mapi; [|exact A3]. intros n y (Y1 & Y2 & Y3 & Y4). unfold txin_repr, copy_input. cbn [ti_prevout ti_script ti_sequence]. repeat split; [assumption..| |].
    - destruct (_ || _); [assumption|reflexivity].
    - destruct (_ =? _); [assumption|reflexivity]. }
  unfold tx_repr, legacy_copy. cbn [tx_version tx_lock_time tx_inputs tx_outputs]. split; [exact A1|]. split; [exact A2|].
  assert (O : Forall txout_repr (repeat blank (N.to_nat i) ++ match nthN (tx_outputs tx) i with Some o => [o] | None => [] end)).
  { apply Forall_app. split; [apply Forall_forall; intros o Q; apply repeat_spec in Q; subst o; split; reflexivity|]. destruct (nthN (tx_outputs tx) i) as [o|] eqn:Q; [|constructor]. constructor; [|constructor].
    eapply Forall_forall; [exact A4|]. eapply nth_error_In. exact Q. }
  split; [|split; [|split]].
  - destruct (anyone ty); [|exact M]. destruct (nthN (mapi _ _ _) i) as [y|] eqn:Q; [|constructor]. constructor; [|constructor]. eapply Forall_forall; [exact M|]. eapply nth_error_In. exact Q.
  - destruct (_ =? 2); [constructor|]. destruct (_ =? 3); assumption.
  - destruct (anyone ty); [|rewrite mapi_len; exact A5]. destruct (nthN (mapi _ _ _) i); reflexivity.
  - unfold single_bug in NB. destruct (_ =? 2); [reflexivity|]. destruct (_ =? 3); [|exact A6]. cbn [andb] in NB. apply N.leb_gt in NB. destruct (nthN_some _ _ _ NB) as [o ->].
    rewrite lenN_app, lenN_cons, lenN_nil. unfold lenN at 1. rewrite repeat_length. unfold is_u64 in *. lia.
Qed.
Lemma mapi_map : forall A B C (g : B -> C) (f : N -> A -> B) l n, map g (mapi f n l) = mapi (fun n x => g (f n x)) n l.
Proof. intros A B C g f l. induction l as [|x l IH]; intro n; [reflexivity|]. cbn [mapi map]. now rewrite IH. Qed.
Lemma mapi_const : forall A B (f : A -> B) l n, mapi (fun _ x => f x) n l = map f l.
Proof. intros A B f l. induction l as [|x l IH]; intro n; [reflexivity|]. cbn [mapi map]. now rewrite IH. Qed.
Lemma legacy_commits : forall ty ty' i code code' a b, tx_repr a -> tx_repr b -> is_u32 ty -> is_u32 ty' -> is_u64 (lenN code) -> is_u64 (lenN code') ->
  i < lenN (tx_inputs a) -> i < lenN (tx_inputs b) -> single_bug a i ty = false -> single_bug b i ty' = false ->
  legacy_msg ty i code a = legacy_msg ty' i code' b -> ty = ty' /\ code = code' /\ legacy_agree ty i a b.
Proof.
  intros ty ty' i code code' a b RA RB T T' U U' LA LB NA NB E. unfold legacy_msg in E. apply wire_legacy_split in E as (EV & EL & EI & EO & E); [|now apply copy_repr..].
  apply le_bytes_inj in E; [|assumption..]. subst ty'. split; [reflexivity|]. cbn [legacy_copy tx_version tx_lock_time tx_inputs tx_outputs] in EV, EL, EI, EO.
  destruct (nthN_some _ _ _ LA) as [x X]. destruct (nthN_some _ _ _ LB) as [y Y].
  assert (AT : in3 (copy_input ty i code i x) = in3 (copy_input ty i code' i y)).
  { assert (XM : nthN (mapi (copy_input ty i code) 0 (tx_inputs a)) i = Some (copy_input ty i code i x)) by (unfold nthN in *; rewrite mapi_nth, X; cbn [option_map]; do 2 f_equal; lia).
    assert (YM : nthN (mapi (copy_input ty i code') 0 (tx_inputs b)) i = Some (copy_input ty i code' i y)) by (unfold nthN in *; rewrite mapi_nth, Y; cbn [option_map]; do 2 f_equal; lia).
    destruct (anyone ty).
    - rewrite XM, YM in EI. cbn [map] in EI. congruence.
    - apply (f_equal (fun l => nth_error l (N.to_nat i))) in EI. rewrite !nth_error_map in EI. unfold nthN in XM, YM. rewrite XM, YM in EI. cbn [option_map] in EI. congruence. }
  unfold in3, copy_input in AT. cbn [ti_prevout ti_script ti_sequence] in AT. rewrite N.eqb_refl in AT. cbn [orb] in AT.
  split; [congruence|]. unfold legacy_agree. rewrite X, Y. cbn [option_map]. split; [exact EV|]. split; [exact EL|]. split; [congruence|]. split; [congruence|]. split; [|split; [|split]].
  - intro AN. rewrite AN in EI. apply (f_equal (map (fun p => fst (fst p)))) in EI. rewrite !map_map, !mapi_map in EI. unfold in3, copy_input in EI. cbn [fst ti_prevout] in EI. now rewrite !mapi_const in EI.
  - intros AN PL. rewrite AN in EI. apply (f_equal (map snd)) in EI. rewrite !map_map, !mapi_map in EI. unfold in3, copy_input in EI. cbn [snd ti_sequence] in EI. rewrite PL in EI.
    assert (Q : forall c l n, mapi (fun n x => if (n =? i) || c then ti_sequence x else 0) n l = if c : bool then map ti_sequence l else mapi (fun n x => if (n =? i) || c then ti_sequence x else 0) n l).
    { intros c l. destruct c; [|reflexivity]. induction l as [|z l IH]; intro n; [reflexivity|]. cbn [mapi map]. rewrite IH. now rewrite Bool.orb_true_r. }
    now rewrite !Q in EI.
  - intro PL. unfold plain in PL. apply andb_prop in PL as [P2 P3]. destruct (_ =? 2); [easy|]. destruct (_ =? 3); [easy|exact EO].
  - intro S3. rewrite S3 in EO. change (3 =? 2) with false in EO. change (3 =? 3) with true in EO. cbn [negb] in EO. apply app_inv_head in EO.
    destruct (nthN (tx_outputs a) i), (nthN (tx_outputs b) i); congruence.
Qed.

(** * What is not covered does not matter *)
Lemma tap_ignores : forall H a b, tap_agree a b -> bip341_hash H a = bip341_hash H b.
Proof.
  intros H a b (ET & EV & EL & EX & EF & EN & EA & EO & E3). unfold bip341_hash. f_equal. f_equal. unfold sig_msg. rewrite <- ET, EV, EL, EX, EF. f_equal. f_equal. f_equal.
  assert (HH : bip341_hashed a = bip341_hashed b).
  { unfold bip341_hashed. rewrite <- ET. f_equal.
    - destruct (anyone (ta_ty a)); [reflexivity|]. destruct (EN eq_refl) as (P & Sq & SP & _). rewrite !(cat_via _ _ ti_prevout wire_outpoint), !(cat_via _ _ ti_sequence (le_bytes 4)), P, Sq, SP. reflexivity.
    - destruct (N.eqb_spec (N.land (ta_ty a) 3) 2); [reflexivity|]. destruct (N.eqb_spec (N.land (ta_ty a) 3) 3); [reflexivity|]. cbn [orb]. now rewrite EO. }
  assert (H2 : bip341_hashed2 a = bip341_hashed2 b).
  { unfold bip341_hashed2, at_output. rewrite <- ET, EX. f_equal. destruct (N.eqb_spec (N.land (ta_ty a) 3) 3) as [S3|]; [|reflexivity]. now rewrite (E3 S3). }
  rewrite HH, H2. f_equal. f_equal. f_equal. unfold at_input. destruct (anyone (ta_ty a)).
  - destruct (EA eq_refl) as (P & Sq & ->). destruct (nthN (tx_inputs (ta_tx a)) (ta_i a)), (nthN (tx_inputs (ta_tx b)) (ta_i b)); cbn [option_map] in *; try easy. injection P as ->. injection Sq as ->. reflexivity.
  - destruct (EN eq_refl) as (_ & _ & _ & ->). reflexivity.
Qed.
Lemma v0_ignores : forall H a b, v0_agree a b -> bip143_msg H a = bip143_msg H b.
Proof.
  intros H a b (ET & EV & EL & EC & EA & Pi & Si & P & Sq & O & O3). unfold bip143_msg. rewrite EV, EL, ET, EC, EA.
  assert (Q1 : v0_prevouts a = v0_prevouts b) by (unfold v0_prevouts; rewrite <- ET; destruct (anyone (va_ty a)); [reflexivity|]; rewrite !(cat_via _ _ ti_prevout wire_outpoint), P; reflexivity).
  assert (Q2 : v0_sequences a = v0_sequences b).
  { unfold v0_sequences. rewrite <- ET. destruct (anyone (va_ty a)); [reflexivity|]. destruct (plain (va_ty a)); [|reflexivity]. cbn [negb andb]. rewrite !(cat_via _ _ ti_sequence (le_bytes 4)), Sq; reflexivity. }
  assert (Q3 : v0_outputs a = v0_outputs b).
  { unfold v0_outputs. rewrite <- ET. destruct (plain (va_ty a)); [now rewrite O|]. destruct (N.eqb_spec (N.land (va_ty a) 0x1f) 3) as [S3|]; [|reflexivity]. now rewrite O3. }
  rewrite Q1, Q2, Q3. f_equal. f_equal. f_equal. f_equal.
  destruct (nthN (tx_inputs (va_tx a)) (va_i a)), (nthN (tx_inputs (va_tx b)) (va_i b)); cbn [option_map] in *; try easy. injection Pi as ->. injection Si as ->. reflexivity.
Qed.

(** SHA-256 gives 32 bytes *)
From Verif Require SHash SSha2.
Local Transparent SHash.iterate SSha2.compress.
Lemma compress_len : forall f l r, length r = 8%nat -> length (fold_left (SSha2.compress f) l r) = 8%nat.
Proof.
  intro f. assert (ST : forall l r, length r = 8%nat -> length (fold_left (SSha2.step f) l r) = 8%nat).
  { induction l as [|kw l IH]; intros r L; [exact L|]. cbn [fold_left]. apply IH. unfold SSha2.step. destruct r as [|? [|? [|? [|? [|? [|? [|? [|? [|? ?]]]]]]]]]; try exact L; reflexivity. }
  induction l as [|b l IH]; intros r L; [exact L|]. cbn [fold_left]. apply IH. unfold SSha2.compress, SSha2.add_words. rewrite map_length, combine_length, ST; rewrite L; reflexivity.
Qed.
Lemma out_len : forall f st, SSha2.fw f = 32 -> length st = 8%nat -> lenN (SSha2.out f st) = 32.
Proof.
  intros f st F L8. unfold SSha2.out. rewrite F. change (N.to_nat (32 / 8)) with 4%nat. destruct st as [|? [|? [|? [|? [|? [|? [|? [|? [|? ?]]]]]]]]]; try discriminate L8. reflexivity.
Qed.
Lemma iv_len : length SSha2.iv256 = 8%nat. Proof. vm_compute. reflexivity. Qed.
Lemma hash_len : forall f iv m, SSha2.fw f = 32 -> length iv = 8%nat -> lenN (SSha2.hash_with f iv m) = 32.
Proof. intros f iv m F L. unfold SSha2.hash_with. apply out_len; [exact F|]. unfold SSha2.hash_words, SHash.iterate. now apply compress_len. Qed.
Lemma SHA256_32 : forall m, lenN (SSha2.SHA256 m) = 32.
Proof. intro m. apply hash_len; [reflexivity|exact iv_len]. Qed.
