(** Reading and writing segwit address texts. *)
From Coq Require Import String.
From Verif Require Import Base MText SBip158 SBech32 MBech32 LBip158 LBech32 SScript.
Local Open Scope N_scope.

Lemma lower_map : forall s, lower s = map to_lower s. Proof. reflexivity. Qed.
Lemma upper_map : forall s, upper s = map to_upper s. Proof. reflexivity. Qed.
Definition sym_ok (v : N) : bool :=
  let c := fe_to_char v in
  match fe_from_char c, fe_from_char (to_upper c) with
  | Some a, Some b => (a =? v) && (b =? v) && negb (is_upper c) && negb (c =? 49) && negb (to_upper c =? 49) && (to_lower (to_upper c) =? c) && (33 <=? c) && (c <=? 126) && negb (is_lower (to_upper c))
  | _, _ => false
  end.
Lemma in_range32 : forall v, v < 32 -> In v (map N.of_nat (seq 0 32)).
Proof. intros v V. apply in_map_iff. exists (N.to_nat v). split; [apply N2Nat.id|apply in_seq; lia]. Qed.
Lemma sym_all : forall v, v < 32 -> sym_ok v = true.
Proof.
  assert (X : forallb sym_ok (map N.of_nat (seq 0 32)) = true) by (vm_compute; reflexivity). rewrite forallb_forall in X. intros v V. apply X, in_range32, V.
Qed.
Lemma symbol_char : forall c v, symbol c v -> c = fe_to_char v /\ v < 32.
Proof. intros c v [V E]. split; [|exact V]. unfold fe_to_char. symmetry. apply nth_error_nth. exact E. Qed.
Lemma char_symbol : forall v, v < 32 -> symbol (fe_to_char v) v.
Proof. intros v V. split; [exact V|]. unfold fe_to_char. apply nth_error_nth'. change (length charset) with 32%nat. lia. Qed.
Lemma symbol_facts : forall c v, symbol c v -> fe_from_char c = Some v /\ fe_from_char (to_upper c) = Some v /\ is_upper c = false /\ c <> 49 /\ to_upper c <> 49 /\
  to_lower c = c /\ to_lower (to_upper c) = c /\ 33 <= c <= 126 /\ is_lower (to_upper c) = false.
Proof.
  intros c v Y. apply symbol_char in Y. destruct Y as [-> V]. pose proof (sym_all v V) as X. unfold sym_ok in X. set (c := fe_to_char v) in *. clearbody c.
  destruct (fe_from_char c) as [a|]; [|discriminate]. destruct (fe_from_char (to_upper c)) as [b|]; [|discriminate].
  repeat (apply andb_prop in X; destruct X as [X ?]).
  repeat match goal with H : negb _ = true |- _ => apply negb_true_iff in H | H : (_ =? _) = true |- _ => apply N.eqb_eq in H | H : (_ =? _) = false |- _ => apply N.eqb_neq in H | H : (_ <=? _) = true |- _ => apply N.leb_le in H end.
  subst a b. repeat split; auto. unfold to_lower. rewrite H5. reflexivity.
Qed.
Lemma index_of_spec : forall c l i v, index_of c l i = Some v -> i <= v /\ nth_error l (N.to_nat (v - i)) = Some c.
Proof.
  intros c l. induction l as [|x l IH]; intros i v H; cbn [index_of] in H; [discriminate|]. destruct (N.eqb_spec c x) as [->|Ne].
  - injection H as <-. split; [lia|]. rewrite N.sub_diag. reflexivity.
  - apply IH in H. destruct H as [L E]. split; [lia|]. replace (N.to_nat (v - i)) with (S (N.to_nat (v - (i + 1)))) by lia. exact E.
Qed.
Lemma fe_symbol : forall c v, fe_from_char c = Some v -> symbol (to_lower c) v.
Proof.
  intros c v H. apply index_of_spec in H. destruct H as [_ E]. rewrite N.sub_0_r in E. split; [|exact E].
  assert (X : (N.to_nat v < length charset)%nat) by (apply nth_error_Some; rewrite E; discriminate). change (length charset) with 32%nat in X. lia.
Qed.
Lemma all_some_spec : forall {A B} (f : A -> option B) l r, all_some (map f l) = Some r <-> Forall2 (fun a b => f a = Some b) l r.
Proof.
  intros A B f l. induction l as [|a l IH]; intro r; cbn [map all_some].
  - split; intro H; [injection H as <-; constructor|inversion H; reflexivity].
  - split; intro H.
    + destruct (f a) as [b|] eqn:X; [|discriminate]. destruct (all_some (map f l)) as [t|]; [|discriminate]. injection H as <-. constructor; [exact X|]. apply IH. reflexivity.
    + inversion H as [|? b ? t E F]; subst. rewrite E. apply IH in F. rewrite F. reflexivity.
Qed.
Lemma rsplit_none : forall c s, rsplit c s = None -> ~ In c s.
Proof.
  intros c s. induction s as [|x s IH]; intros H I; [exact I|]. cbn [rsplit] in H. destruct (rsplit c s) as [[a b]|]; [discriminate|]. destruct (N.eqb_spec x c); [discriminate|]. destruct I as [I|I]; [congruence|exact (IH eq_refl I)].
Qed.
Lemma rsplit_spec : forall c s a b, rsplit c s = Some (a, b) <-> s = a ++ c :: b /\ ~ In c b.
Proof.
  intros c s a b. split.
  - revert a b. induction s as [|x s IH]; intros a b H; cbn [rsplit] in H; [discriminate|]. destruct (rsplit c s) as [[u w]|] eqn:R.
    + injection H as <- <-. destruct (IH u w eq_refl) as [-> I]. split; [reflexivity|exact I].
    + destruct (N.eqb_spec x c) as [->|]; [|discriminate]. injection H as <- <-. split; [reflexivity|apply rsplit_none, R].
  - intros [-> I]. induction a as [|x a IH]; cbn [app rsplit].
    + destruct (rsplit c b) as [[u w]|] eqn:R.
      * exfalso. apply I. clear I. revert u w R. induction b as [|y b IH]; intros u w R; cbn [rsplit] in R; [discriminate|]. destruct (rsplit c b) as [[u' w']|]; [right; eapply IH; reflexivity|]. destruct (N.eqb_spec y c) as [->|]; [left; reflexivity|discriminate].
      * rewrite N.eqb_refl. reflexivity.
    + rewrite IH. reflexivity.
Qed.
Definition hrp_ok (hrp : str) : Prop := 1 <= lenN hrp <= 83 /\ Forall (fun c => 33 <= c <= 126) hrp.
Lemma lower_range : forall hrp, Forall (fun c => 33 <= c <= 126) hrp -> Forall (fun c => c < 128) (map to_lower hrp).
Proof.
  intros hrp F. apply Forall_map. revert F. apply Forall_impl. intros c H. unfold to_lower. destruct (is_upper c) eqn:U; [|lia]. unfold is_upper in U. lia.
Qed.
Lemma expand_small : forall hrp, Forall (fun c => c < 128) hrp -> small (expand hrp).
Proof.
  intros hrp F. unfold expand, small. rewrite !Forall_app, !Forall_map. split; [|split].
  - revert F. apply Forall_impl. intros c H. rewrite N.shiftr_div_pow2. apply N.div_lt_upper_bound; [discriminate|]. change (2 ^ 5 * 32) with 1024. lia.
  - repeat constructor.
  - revert F. apply Forall_impl. intros c _. change 31 with (N.ones 5). rewrite N.land_ones. apply N.mod_lt. discriminate.
Qed.
Lemma groups_small : forall p g, groups p g -> small g. Proof. intros p g [S _]. exact S. Qed.

(** ** Writing *)
Lemma symbols_map : forall l, small l -> Forall2 symbol (map fe_to_char l) l.
Proof. induction l as [|v l IH]; intro F; [constructor|]. inversion F; subst. constructor; [apply char_symbol; assumption|apply IH; assumption]. Qed.
Lemma symbols_unmap : forall l cs, Forall2 symbol cs l -> cs = map fe_to_char l /\ small l.
Proof. intros l cs F. induction F as [|c v cs l S F [-> IH]]; [split; [reflexivity|constructor]|]. apply symbol_char in S. destruct S as [-> V]. split; [reflexivity|constructor; assumption]. Qed.
Lemma encode_text : forall hrp v p, Forall (fun c => c < 128) hrp -> v <= 16 -> segwit_text hrp v p (encode_lower hrp v p).
Proof.
  intros hrp v p H V. pose proof (groups_to_fes p) as G. pose proof (groups_small _ _ G) as S. unfold encode_lower. set (g := bytes_to_fes p) in *. clearbody g.
  assert (SD : small (v :: g)) by (constructor; [lia|exact S]).
  destruct (checksum_spec hrp v (v :: g)) as (C & L & P); [apply Forall_app; split; [apply expand_small, H|exact SD]|]. set (c := checksum_of hrp v (v :: g)) in *. clearbody c.
  exists g, c, (map fe_to_char ((v :: g) ++ c)). split; [exact V|]. split; [exact G|]. split; [unfold lenN; rewrite L; reflexivity|]. split; [exact C|]. split; [exact P|]. split; [|reflexivity].
  apply symbols_map. change (v :: g ++ c) with ((v :: g) ++ c). apply Forall_app. split; assumption.
Qed.
Lemma text_unique : forall hrp v p s s', Forall (fun c => c < 128) hrp -> segwit_text hrp v p s -> segwit_text hrp v p s' -> s = s'.
Proof.
  intros hrp v p s s' H (g & c & cs & V & G & L & C & P & F & ->) (g' & c' & cs' & _ & G' & L' & C' & P' & F' & ->). rewrite (groups_unique p g g' G G') in *. 
  assert (c = c') as ->.
  { apply (checksum_unique (expand hrp ++ v :: g')); auto; [|unfold lenN in L; lia|unfold lenN in L'; lia|].
    - apply Forall_app. split; [apply expand_small, H|]. constructor; [lia|apply (groups_small p), G'].
    - rewrite <- !app_assoc. cbn [app]. rewrite P, P'. reflexivity. }
  apply symbols_unmap in F. apply symbols_unmap in F'. destruct F as [-> _], F' as [-> _]. reflexivity.
Qed.
Lemma text_chars : forall hrp v p s, segwit_text hrp v p s -> exists cs, s = hrp ++ 49 :: cs /\ Forall (fun c => exists x, symbol c x) cs.
Proof.
  intros hrp v p s (g & c & cs & _ & _ & _ & _ & _ & F & ->). exists cs. split; [reflexivity|]. clear - F. induction F; constructor; auto. eexists; eauto.
Qed.
Lemma syms_no_one : forall cs, Forall (fun c => exists x, symbol c x) cs -> ~ In 49 cs.
Proof. intros cs F I. rewrite Forall_forall in F. destruct (F _ I) as [x X]. apply symbol_facts in X. destruct X as (_ & _ & _ & X & _). congruence. Qed.
Lemma text_hrp : forall hrp v p s, segwit_text hrp v p s -> exists cs, rsplit 49 s = Some (hrp, cs) /\ s = hrp ++ 49 :: cs.
Proof. intros hrp v p s T. destruct (text_chars _ _ _ _ T) as (cs & -> & F). exists cs. split; [|reflexivity]. apply rsplit_spec. split; [reflexivity|apply syms_no_one, F]. Qed.
Lemma symbol_fun : forall c v w, symbol c v -> symbol c w -> v = w.
Proof. intros c v w A B. apply symbol_facts in A. apply symbol_facts in B. destruct A as [A _], B as [B _]. congruence. Qed.
Lemma symbols_fun : forall cs l m, Forall2 symbol cs l -> Forall2 symbol cs m -> l = m.
Proof. induction cs as [|c cs IH]; intros l m A B; inversion A; inversion B; subst; [reflexivity|]. f_equal; [eapply symbol_fun; eauto|eapply IH; eauto]. Qed.
Lemma text_inj : forall hrp v p hrp' v' p' s, bytes_ok p -> bytes_ok p' -> segwit_text hrp v p s -> segwit_text hrp' v' p' s -> hrp = hrp' /\ v = v' /\ p = p'.
Proof.
  intros hrp v p hrp' v' p' s OK OK' T T'. destruct (text_hrp _ _ _ _ T) as (cs & R & _). destruct (text_hrp _ _ _ _ T') as (cs' & R' & _). rewrite R in R'. injection R' as <- <-.
  destruct T as (g & c & cs1 & V & G & L & C & P & F & E). destruct T' as (g' & c' & cs2 & V' & G' & L' & C' & P' & F' & E').
  apply rsplit_spec in R. destruct R as [-> _]. apply app_inv_head in E. apply app_inv_head in E'. injection E as <-. injection E' as <-.
  pose proof (symbols_fun _ _ _ F F') as X. injection X as <- X. assert (g = g').
  { pose proof (f_equal (@length N) X) as Y. rewrite !app_length in Y. unfold lenN in *. assert (length g = length g') by lia.
    apply (f_equal (firstn (length g))) in X. rewrite !firstn_app, H, !Nat.sub_diag in X. cbn [firstn] in X. rewrite !app_nil_r, !firstn_all2 in X by lia. exact X. }
  subst g'. repeat split. apply (groups_inj p p' g); auto.
Qed.

(** ** Reading *)
Lemma lower_id : forall s, existsb is_upper s = false -> map to_lower s = s.
Proof.
  induction s as [|c s IH]; intro H; [reflexivity|]. cbn [existsb map] in *. apply orb_false_iff in H. destruct H as [U H]. rewrite (IH H). unfold to_lower. rewrite U. reflexivity.
Qed.
Lemma upper_lower : forall s, existsb is_lower s = false -> map to_upper (map to_lower s) = s.
Proof.
  induction s as [|c s IH]; intro H; [reflexivity|]. cbn [existsb map] in *. apply orb_false_iff in H. destruct H as [U H]. rewrite (IH H). f_equal. unfold to_lower, to_upper. destruct (is_upper c) eqn:X; [|rewrite U; reflexivity].
  unfold is_upper, is_lower in *. replace ((97 <=? c + 32) && (c + 32 <=? 122))%bool with true by lia. lia.
Qed.
Lemma existsb_upper_lower : forall s, existsb is_upper (map to_lower s) = false.
Proof.
  induction s as [|c s IH]; [reflexivity|]. cbn [map existsb]. rewrite IH, orb_false_r. unfold to_lower. destruct (is_upper c) eqn:U; [|exact U]. unfold is_upper in *. lia.
Qed.
Lemma existsb_lower_upper : forall s, existsb is_lower (map to_upper s) = false.
Proof.
  induction s as [|c s IH]; [reflexivity|]. cbn [map existsb]. rewrite IH, orb_false_r. unfold to_upper. destruct (is_lower c) eqn:U; [|exact U]. unfold is_lower in *. lia.
Qed.
Lemma lower_upper_lower : forall c, to_lower (to_upper c) = to_lower c.
Proof.
  intro c. unfold to_lower, to_upper. destruct (is_lower c) eqn:L; [|reflexivity]. unfold is_upper, is_lower in *. replace ((65 <=? c - 32) && (c - 32 <=? 90))%bool with true by lia. replace ((65 <=? c) && (c <=? 90))%bool with false by lia. lia.
Qed.
Lemma fe_upper : forall c, fe_from_char (to_upper c) = fe_from_char c.
Proof. intro c. unfold fe_from_char. rewrite lower_upper_lower. reflexivity. Qed.
Lemma decode_spec : forall s hrp v p,
  segwit_decode s = Some (hrp, v, p) <->
  bytes_ok p /\ program_valid v p /\ lenN s <= 90 /\ hrp_ok hrp /\
  exists t, segwit_text (lower hrp) v p t /\ ((s = t /\ hrp = lower hrp) \/ (s = upper t /\ hrp = upper (lower hrp))).
Proof.
  intros s hrp v p. split.
  - unfold segwit_decode. destruct (90 <? lenN s) eqn:LS; [discriminate|]. destruct (rsplit 49 s) as [[h d]|] eqn:R; [|discriminate].
    destruct (_ || _)%bool eqn:LH; [discriminate|]. destruct (forallb _ h) eqn:FH; [|discriminate]. cbn [negb]. destruct (existsb is_upper s && existsb is_lower s)%bool eqn:MX; [discriminate|].
    destruct (all_some (map fe_from_char d)) as [[|v0 rest]|] eqn:AS; [discriminate| |discriminate]. destruct (16 <? v0) eqn:V16; [discriminate|]. destruct (lenN rest <? 6) eqn:L6; [discriminate|].
    destruct (polymod _ =? residue v0) eqn:PM; [|discriminate]. cbn [negb]. destruct (fes_to_bytes _) as [q|] eqn:FB; [|discriminate]. destruct ((lenN q <? 2) || (40 <? lenN q))%bool eqn:LQ; [discriminate|].
    destruct ((v0 =? 0) && _ && _)%bool eqn:VQ; [discriminate|]. intro H. injection H as -> -> ->.
    apply rsplit_spec in R. destruct R as [R NI]. apply orb_false_iff in LH. destruct LH as [LH1 LH2]. apply orb_false_iff in LQ. destruct LQ as [LQ1 LQ2]. apply N.eqb_eq in PM.
    apply all_some_spec in AS. assert (SY : Forall2 symbol (map to_lower d) (v :: rest)).
    { clear - AS. induction AS as [|c w cs l E F IH]; cbn [map]; constructor; [apply fe_symbol; assumption|assumption]. }
    pose proof (proj2 (symbols_unmap _ _ SY)) as SM. inversion SM as [|? ? V32 SR]; subst.
    assert (RS : rest = firstn (length rest - 6) rest ++ skipn (length rest - 6) rest) by (symmetry; apply firstn_skipn).
    apply fes_to_bytes_spec in FB; [|rewrite RS in SR; apply Forall_app in SR; apply SR]. destruct FB as [OK G].
    assert (HR : Forall (fun c => 33 <= c <= 126) hrp) by (rewrite forallb_forall in FH; apply Forall_forall; intros c I; specialize (FH c I); lia).
    split; [exact OK|]. split; [|split; [lia|split; [split; [|exact HR]|]]].
    + split; [split; lia|]. intros ->. cbn [N.eqb andb] in VQ. apply andb_false_iff in VQ. rewrite !negb_false_iff, !N.eqb_eq in VQ. exact VQ.
    + apply N.eqb_neq in LH1. lia.
    + exists (map to_lower (hrp ++ 49 :: d)). split.
      * exists (firstn (length rest - 6) rest), (skipn (length rest - 6) rest), (map to_lower d). rewrite <- RS. split; [lia|]. split; [exact G|]. split; [unfold lenN in *; rewrite skipn_length; lia|]. split; [rewrite RS in SR; apply Forall_app in SR; apply SR|]. split; [exact PM|]. split; [exact SY|]. rewrite map_app. reflexivity.
      * apply andb_false_iff in MX. destruct MX as [MX|MX].
        -- left. pose proof (lower_id _ MX) as E. split; [symmetry; exact E|]. rewrite map_app in E. apply (f_equal (firstn (length hrp))) in E. rewrite !firstn_app, map_length, Nat.sub_diag in E. cbn [firstn] in E. rewrite !app_nil_r, !firstn_all2 in E by (rewrite ?map_length; lia). symmetry. exact E.
        -- right. pose proof (upper_lower _ MX) as E. split; [symmetry; exact E|]. rewrite !map_app in E. apply (f_equal (firstn (length hrp))) in E. rewrite !firstn_app, !map_length, Nat.sub_diag in E. cbn [firstn] in E. rewrite !app_nil_r, !firstn_all2 in E by (rewrite ?map_length; lia). symmetry. exact E.
  - intros (OK & [[V16 LP] V0] & LS & [LH HR] & t & T & X).
    assert (exists cs, s = hrp ++ 49 :: cs /\ (existsb is_upper s && existsb is_lower s)%bool = false /\ ~ In 49 cs /\
      exists g c, groups p g /\ lenN c = 6 /\ small c /\ polymod (expand (lower hrp) ++ v :: g ++ c) = residue v /\ Forall2 (fun a b => fe_from_char a = Some b) cs (v :: g ++ c)) as (cs & -> & MX & NI & g & c & G & L6 & C & PM & F).
    { destruct T as (g & c & ds & _ & G & L & C & P & F & E). assert (NO : ~ In 49 ds) by (apply syms_no_one; clear - F; induction F; constructor; eauto).
      assert (FE : Forall2 (fun a b => fe_from_char a = Some b) ds (v :: g ++ c)) by (clear - F; induction F as [|a b ds l S F IH]; constructor; [apply symbol_facts in S; apply S|exact IH]).
      assert (UP : existsb is_upper t = false).
      { rewrite E, !existsb_app. rewrite lower_map, existsb_upper_lower. change (existsb is_upper (lit "1")) with false. cbn [orb]. clear - F. induction F as [|a b ds l S F IH]; [reflexivity|]. cbn [existsb]. apply symbol_facts in S. destruct S as (_ & _ & -> & _). exact IH. }
      destruct X as [[-> H]|[-> H]].
      - exists ds. split; [rewrite H; exact E|]. split; [rewrite UP; reflexivity|]. split; [exact NO|]. exists g, c. auto 6.
      - exists (map to_upper ds). split; [rewrite E; unfold upper; rewrite !map_app; rewrite H at 2; reflexivity|]. split; [rewrite upper_map, existsb_lower_upper; apply andb_false_r|]. split.
        + intro I. apply in_map_iff in I. destruct I as (a & A & I). clear - F A I. induction F as [|b w ds l S F IH]; [exact I|]. destruct I as [->|I]; [|exact (IH I)]. apply symbol_facts in S. destruct S as (_ & _ & _ & _ & S & _). congruence.
        + exists g, c. split; [exact G|]. split; [exact L|]. split; [exact C|]. split; [exact P|]. clear - FE. induction FE; cbn [map]; constructor; [rewrite fe_upper; assumption|assumption]. }
    unfold segwit_decode. replace (90 <? _) with false by (symmetry; apply N.ltb_ge; exact LS). rewrite (proj2 (rsplit_spec 49 (hrp ++ 49 :: cs) hrp cs)) by auto.
    replace ((lenN hrp =? 0) || (83 <? lenN hrp))%bool with false by lia. replace (forallb _ hrp) with true by (symmetry; apply forallb_forall; rewrite Forall_forall in HR; intros x I; specialize (HR x I); lia). cbn [negb]. rewrite MX.
    rewrite (proj2 (all_some_spec fe_from_char cs (v :: g ++ c)) F). replace (16 <? v) with false by lia. assert (L : length c = 6%nat) by (unfold lenN in L6; lia).
    replace (lenN (g ++ c) <? 6) with false by (unfold lenN; rewrite app_length; lia). rewrite lower_map in PM. rewrite PM, N.eqb_refl. cbn [negb]. rewrite app_length, L. replace (length g + 6 - 6)%nat with (length g) by lia.
    rewrite firstn_app, Nat.sub_diag. cbn [firstn]. rewrite app_nil_r, firstn_all. rewrite (proj2 (fes_to_bytes_spec g p (groups_small p g G))) by auto.
    replace ((lenN p <? 2) || (40 <? lenN p))%bool with false by lia. destruct ((v =? 0) && _ && _)%bool eqn:VQ; [|reflexivity]. exfalso. destruct (N.eqb_spec v 0) as [->|]; [|discriminate]. specialize (V0 eq_refl). lia.
Qed.
