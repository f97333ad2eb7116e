(** Lemmas for C30: matching. *)
From Coq Require Import Permutation Sorting.Sorted.
From Verif Require Import Base MDec MWitness MTx MSip MScript MBip152 SWire SSip LDec LDrive LCompact LCodec LBuilt LWire PSip LBip152 MBip158 SBip158 LBip158 LBip158b.
Local Open Scope N_scope.

Lemma sorted_app_ge : forall (pre : list N) d post, StronglySorted N.le (pre ++ d :: post) -> StronglySorted N.le (d :: post).
Proof. induction pre as [|x pre IH]; intros d post S1; cbn [app] in S1; [exact S1|]. inversion S1; subst. now apply IH. Qed.
Lemma sorted_head : forall d (post : list N) x, StronglySorted N.le (d :: post) -> In x (d :: post) -> d <= x.
Proof. intros d post x S1 [->|I]; [lia|]. inversion S1 as [|? ? _ F]; subst. exact (proj1 (Forall_forall _ _) F x I). Qed.
Lemma advance_spec : forall gp p vs r data tail, gp < 64 -> r_ok r -> StronglySorted N.le (data :: vs) -> Forall (fun v => v < 2 ^ 64) (data :: vs) ->
  rbits r = flat_map (golomb gp) (gaps data vs) ++ tail ->
  (Forall (fun v => v < p) (data :: vs) /\ advance gp (length vs) r data p = Ret (Ok None)) \/
  exists pre d post r', data :: vs = pre ++ d :: post /\ Forall (fun v => v < p) pre /\ p <= d /\ advance gp (length vs) r data p = Ret (Ok (Some (length post, r', d))) /\ r_ok r' /\
    rbits r' = flat_map (golomb gp) (gaps d post) ++ tail.
Proof.
  intros gp p. induction vs as [|v vs IH]; intros r data tail P R S1 F E; cbn [advance length].
  - destruct (N.leb_spec p data) as [L|L].
    + right. exists [], data, [], r. cbn [app length] in *. auto 6.
    + left. split; [repeat constructor; exact L|reflexivity].
  - destruct (N.leb_spec p data) as [L|L].
    + right. exists [], data, (v :: vs), r. cbn [app length] in *. auto 6.
    + cbn [gaps flat_map] in E. rewrite <- app_assoc in E. inversion S1 as [|? ? S2 F2]; subst. pose proof (Forall_inv F2) as LE. cbn beta in LE. pose proof (Forall_inv (Forall_inv_tail F)) as LV. cbn beta in LV.
      destruct (golomb_decode_spec gp r (v - data) _ R P ltac:(lia) E) as (r1 & -> & R1 & E1). cbn [rbind]. replace (data + (v - data)) with v by lia. replace (U64 <=? v) with false by (change U64 with (2 ^ 64); lia).
      destruct (IH r1 v tail P R1 S2 (Forall_inv_tail F) E1) as [[A B]|(pre & d & post & r2 & A & B & C & D & R2 & E2)].
      * left. split; [constructor; [exact L|exact A]|exact B].
      * right. exists (data :: pre), d, post, r2. rewrite A. split; [reflexivity|]. split; [constructor; [exact L|exact B]|]. auto.
Qed.
Section Loops.
Context (gp : N) (P : gp < 64) (tail : list bool).
Lemma any_loop_spec : forall mapped vs r data, r_ok r -> StronglySorted N.le mapped -> StronglySorted N.le (data :: vs) -> Forall (fun v => v < 2 ^ 64) (data :: vs) ->
  rbits r = flat_map (golomb gp) (gaps data vs) ++ tail ->
  exists b, any_loop gp mapped (length vs) r data = Ret (Ok b) /\ (b = true <-> exists x, In x mapped /\ In x (data :: vs)).
Proof using P.
  induction mapped as [|p mapped IH]; intros vs r data R SM SV F E; cbn [any_loop].
  - exists false. split; [reflexivity|]. split; [discriminate|]. intros (x & [] & _).
  - inversion SM as [|? ? SM1 SM2]; subst. assert (GE : forall x, In x (p :: mapped) -> p <= x) by (intros x I; exact (sorted_head p mapped x SM I)).
    destruct (advance_spec gp p vs r data tail P R SV F E) as [[A ->]|(pre & d & post & r' & A & B & C & -> & R' & E')]; cbn [rbind].
    + exists false. split; [reflexivity|]. split; [discriminate|]. intros (x & I & J). pose proof (proj1 (Forall_forall _ _) A x J). cbn beta in H. specialize (GE x I). lia.
    + destruct (N.eqb_spec d p) as [->|Ne].
      * exists true. split; [reflexivity|]. split; [|auto]. intros _. exists p. split; [left; reflexivity|]. rewrite A. apply in_or_app. right. left. reflexivity.
      * rewrite A in SV, F. apply Forall_app in F. destruct F as [_ F]. apply sorted_app_ge in SV. destruct (IH post r' d R' SM1 SV F E') as (b & -> & X). exists b. split; [reflexivity|]. rewrite X, A.
        split; intros (x & I & J); exists x.
        { split; [right; exact I|apply in_or_app; right; exact J]. }
        apply in_app_or in J. destruct J as [J|J]; [pose proof (proj1 (Forall_forall _ _) B x J); cbn beta in H; specialize (GE x I); lia|]. split; [|exact J].
        destruct I as [<-|I]; [|exact I]. pose proof (sorted_head _ _ _ SV J). lia.
Qed.
Lemma all_loop_spec : forall mapped vs r data, r_ok r -> StronglySorted N.le mapped -> StronglySorted N.le (data :: vs) -> Forall (fun v => v < 2 ^ 64) (data :: vs) ->
  rbits r = flat_map (golomb gp) (gaps data vs) ++ tail ->
  exists b, all_loop gp mapped (length vs) r data = Ret (Ok b) /\ (b = true <-> forall x, In x mapped -> In x (data :: vs)).
Proof using P.
  induction mapped as [|p mapped IH]; intros vs r data R SM SV F E; cbn [all_loop].
  - exists true. split; [reflexivity|]. split; [intros _ x []|reflexivity].
  - inversion SM as [|? ? SM1 SM2]; subst. assert (GE : forall x, In x (p :: mapped) -> p <= x) by (intros x I; exact (sorted_head p mapped x SM I)).
    destruct (advance_spec gp p vs r data tail P R SV F E) as [[A ->]|(pre & d & post & r' & A & B & C & -> & R' & E')]; cbn [rbind].
    + exists false. split; [reflexivity|]. split; [discriminate|]. intro X. specialize (X p (or_introl eq_refl)). pose proof (proj1 (Forall_forall _ _) A p X). cbn beta in H. lia.
    + destruct (N.eqb_spec d p) as [->|Ne].
      * rewrite A in SV, F. apply Forall_app in F. destruct F as [_ F]. apply sorted_app_ge in SV. destruct (IH post r' p R' SM1 SV F E') as (b & -> & X). exists b. split; [reflexivity|]. rewrite X, A. split.
        { intros Y x [<-|I]; [apply in_or_app; right; left; reflexivity|]. apply in_or_app. right. apply Y. exact I. }
        intros Y x I. specialize (Y x (or_intror I)). apply in_app_or in Y. destruct Y as [Y|Y]; [|exact Y]. pose proof (proj1 (Forall_forall _ _) B x Y). cbn beta in H. specialize (GE x (or_intror I)). lia.
      * exists false. split; [reflexivity|]. split; [discriminate|]. intro X. specialize (X p (or_introl eq_refl)). rewrite A in X, SV. apply sorted_app_ge in SV. apply in_app_or in X. destruct X as [X|X].
        { pose proof (proj1 (Forall_forall _ _) B p X). cbn beta in H. lia. }
        pose proof (sorted_head _ _ _ SV X). lia.
Qed.
End Loops.
Lemma dedup_in : forall l x, In x (dedup l) <-> In x l.
Proof.
  induction l as [|a l IH]; intro x; [reflexivity|]. cbn [dedup]. destruct l as [|b l]; [reflexivity|]. destruct (N.eqb_spec a b) as [->|Ne].
  - rewrite IH. cbn [In]. tauto.
  - cbn [In] in *. rewrite IH. tauto.
Qed.
Lemma dedup_sorted : forall l, StronglySorted N.le l -> StronglySorted N.le (dedup l).
Proof.
  induction l as [|a l IH]; intro S1; [exact S1|]. inversion S1 as [|? ? S2 F]; subst. cbn [dedup]. destruct l as [|b l]; [constructor; constructor|]. destruct (N.eqb a b); [auto|].
  constructor; [auto|]. apply Forall_forall. intros x I. apply (proj1 (dedup_in (b :: l) x)) in I. exact (proj1 (Forall_forall _ _) F x I).
Qed.

Lemma cs_back : forall n r, n < 2 ^ 64 -> decode_from_slice_unbounded cs_u64_dec (wire_compact n ++ r) = Ret (Ok n, r).
Proof. intros n r L. rewrite <- wire_compact_eq. apply (codec_back _ _ _ _ _ cs_u64_codec). exact L. Qed.
Lemma match_spec : forall g vs tail content query, gcs_ok g -> holds (g_p g) vs tail content -> lenN vs < 2 ^ 64 -> lenN vs * g_m g < 2 ^ 64 -> Forall element_ok query ->
  (exists b, gcs_match_any g content query = Ret (Ok b) /\ (b = true <-> exists q, In q query /\ In (slot (g_k0 g) (g_k1 g) (lenN vs * g_m g) q) vs)) /\
  (exists b, gcs_match_all g content query = Ret (Ok b) /\ (b = true <-> forall q, In q query -> In (slot (g_k0 g) (g_k1 g) (lenN vs * g_m g) q) vs)).
Proof.
  intros g vs tail content query (K0 & K1 & P) (SV & FV & body & -> & OB & EB) L Nm Q. unfold gcs_match_any, gcs_match_all, with_filter. rewrite cs_back by exact L. cbn [rbind].
  replace (U64 <=? lenN vs * g_m g) with false by (change U64 with (2 ^ 64); lia). rewrite map_elements_spec by auto. cbn [rbind]. set (mapped := map _ query).
  assert (INM : forall x, In x (sort_n mapped) <-> exists q, In q query /\ slot (g_k0 g) (g_k1 g) (lenN vs * g_m g) q = x).
  { intro x. split; [intro I; apply (Permutation_in _ (Permutation_sym (sort_perm mapped))) in I; unfold mapped in I; apply in_map_iff in I; destruct I as (q & A & B); exists q; auto|].
    intros (q & A & B). apply (Permutation_in _ (sort_perm mapped)). unfold mapped. apply in_map_iff. exists q. auto. }
  assert (SM := sort_sorted mapped). set (sm := sort_n mapped) in *. clearbody sm. clear mapped.
  destruct (reader_new_ok body OB) as [R0 X0]. rewrite EB in X0. split.
  - assert (G : exists b, match sm with [] => Ret (Ok false) | _ => if lenN vs =? 0 then Ret (Ok false) else start_loop g any_loop (lenN vs) sm body end = Ret (Ok b) /\ (b = true <-> exists x, In x sm /\ In x vs)).
    { destruct sm as [|p sm']; [exists false; split; [reflexivity|]; split; [discriminate|]; intros (x & [] & _)|]. set (sm := p :: sm') in *.
      destruct vs as [|v vs]; [exists false; split; [reflexivity|]; split; [discriminate|]; intros (x & _ & [])|]. replace (lenN (v :: vs) =? 0) with false by (rewrite lenN_cons; lia).
      unfold start_loop. cbn [gaps flat_map] in X0. rewrite N.sub_0_r, <- app_assoc in X0. destruct (golomb_decode_spec (g_p g) _ v _ R0 P (Forall_inv FV) X0) as (r1 & -> & R1 & X1). cbn [rbind].
      replace (N.to_nat (lenN (v :: vs) - 1)) with (length vs) by (rewrite lenN_cons; unfold lenN; lia).
      destruct (any_loop_spec (g_p g) P tail sm vs r1 v R1 SM SV FV X1) as (b & -> & X). exists b. split; [reflexivity|exact X]. }
    destruct G as (b & E & X). exists b. split; [exact E|]. rewrite X. split; [intros (x & I & J); apply INM in I; destruct I as (q & I & <-); exists q; auto|]. intros (q & I & J). exists (slot (g_k0 g) (g_k1 g) (lenN vs * g_m g) q). split; [apply INM; exists q; auto|exact J].
  - assert (IND := dedup_in sm). apply dedup_sorted in SM. set (dm := dedup sm) in *. clearbody dm.
    assert (G : exists b, match dm with [] => Ret (Ok true) | _ => if lenN vs =? 0 then Ret (Ok false) else start_loop g all_loop (lenN vs) dm body end = Ret (Ok b) /\ (b = true <-> forall x, In x dm -> In x vs)).
    { clear IND. destruct dm as [|p dm']; [exists true; split; [reflexivity|]; split; [intros _ x []|reflexivity]|]. set (dm := p :: dm') in *.
      destruct vs as [|v vs]; [exists false; split; [reflexivity|]; split; [discriminate|]; intro X; destruct (X p (or_introl eq_refl))|]. replace (lenN (v :: vs) =? 0) with false by (rewrite lenN_cons; lia).
      unfold start_loop. cbn [gaps flat_map] in X0. rewrite N.sub_0_r, <- app_assoc in X0. destruct (golomb_decode_spec (g_p g) _ v _ R0 P (Forall_inv FV) X0) as (r1 & -> & R1 & X1). cbn [rbind].
      replace (N.to_nat (lenN (v :: vs) - 1)) with (length vs) by (rewrite lenN_cons; unfold lenN; lia).
      destruct (all_loop_spec (g_p g) P tail dm vs r1 v R1 SM SV FV X1) as (b & -> & X). exists b. split; [reflexivity|exact X]. }
    destruct G as (b & E & X). exists b. split; [exact E|]. rewrite X. split.
    + intros Y q I. apply Y, IND, INM. exists q. auto.
    + intros Y x I. apply IND, INM in I. destruct I as (q & I & <-). auto.
Qed.

(** ** Arbitrary data *)
Lemma advance_total : forall gp p n r data, gp < 64 -> r_ok r -> data + 2 ^ gp * N.of_nat (bits_left r) < 2 ^ 64 ->
  exists x, advance gp n r data p = Ret x /\ match x with Err e => e = UnexpectedEof | Ok None => True | Ok (Some (n', r', d)) => r_ok r' /\ d + 2 ^ gp * N.of_nat (bits_left r') < 2 ^ 64 end.
Proof.
  intros gp p. induction n; intros r data P R L; cbn [advance]; destruct (p <=? data); try (eexists; split; [reflexivity|]; cbn; auto; fail).
  assert (Z : 2 ^ gp <> 0) by (apply N.pow_nonzero; lia). destruct (golomb_decode_total gp r R P) as [->|(d & r1 & -> & R1 & D & LB & LE)]; [nia| |].
  - cbn [rbind]. eexists. split; [reflexivity|]. reflexivity.
  - cbn [rbind]. replace (U64 <=? data + d) with false by (change U64 with (2 ^ 64); lia). apply IHn; auto. lia.
Qed.
Lemma any_total : forall gp mapped n r data, gp < 64 -> r_ok r -> data + 2 ^ gp * N.of_nat (bits_left r) < 2 ^ 64 ->
  exists x, any_loop gp mapped n r data = Ret x.
Proof.
  intros gp. induction mapped as [|p mapped IH]; intros n r data P R L; cbn [any_loop]; [eauto|].
  destruct (advance_total gp p n r data P R L) as (x & -> & X). cbn [rbind]. destruct x as [[[[n' r'] d]|]|e]; eauto. destruct (d =? p); [eauto|]. destruct X. apply IH; auto.
Qed.
Lemma all_total : forall gp mapped n r data, gp < 64 -> r_ok r -> data + 2 ^ gp * N.of_nat (bits_left r) < 2 ^ 64 ->
  exists x, all_loop gp mapped n r data = Ret x.
Proof.
  intros gp. induction mapped as [|p mapped IH]; intros n r data P R L; cbn [all_loop]; [eauto|].
  destruct (advance_total gp p n r data P R L) as (x & -> & X). cbn [rbind]. destruct x as [[[[n' r'] d]|]|e]; eauto. destruct (d =? p); [|eauto]. destruct X. apply IH; auto.
Qed.
