(** C39, continued: whether a legacy signature hash says which input is signed. *)
From Verif Require Import Base MDec MTx MSighash SWire SSighash LScript LSighash LSighash2 LSighash3 PSighash.
Local Open Scope N_scope.

(** With a script code that is not empty, and without ANYONECANPAY, the digest determines the position of the signed input, and with it everything
    C39_legacy_commits lists; or two messages collide. *)
Theorem C39_legacy_position : forall H tx tx' i i' code code' ty ty' d, tx_repr tx -> tx_repr tx' -> is_u32 ty -> is_u32 ty' -> is_u64 (lenN code) -> is_u64 (lenN code') ->
  (N.land ty 0x1f = 3 -> i < lenN (tx_outputs tx)) -> (N.land ty' 0x1f = 3 -> i' < lenN (tx_outputs tx')) ->
  code <> [] \/ code' <> [] -> anyone ty = false ->
  legacy_hash H (cache_new tx) i code ty = Ret (Ok d) -> legacy_hash H (cache_new tx') i' code' ty' = Ret (Ok d) ->
  (i = i' /\ ty = ty' /\ code = code' /\ legacy_agree ty i tx tx') \/
  (let m := legacy_msg ty i code tx in let m' := legacy_msg ty' i' code' tx' in (m <> m' /\ H m = H m') \/ (H m <> H m' /\ H (H m) = H (H m'))).
Proof.
  intros H tx tx' i i' code code' ty ty' d R R' T T' U U' S1 S1' NE NA E E'. pose proof E as E0. pose proof E' as E0'. rewrite C39_legacy in E, E'.
  destruct (N.leb_spec (lenN (tx_inputs tx)) i) as [|L]; [discriminate|]. destruct (N.leb_spec (lenN (tx_inputs tx')) i') as [|L']; [discriminate|].
  assert (NB : forall tx i ty, (N.land ty 0x1f = 3 -> i < lenN (tx_outputs tx)) -> single_bug tx i ty = false).
  { clear. intros tx i ty S. unfold single_bug. destruct (N.eqb_spec (N.land ty 0x1f) 3) as [Q|]; [|reflexivity]. cbn [andb]. now apply N.leb_gt, S. }
  pose proof (NB _ _ _ S1) as B. pose proof (NB _ _ _ S1') as B'. pose proof B as BB. pose proof B' as BB'. unfold single_bug in B, B'. rewrite B in E. rewrite B' in E'.
  assert (Q : H (H (legacy_msg ty i code tx)) = H (H (legacy_msg ty' i' code' tx'))) by (unfold double in E, E'; congruence).
  destruct (bytes_dec (legacy_msg ty i code tx) (legacy_msg ty' i' code' tx')) as [EM|NM].
  - assert (II : i = i').
    { clear - EM R R' T T' U U' L L' BB BB' NE NA. unfold legacy_msg in EM. apply wire_legacy_split in EM as (_ & _ & EI & _ & EM); [|now apply copy_repr..].
      apply le_bytes_inj in EM; [|assumption..]. subst ty'. cbn [legacy_copy tx_inputs] in EI. rewrite NA in EI.
      assert (SC : forall j, nth_error (mapi (fun n (_ : txin) => if n =? i then code else []) 0 (tx_inputs tx)) j = nth_error (mapi (fun n (_ : txin) => if n =? i' then code' else []) 0 (tx_inputs tx')) j).
      { intro j. apply (f_equal (map (fun p => snd (fst p)))) in EI. rewrite !map_map, !mapi_map in EI. unfold in3, copy_input in EI. cbn [fst snd ti_script] in EI. exact (f_equal (fun l => nth_error l j) EI). }
      destruct (N.eq_dec i i') as [|NI]; [assumption|exfalso]. destruct (nthN_some _ _ _ L) as [x X]. destruct (nthN_some _ _ _ L') as [y Y]. unfold nthN in X, Y.
      destruct NE as [NE|NE].
      - specialize (SC (N.to_nat i)). rewrite !mapi_nth, X in SC. cbn [option_map] in SC. rewrite N2Nat.id, N.add_0_l, N.eqb_refl in SC. destruct (nth_error (tx_inputs tx') (N.to_nat i)); cbn [option_map] in SC; [|discriminate].
        destruct (N.eqb_spec i i'); [contradiction|]. congruence.
      - specialize (SC (N.to_nat i')). rewrite !mapi_nth, Y in SC. cbn [option_map] in SC. rewrite N2Nat.id, N.add_0_l, N.eqb_refl in SC. destruct (nth_error (tx_inputs tx) (N.to_nat i')); cbn [option_map] in SC; [|discriminate].
        destruct (N.eqb_spec i' i); [congruence|]. congruence. }
    subst i'. destruct (C39_legacy_commits H tx tx' i code code' ty ty' d) as [K|K]; auto.
  - right. cbv zeta. destruct (bytes_dec (H (legacy_msg ty i code tx)) (H (legacy_msg ty' i' code' tx'))); auto.
Qed.
(** With an empty script code every input has the same digest (SIGHASH_ALL): a signature for one of them is one for all of them. *)
Theorem C39_legacy_position_refuted : forall H tx i j, i < lenN (tx_inputs tx) -> j < lenN (tx_inputs tx) ->
  legacy_hash H (cache_new tx) i [] 1 = legacy_hash H (cache_new tx) j [] 1.
Proof.
  intros H tx i j Li Lj. rewrite !C39_legacy. destruct (N.leb_spec (lenN (tx_inputs tx)) i); [lia|]. destruct (N.leb_spec (lenN (tx_inputs tx)) j); [lia|]. change (N.land 1 31 =? 3) with false. cbn [andb]. do 2 f_equal. f_equal.
  unfold legacy_msg. f_equal. f_equal. unfold legacy_copy. f_equal. change (anyone 1) with false. cbv iota.
  assert (Q : forall k l n, mapi (copy_input 1 k []) n l = mapi (fun _ x => {| ti_prevout := ti_prevout x; ti_script := []; ti_sequence := ti_sequence x; ti_witness := ti_witness x |}) n l).
  { intros k l. induction l as [|x l IH]; intro n; [reflexivity|]. cbn [mapi]. rewrite IH. f_equal. unfold copy_input. change (plain 1) with true. rewrite Bool.orb_true_r. now destruct (n =? k). }
  now rewrite !Q.
Qed.
(** With SIGHASH_SINGLE and no output beside the input the digest is the number one, whatever is signed. *)
Theorem C39_legacy_single : forall H tx i code ty, i < lenN (tx_inputs tx) -> N.land ty 0x1f = 3 -> lenN (tx_outputs tx) <= i ->
  legacy_hash H (cache_new tx) i code ty = Ret (Ok (1 :: repeat 0 31)).
Proof.
  intros H tx i code ty L S3 O. rewrite C39_legacy, S3. destruct (N.leb_spec (lenN (tx_inputs tx)) i); [lia|]. destruct (N.leb_spec (lenN (tx_outputs tx)) i); [reflexivity|lia].
Qed.
Example C39_position_ex : tx_repr ex_tx /\ lenN (tx_inputs ex_tx) = 2 /\ anyone 1 = false /\
  exists d, legacy_hash SSha2.SHA256 (cache_new ex_tx) 0 [0x51] 1 = Ret (Ok d) /\ legacy_hash SSha2.SHA256 (cache_new ex_tx) 1 [0x51] 1 <> Ret (Ok d).
Proof. split; [exact ex_repr|]. split; [reflexivity|]. split; [reflexivity|]. eexists. split; [vm_compute; reflexivity|]. vm_compute. discriminate. Qed.
Print Assumptions C39_legacy_position.
Print Assumptions C39_legacy_position_refuted.
Print Assumptions C39_legacy_single.
