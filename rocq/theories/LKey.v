(** Lemmas about keys. *)
From Coq Require Import String.
From Verif Require Import Base MDec LDec SWire MText SText LText MP2p MBip32 MBase58 SBase58 LBase58 PBase58 LSha2b LBip32b LBip32c LAddress MKey SKey.
Local Open Scope N_scope.

Lemma hex_len : forall s b, hex_of s b -> str_len s = 2 * lenN b.
Proof. intros s b H. rewrite (ascii_len s (hex_of_ascii s b H)). unfold lenN. rewrite (hex_of_length s b H). lia. Qed.
Lemma array_spec : forall n s b, decode_to_array n s = Ok b <-> hex_of s b /\ lenN b = n.
Proof.
  intros n s b. unfold decode_to_array. split.
  - destruct (N.eqb_spec (str_len s) (2 * n)) as [E|E]; cbn [negb]; [|discriminate]. destruct (hex_pairs s) as [r|] eqn:P; [|discriminate]. intro H. assert (r = b) as -> by congruence.
    apply hex_of_pairs in P. split; [exact P|]. rewrite (hex_len _ _ P) in E. lia.
  - intros [H L]. rewrite (hex_len _ _ H), L, N.eqb_refl. cbn [negb]. now rewrite (hex_pairs_of _ _ H).
Qed.
Lemma array_err : forall n s e, decode_to_array n s = Err e -> match e with HxInvalidLength m => m = str_len s /\ m <> 2 * n | HxInvalidChar => str_len s = 2 * n /\ ~ exists b, hex_of s b end.
Proof.
  intros n s e. unfold decode_to_array. destruct (N.eqb_spec (str_len s) (2 * n)) as [E|E]; cbn [negb].
  - destruct (hex_pairs s) as [r|] eqn:P; [discriminate|]. intro H. assert (e = HxInvalidChar) as -> by congruence. split; [exact E|]. intros [b B]. apply hex_pairs_of in B. congruence.
  - intro H. assert (e = HxInvalidLength (str_len s)) as -> by congruence. auto.
Qed.

Section Curve.
  Variable C : kcurve.
  Hypothesis OKC : kcurve_ok C.
  Lemma ser_33 : forall p, lenN (kc_ser33 C p) = 33. Proof. intro p. apply (k_ser33 C OKC p). Qed.
  Lemma ser_65 : forall p, lenN (kc_ser65 C p) = 65. Proof. intro p. apply (k_ser65 C OKC p). Qed.
  Lemma pub_ok : forall k, bytes_ok (pub_bytes C k).
  Proof. intros [c p]. unfold pub_bytes. cbn [lk_compressed lk_point]. destruct c; [apply (k_ser33 C OKC)|apply (k_ser65 C OKC)]. Qed.
  Lemma from_slice_total : forall b, lk_from_slice C b <> Panic.
  Proof.
    intros b. unfold lk_from_slice. destruct (N.eqb_spec (lenN b) 33) as [E|E].
    - destruct b as [|x b]; [discriminate E|]. destruct ((x =? 2) || (x =? 3)); [|discriminate]. destruct (kc_parse C (x :: b)); discriminate.
    - destruct (N.eqb_spec (lenN b) 65) as [E'|E']; [|discriminate]. destruct b as [|x b]; [discriminate E'|]. destruct (x =? 4); [|discriminate]. destruct (kc_parse C (x :: b)); discriminate.
  Qed.
  Lemma from_slice_iff : forall b k, lk_from_slice C b = Ret (Ok k) <-> b = pub_bytes C k.
  Proof.
    intros b k. split.
    - unfold lk_from_slice. destruct (N.eqb_spec (lenN b) 33) as [E|E].
      + destruct b as [|x b]; [discriminate|]. destruct ((x =? 2) || (x =? 3)); [|discriminate]. destruct (kc_parse C (x :: b)) as [p|] eqn:P; [|discriminate]. intro H.
        assert (k = mk_legacy C true p) as -> by congruence. unfold pub_bytes. cbn [lk_compressed lk_point]. exact (k_canon33 C OKC _ _ E P).
      + destruct (N.eqb_spec (lenN b) 65) as [E'|E']; [|discriminate]. destruct b as [|x b]; [discriminate|]. destruct (N.eqb_spec x 4) as [->|]; [|discriminate].
        destruct (kc_parse C (4 :: b)) as [p|] eqn:P; [|discriminate]. intro H. assert (k = mk_legacy C false p) as -> by congruence. unfold pub_bytes. cbn [lk_compressed lk_point].
        apply (k_canon65 C OKC); [|exact P]. rewrite lenN_cons in E'. lia.
    - intros ->. destruct k as [c p]. unfold pub_bytes, lk_from_slice. cbn [lk_compressed lk_point]. destruct c.
      + rewrite ser_33, N.eqb_refl. destruct (k_ser33 C OKC p) as (_ & _ & x & r & E & X). pose proof (k_parse33 C OKC p) as P. rewrite E in *. rewrite P.
        replace ((x =? 2) || (x =? 3)) with true by lia. reflexivity.
      + rewrite ser_65. change (65 =? 33) with false. rewrite N.eqb_refl. cbv iota. destruct (k_ser65 C OKC p) as (_ & _ & r & E). pose proof (k_parse65 C OKC p) as P. rewrite E in *. rewrite P. reflexivity.
  Qed.
  Lemma pub_inj : forall k k', pub_bytes C k = pub_bytes C k' -> k = k'.
  Proof. intros k k' E. assert (H : lk_from_slice C (pub_bytes C k) = Ret (Ok k)) by (apply from_slice_iff; reflexivity). rewrite E in H. rewrite (proj2 (from_slice_iff (pub_bytes C k') k') eq_refl) in H. congruence. Qed.
  Lemma pub_len : forall k, lenN (pub_bytes C k) = if lk_compressed C k then 33 else 65.
  Proof. intros [c p]. unfold pub_bytes. cbn [lk_compressed lk_point]. destruct c; [apply ser_33|apply ser_65]. Qed.

  (** secrets *)
  Lemma secret_iff : forall k, secret_ok C k = true <-> secret_valid C k.
  Proof. intro k. unfold secret_ok, secret_valid. lia. Qed.
  Lemma secret_256 : forall k, secret_valid C k -> k < 256 ^ N.of_nat 32.
  Proof. intros k [_ K]. pose proof (k_order C OKC) as [_ O]. change (256 ^ N.of_nat 32) with (2 ^ 256). lia. Qed.

  Variable sha : bytes -> bytes.
  Hypothesis SHA : forall m, hash_ok (sha m).
  Lemma payload_ok : forall k, bytes_ok (wif_payload k).
  Proof.
    intros [[c k] n]. unfold wif_payload. cbn [wk_net wk_private pk_compressed pk_key]. constructor; [destruct n; reflexivity|]. apply bytes_ok_app. split; [apply be_bytes_ok|]. destruct c; [constructor; [reflexivity|constructor]|constructor].
  Qed.
  Lemma payload_len : forall k, lenN (wif_payload k) = if pk_compressed (wk_private k) then 34 else 33.
  Proof. intros [[c k] n]. unfold wif_payload. cbn [wk_net wk_private pk_compressed pk_key]. rewrite lenN_cons, lenN_app, be_bytes_len. destruct c; reflexivity. Qed.
  Lemma payload_inj : forall k k', secret_valid C (pk_key (wk_private k)) -> secret_valid C (pk_key (wk_private k')) -> wif_payload k = wif_payload k' -> k = k'.
  Proof.
    intros k k' V V' E. pose proof (f_equal lenN E) as L. rewrite !payload_len in L. destruct k as [[c k] n], k' as [[c' k'] n']. unfold wif_payload in E. cbn [wk_net wk_private pk_compressed pk_key] in *.
    assert (c = c') as -> by (destruct c, c'; try reflexivity; discriminate L). pose proof (f_equal (hd 0) E) as EN. pose proof (f_equal (@tl N) E) as EK. cbn [hd tl] in EN, EK. clear E. apply app_inv_tail in EK. apply (f_equal be_val) in EK.
    rewrite !be_val_of_bytes in EK by (apply secret_256; assumption). subst k'. destruct n, n'; try discriminate EN; reflexivity.
  Qed.
  Lemma to_wif_spec : forall k, to_wif sha k = encode sha (wif_payload k).
  Proof.
    intros [[c k] n]. unfold to_wif, wif_payload. cbn [wk_net wk_private pk_compressed pk_key]. set (v := match n with NMain => 128 | NTest => 239 end).
    change (v :: skipn 1 (repeat 0 34)) with ([v] ++ repeat 0 (N.to_nat 33)). unfold to_secret_bytes. cbn [pk_key].
    rewrite (copy_range_eq 1 33 (be_bytes 32 k) [v] 33 eq_refl (be_bytes_len 32 k)) by lia. cbn [rbind].
    rewrite (LPoly.takeN_pref 33 ([v] ++ be_bytes 32 k)) by (rewrite lenN_app, be_bytes_len; reflexivity). destruct c; apply (f_equal (encode sha)); cbn [app]; [reflexivity|]. now rewrite app_nil_r.
  Qed.
  Lemma from_wif_data : forall s, exists r, from_wif sha C s = Ret r /\
    match r with
    | Ok k => secret_valid C (pk_key (wk_private k)) /\ checked_text sha (wif_payload k) (as_bytes s)
    | Err (FwBase58 e) => ~ exists p, checked_text sha p (as_bytes s)
    | Err (FwLength n) => exists p, checked_text sha p (as_bytes s) /\ lenN p = n /\ n <> 33 /\ n <> 34
    | Err (FwCompressionFlag f) => exists p, checked_text sha (p ++ [f]) (as_bytes s) /\ lenN p = 33 /\ f <> 1
    | Err (FwVersion v) => exists p key tail, checked_text sha p (as_bytes s) /\ wif_shape p v key tail /\ v <> 128 /\ v <> 239
    | Err FwSecretBytes => exists p v key tail, checked_text sha p (as_bytes s) /\ wif_shape p v key tail /\ ~ secret_valid C (be_val key)
    end.
  Proof.
    intro s. unfold from_wif. destruct (C26_decode_errors sha (as_bytes s) SHA) as (r & E & _). rewrite E. cbn [rbind]. destruct r as [p|e].
    2: { eexists. split; [reflexivity|]. intros [p P]. apply (C26_decode sha p _ SHA) in P. congruence. }
    assert (CT : checked_text sha p (as_bytes s)) by (apply (C26_decode sha p _ SHA); exact E). assert (OK : bytes_ok p) by (apply base58_bytes in CT; apply bytes_ok_app in CT; apply CT).
    assert (G : forall (c : bool) q, lenN q = 33 -> p = q ++ (if c then [1] else []) ->
      exists r, match q with [] => Panic | v :: key => if v =? 128 then (if secret_ok C (be_val key) then Ret (Ok (mk_wif (mk_private c (be_val key)) NMain)) else Ret (Err FwSecretBytes))
        else if v =? 239 then (if secret_ok C (be_val key) then Ret (Ok (mk_wif (mk_private c (be_val key)) NTest)) else Ret (Err FwSecretBytes)) else Ret (Err (FwVersion v)) end = Ret r /\
      match r with
      | Ok k => secret_valid C (pk_key (wk_private k)) /\ checked_text sha (wif_payload k) (as_bytes s)
      | Err (FwBase58 e) => ~ exists p, checked_text sha p (as_bytes s)
      | Err (FwLength n) => exists p, checked_text sha p (as_bytes s) /\ lenN p = n /\ n <> 33 /\ n <> 34
      | Err (FwCompressionFlag f) => exists p, checked_text sha (p ++ [f]) (as_bytes s) /\ lenN p = 33 /\ f <> 1
      | Err (FwVersion v) => exists p key tail, checked_text sha p (as_bytes s) /\ wif_shape p v key tail /\ v <> 128 /\ v <> 239
      | Err FwSecretBytes => exists p v key tail, checked_text sha p (as_bytes s) /\ wif_shape p v key tail /\ ~ secret_valid C (be_val key)
      end).
    { intros c q L PE. destruct q as [|v key]; [discriminate L|]. rewrite lenN_cons in L. assert (SH : wif_shape p v key (if c then [1] else [])).
      { split; [exact PE|]. split; [lia|]. destruct c; auto. }
      assert (OKK : bytes_ok key). { rewrite PE in OK. apply bytes_ok_app in OK. destruct OK as [OK _]. apply bytes_ok_cons in OK. apply OK. }
      assert (BK : be_bytes 32 (be_val key) = key) by (apply be_bytes_of_val; [exact OKK|unfold lenN in L; lia]).
      assert (FIN : forall n, v = match n with NMain => 128 | NTest => 239 end -> exists r, (if secret_ok C (be_val key) then Ret (Ok (mk_wif (mk_private c (be_val key)) n)) else Ret (Err FwSecretBytes)) = Ret r /\
        match r with
        | Ok k => secret_valid C (pk_key (wk_private k)) /\ checked_text sha (wif_payload k) (as_bytes s)
        | Err (FwBase58 e) => ~ exists p, checked_text sha p (as_bytes s)
        | Err (FwLength n) => exists p, checked_text sha p (as_bytes s) /\ lenN p = n /\ n <> 33 /\ n <> 34
        | Err (FwCompressionFlag f) => exists p, checked_text sha (p ++ [f]) (as_bytes s) /\ lenN p = 33 /\ f <> 1
        | Err (FwVersion v) => exists p key tail, checked_text sha p (as_bytes s) /\ wif_shape p v key tail /\ v <> 128 /\ v <> 239
        | Err FwSecretBytes => exists p v key tail, checked_text sha p (as_bytes s) /\ wif_shape p v key tail /\ ~ secret_valid C (be_val key)
        end).
      { intros n VE. destruct (secret_ok C (be_val key)) eqn:K.
        - eexists. split; [reflexivity|]. cbn [wk_private pk_key]. split; [now apply secret_iff|]. unfold wif_payload. cbn [wk_net wk_private pk_compressed pk_key]. rewrite BK, <- VE. rewrite PE in CT. exact CT.
        - eexists. split; [reflexivity|]. exists p, v, key, (if c then [1] else []). split; [exact CT|]. split; [exact SH|]. intro SV. apply secret_iff in SV. congruence. }
      destruct (N.eqb_spec v 128) as [V1|V1]; [exact (FIN NMain V1)|]. destruct (N.eqb_spec v 239) as [V2|V2]; [exact (FIN NTest V2)|].
      eexists. split; [reflexivity|]. exists p, key, (if c then [1] else []). auto. }
    destruct (N.eqb_spec (lenN p) 33) as [L|L].
    - apply (G false p L). now rewrite app_nil_r.
    - destruct (N.eqb_spec (lenN p) 34) as [L'|L'].
      + destruct (rev p) as [|f fr] eqn:R. { apply (f_equal (@List.length N)) in R. rewrite rev_length in R. unfold lenN in L'. cbn in R. lia. }
        assert (PE : p = rev fr ++ [f]) by (rewrite <- (rev_involutive p), R; reflexivity). assert (LF : lenN (rev fr) = 33) by (rewrite PE, lenN_app in L'; cbn in L'; lia).
        destruct (N.eqb_spec f 1) as [F|F]; cbn [negb].
        * apply (G true (rev fr) LF). now rewrite <- F.
        * eexists. split; [reflexivity|]. exists (rev fr). rewrite PE in CT. auto.
      + eexists. split; [reflexivity|]. exists p. auto.
  Qed.
  Lemma from_wif_ok : forall k s, secret_valid C (pk_key (wk_private k)) -> checked_text sha (wif_payload k) (as_bytes s) -> from_wif sha C s = Ret (Ok k).
  Proof.
    intros k s V CT. destruct (from_wif_data s) as (r & E & R). rewrite E.
    assert (U : forall p, checked_text sha p (as_bytes s) -> p = wif_payload k).
    { intros p P. apply (C26_decode sha _ _ SHA) in P. apply (C26_decode sha _ _ SHA) in CT. congruence. }
    assert (SH : forall v key tail, wif_shape (wif_payload k) v key tail -> v = match wk_net k with NMain => 128 | NTest => 239 end /\ be_val key = pk_key (wk_private k)).
    { intros v key tail (PE & L & T). destruct k as [[c k] n]. unfold wif_payload in PE. cbn [wk_net wk_private pk_compressed pk_key] in *. pose proof (f_equal (hd 0) PE) as PV. pose proof (f_equal (@tl N) PE) as PK. cbn [hd tl] in PV, PK. split; [now symmetry|].
      apply (LScript.app_inj_lenN N) in PK; [|now rewrite be_bytes_len, L]. destruct PK as [PK _]. rewrite <- PK. apply be_val_of_bytes. apply secret_256. exact V. }
    destruct r as [k'|e].
    - destruct R as [V' CT']. apply U in CT'. rewrite (payload_inj _ _ V' V CT'). reflexivity.
    - exfalso. destruct e.
      + apply R. eauto.
      + destruct R as (p & P & L & A & B). apply U in P. subst p. rewrite payload_len in L. destruct (pk_compressed (wk_private k)); congruence.
      + destruct R as (p & key & tail & P & S1 & A & B). apply U in P. subst p. apply SH in S1. destruct S1 as [S1 _]. destruct (wk_net k); congruence.
      + destruct R as (p & v0 & key & tail & P & S1 & A). apply U in P. subst p. apply SH in S1. destruct S1 as [_ S1]. rewrite S1 in A. exact (A V).
      + destruct R as (p & P & L & F). apply U in P. pose proof (f_equal lenN P) as LP. rewrite lenN_app, L, payload_len in LP. destruct k as [[c k] n]. unfold wif_payload in P. cbn [wk_net wk_private pk_compressed pk_key] in *.
        destruct c; [|discriminate LP]. rewrite app_comm_cons in P. apply app_inj_tail in P. destruct P as [_ P]. congruence.
  Qed.
End Curve.
(** lexicographic order *)
Lemma bytes_cmp_spec : forall a b, match bytes_cmp a b with Eq => a = b | Lt => lex_lt a b | Gt => lex_lt b a end.
Proof.
  induction a as [|x a IH]; intros [|y b]; cbn [bytes_cmp]; [reflexivity|right; exists y, b; reflexivity|right; exists x, a; reflexivity|]. destruct (N.compare_spec x y) as [->|L|L].
  - specialize (IH b). destruct (bytes_cmp a b).
    + now subst b.
    + destruct IH as [(p & u & v & a' & b' & -> & -> & L)|(v & b' & ->)]; [left; exists (y :: p), u, v, a', b'; auto|right; exists v, b'; reflexivity].
    + destruct IH as [(p & u & v & a' & b' & -> & -> & L)|(v & b' & ->)]; [left; exists (y :: p), u, v, a', b'; auto|right; exists v, b'; reflexivity].
  - left. exists [], x, y, a, b. auto.
  - left. exists [], y, x, b, a. auto.
Qed.
Lemma lex_cmp : forall a b, lex_lt a b -> bytes_cmp a b = Lt.
Proof.
  intros a b [(p & u & v & a' & b' & -> & -> & L)|(v & b' & ->)].
  - induction p as [|x p IH]; cbn [app bytes_cmp]; [apply N.compare_lt_iff in L; now rewrite L|]. rewrite N.compare_refl. exact IH.
  - induction a as [|x a IH]; cbn [app bytes_cmp]; [reflexivity|]. rewrite N.compare_refl. exact IH.
Qed.
Lemma cmp_trans : forall a b c, bytes_cmp a b = Lt -> bytes_cmp b c = Lt -> bytes_cmp a c = Lt.
Proof.
  induction a as [|x a IH]; intros [|y b] [|z c] H H'; cbn [bytes_cmp] in *; try discriminate; auto.
  destruct (N.compare_spec x y) as [->|L|L]; [|clear H|discriminate].
  - destruct (N.compare y z); [exact (IH b c H H')|reflexivity|discriminate].
  - destruct (N.compare_spec y z) as [<-|L'|L']; [| |discriminate].
    + apply N.compare_lt_iff in L. now rewrite L.
    + assert (X : x < z) by lia. apply N.compare_lt_iff in X. now rewrite X.
Qed.
Lemma cmp_flip : forall a b, bytes_cmp b a = CompOpp (bytes_cmp a b).
Proof.
  induction a as [|x a IH]; intros [|y b]; cbn [bytes_cmp CompOpp]; auto. rewrite (N.compare_antisym x y). destruct (N.compare x y); cbn [CompOpp]; auto.
Qed.
