(** C61: what the library builds to spend an output unlocks that output. *)
From Coq Require Import String.
From Verif Require Import Base MDec LDec MText MWitness MWitness2 SWire SWitness SWitness2 LWitness LWitness2 PWitness MScript SScript LScript LScript3 LScript4 LScriptNum LScript5 PScript.
From Verif Require Import MSighash MTaproot STaproot LTaproot PTaproot MBip32 MKey SKey MSig SSig LSig PSig PKey MAddress SAddress PAddress MForms SForms LForms.
Local Open Scope list_scope.
Local Open Scope N_scope.

Definition hashes_ok (hash160 sha256 : bytes -> bytes) : Prop :=
  (forall m, bytes_ok (hash160 m) /\ lenN (hash160 m) = 20) /\ (forall m, STaproot.hash_ok (sha256 m)).

(** A witness made for a key unlocks the native output of the key on every network, and together with the input script made for the key
    also the nested output. *)
Theorem C61_p2wpkh : forall hash160 sha256 K E T, hashes_ok hash160 sha256 -> kcurve_ok K -> ecurve_ok E -> forall (s : esig E) (k : full K) hrp net,
  exists w spk input nested,
    w_p2wpkh K E s k = Ret w /\ stack_of w [ecdsa_bytes E s; kc_ser33 K k] /\
    script_pubkey (MAddress.p2wpkh hash160 K k hrp) = Ret spk /\ p2sh_p2wpkh hash160 K k = Ret input /\
    rbind (p2shwpkh hash160 K k net) script_pubkey = Ret nested /\
    let r := Run (t_p2pkh (hash160 (kc_ser33 K k))) [ecdsa_bytes E s; kc_ser33 K k] in
    unlocks hash160 sha256 T spk [] [ecdsa_bytes E s; kc_ser33 K k] r /\ unlocks hash160 sha256 T nested input [ecdsa_bytes E s; kc_ser33 K k] r /\
    redeem_script input = Ret (Some spk).
Proof.
  intros h1 h2 K E T [H1 H2] KO EO s k hrp net. destruct (es_ser_spec E EO s) as (x & SE & SB & _). destruct (C50_ecdsa_write E s EO) as (_ & _ & _ & _ & L73 & _).
  destruct (k_ser33 K KO k) as (KB & KL & _).
  destruct (push_total wit_new [] (ecdsa_bytes E s) new_stack) as (w1 & W1 & S1).
  { cbn [app]. pose proof (element_len (ecdsa_bytes E s)). apply (N.le_trans _ 100); [lia|discriminate]. }
  destruct (push_total w1 _ (kc_ser33 K k) S1) as (w2 & W2 & S2).
  { cbn [app]. change [ecdsa_bytes E s; kc_ser33 K k] with ([ecdsa_bytes E s] ++ [kc_ser33 K k]). rewrite elements_app. pose proof (element_len (ecdsa_bytes E s)). pose proof (element_len (kc_ser33 K k)). apply (N.le_trans _ 200); [lia|discriminate]. }
  assert (HO : forall m, SWire.hash_ok (h2 m)) by (intro m; destruct (H2 m); split; assumption).
  destruct (C47_constructors h1 h2 K H1 HO) as (_ & _ & C3 & _ & C5 & _). destruct (C3 k hrp) as [A3 P3]. destruct (C5 k net) as (a5 & E5 & A5 & P5).
  destruct (H1 (kc_ser33 K k)) as [HB HL]. destruct (nested_ok (h1 (kc_ser33 K k)) ltac:(lia) HB) as (i & NI & EI & SI & BI).
  exists w2, (t_witness 0 (h1 (kc_ser33 K k))), i, (t_p2sh (h1 (t_witness 0 (h1 (kc_ser33 K k))))).
  split. { unfold w_p2wpkh. rewrite SE. cbn [rbind]. rewrite SB. cbn [rbind]. rewrite W1. exact W2. }
  split; [exact S2|]. split; [rewrite (C47_script _ A3), P3; reflexivity|]. split; [exact NI|]. split; [rewrite E5; cbn [rbind]; rewrite (C47_script _ A5), P5; reflexivity|]. cbv zeta.
  assert (U : unlocks_program h1 h2 T 0 (h1 (kc_ser33 K k)) [ecdsa_bytes E s; kc_ser33 K k] (Run (t_p2pkh (h1 (kc_ser33 K k))) [ecdsa_bytes E s; kc_ser33 K k])) by (apply u_key_hash; [exact HL|reflexivity]).
  split; [now apply u_native|]. split.
  - apply (u_nested h1 h2 T _ (t_witness 0 (h1 (kc_ser33 K k))) (h1 (kc_ser33 K k))); auto; [apply H1|]. unfold t_witness. rewrite lenN_app, HL. discriminate.
  - exact BI.
Qed.
Print Assumptions C61_p2wpkh.

(** A witness made for a witness script and what satisfies it unlocks the native and the nested outputs of the script; scripts over 10000
    bytes are refused with their size when the input script is made, as when the address is. *)
Theorem C61_p2wsh : forall hash160 sha256 T, hashes_ok hash160 sha256 -> forall satisfaction script hrp net, bytes_ok script ->
  elements_size (satisfaction ++ [script]) <= 2 ^ 32 ->
  exists w, w_p2wsh satisfaction script = Ret w /\ stack_of w (satisfaction ++ [script]) /\
    (lenN script <= MAX_LEN -> short_elements satisfaction -> wit_witness_script w = Ret (Some script)) /\
    if lenN script <=? 10000 then
      exists a spk input nested,
        MAddress.p2wsh sha256 script hrp = Ok a /\ script_pubkey a = Ret spk /\ to_p2wsh sha256 script = Ret (Ok spk) /\
        p2sh_p2wsh sha256 script = Ret (Ok input) /\
        (exists a', p2shwsh hash160 sha256 script net = Ret (Ok a') /\ script_pubkey a' = Ret nested) /\
        redeem_script input = Ret (Some spk) /\
        (Forall (fun e => lenN e <= 520) satisfaction ->
         unlocks hash160 sha256 T spk [] (satisfaction ++ [script]) (Run script satisfaction) /\ unlocks hash160 sha256 T nested input (satisfaction ++ [script]) (Run script satisfaction))
    else p2sh_p2wsh sha256 script = Ret (Err (lenN script)) /\ to_p2wsh sha256 script = Ret (Err (lenN script)) /\
         MAddress.p2wsh sha256 script hrp = Err (lenN script) /\ p2shwsh hash160 sha256 script net = Ret (Err (lenN script)).
Proof.
  intros h1 h2 T [H1 H2] sat script hrp net SB SZ.
  destruct (from_slice_total sat) as [w1 W1]; [rewrite elements_app in SZ; lia|]. destruct (push_total w1 sat script W1 SZ) as (w2 & W2 & S2).
  exists w2. split; [unfold w_p2wsh; rewrite W1; exact W2|]. split; [exact S2|].
  split. { intros LS SS. rewrite (C45_witness_script w2 _ S2) by (apply Forall_app; split; [exact SS|constructor; [exact LS|constructor]]). rewrite rev_app_distr. reflexivity. }
  assert (HO : forall m, SWire.hash_ok (h2 m)) by (intro m; destruct (H2 m); split; assumption).
  destruct (C47_constructors h1 h2 toyk H1 HO) as (_ & _ & _ & C4 & _ & C6 & _). specialize (C4 script hrp). specialize (C6 script net). unfold p2sh_p2wsh, to_p2wsh, wscript_hash.
  destruct (N.leb_spec (lenN script) 10000) as [L|L].
  - destruct C4 as (a & EA & AA & PA). destruct C6 as (a' & EA' & AA' & PA'). destruct (H2 script) as [HL HB]. destruct (nested_ok (h2 script) ltac:(lia) HB) as (i & NI & EI & SI & RI).
    exists a, (t_witness 0 (h2 script)), i, (t_p2sh (h1 (t_witness 0 (h2 script)))). replace (10000 <? lenN script) with false by lia.
    split; [exact EA|]. split; [rewrite (C47_script a AA), PA; reflexivity|]. split; [unfold new_p2wsh; rewrite unchecked_ok by (split; [split; lia|auto]); reflexivity|]. split; [rewrite NI; reflexivity|].
    split; [exists a'; split; [exact EA'|rewrite (C47_script a' AA'), PA'; reflexivity]|]. split; [exact RI|]. intro F.
    assert (U : unlocks_program h1 h2 T 0 (h2 script) (sat ++ [script]) (Run script sat)) by (apply u_script_hash; auto).
    split; [now apply u_native|]. apply (u_nested h1 h2 T _ (t_witness 0 (h2 script)) (h2 script)); auto; [apply H1|]. unfold t_witness. rewrite lenN_app, HL. discriminate.
  - replace (10000 <? lenN script) with true by lia. auto.
Qed.
Print Assumptions C61_p2wsh.

(** A key path witness unlocks the output of the key, for every sighash type and every merkle root; it shows no annex. *)
Theorem C61_p2tr_key : forall hash160 sha256 T, hashes_ok hash160 sha256 -> curve_ok T -> forall (s : tsig) (k : xonly T) root hrp a, lenN (ts_sig s) = 64 ->
  p2tr sha256 T k root hrp = Ret a ->
  exists w spk key, w_p2tr_key_spend s = Ret w /\ stack_of w [tap_bytes s] /\ script_pubkey a = Ret spk /\ new_p2tr sha256 T k root = Ret spk /\
    spk = t_witness 1 key /\ unlocks hash160 sha256 T spk [] [tap_bytes s] (CheckSig key (tap_bytes s)) /\
    (forall (D : Type) (dcb : bytes -> option D), taproot_annex dcb w = Ret None /\ taproot_leaf_script dcb w = Ret None).
Proof.
  intros h1 h2 T [H1 H2] TO s k rt hrp a LS PA. destruct (ts_ser_spec s LS) as (x & SE & SB & SL & _). pose proof (tap_len s LS) as TL.
  assert (TL65 : lenN (tap_bytes s) <= 65) by (rewrite TL; destruct (is_tdefault (ts_type s)); lia).
  destruct (push_total wit_new [] (tap_bytes s) new_stack) as (w1 & W1 & S1).
  { cbn [app]. pose proof (element_len (tap_bytes s)). apply (N.le_trans _ 100); [lia|discriminate]. }
  assert (HO : forall m, SWire.hash_ok (h2 m)) by (intro m; destruct (H2 m); split; assumption).
  destruct (C47_constructors h1 h2 toyk H1 HO) as (_ & _ & _ & _ & _ & _ & _ & _ & C9). specialize (C9 T k rt hrp TO).
  destruct (tap_tweak h2 T k rt) as [out|] eqn:TT; [|rewrite C9 in PA; discriminate]. destruct C9 as (a' & EA & AA & P). assert (a' = a) as -> by congruence.
  destruct (ser_32 T TO (xo_key out)) as [KL KB].
  exists w1, (t_witness 1 (c_ser T (xo_key out))), (c_ser T (xo_key out)).
  split; [unfold w_p2tr_key_spend; rewrite SE; cbn [rbind]; rewrite SB; exact W1|]. split; [exact S1|]. split; [rewrite (C47_script a AA), P; reflexivity|].
  split. { unfold new_p2tr. rewrite TT. cbn [rbind]. unfold new_p2tr_tweaked, xonly_ser. apply unchecked_ok. split; [split; lia|]. intro Z. discriminate Z. }
  split; [reflexivity|]. split.
  - apply u_native, u_key_path; [exact KL|unfold bip341_rest; rewrite annex_one; reflexivity|]. unfold schnorr_form. unfold tap_bytes. destruct (ts_type s); cbn [tap_byte]; [left; rewrite app_nil_r; exact LS|right; eexists _, _; split; [reflexivity|split; [exact LS|cbn [In]; tauto]]..].
  - intros D dcb. assert (SH : short_elements [tap_bytes s]) by (constructor; [apply (N.le_trans _ 65); [lia|discriminate]|constructor]). cbn [app] in S1. rewrite (C45_annex D dcb w1 _ S1 SH), (C45_leaf_script D dcb w1 _ S1 SH).
    unfold bip341_script, bip341_rest. rewrite annex_one. split; reflexivity.
Qed.
Print Assumptions C61_p2tr_key.

(** The elements that a script path spend adds. *)
Definition spend_elements (script control : bytes) (annex : option bytes) : list bytes := script :: control :: match annex with Some a => [a] | None => [] end.
(** For every tree, every script in it and every stack: pushing the script with the control block that the tree gives unlocks the output that
    the address pays to, with or without an annex; the script, the control block and the annex are read back. *)
Theorem C61_p2tr_script : forall hash160 sha256 T, hashes_ok hash160 sha256 -> curve_ok T -> forall t k i n hrp,
  tree_ok t -> height t <= 128 -> build sha256 (dfs 0 t) = Ret (Ok [Some n]) -> finalize sha256 T [Some n] k = Ret (Ok i) ->
  forall s v cb annex stack w, control_block_of T i (s, v) = Ret (Some cb) -> stack_of w stack ->
  match annex with Some a => exists r, a = 80 :: r | None => True end ->
  let els := stack ++ spend_elements s (cb_serialize T cb) annex in
  elements_size els <= 2 ^ 32 ->
  exists w' a spk, push_p2tr_script_spend T w s cb annex = Ret w' /\ stack_of w' els /\
    p2tr sha256 T k (si_root i) hrp = Ret a /\ script_pubkey a = Ret spk /\ new_p2tr sha256 T k (si_root i) = Ret spk /\
    unlocks hash160 sha256 T spk [] els (Run s stack) /\
    (short_elements els ->
     let dcb := fun b => match cb_decode T b with Ret (Ok c) => Some c | _ => None end in
     let cb' := mk_cb (cb_version cb) (cb_odd cb) (mk_xonly (xo_key (cb_key cb)) false) (cb_branch cb) in
     taproot_leaf_script dcb w' = Ret (Some (s, cb')) /\ taproot_annex dcb w' = Ret annex /\ verify_commitment sha256 T cb' (si_output i) s = Ret true).
Proof.
  intros h1 h2 T [H1 H2] TO t k i n hrp TR HT B FI s v cb annex stack w CB ST AN els SZ.
  pose proof (C34_control_block h2 T H2 TO t k i n TR HT B FI s v) as CT. rewrite CB in CT. destruct CT as (CV & CK & CP & _ & VC).
  destruct (finalize_info h2 T H2 TO t k i n TR HT B FI) as (IK & IR & IO & TL & TA & IM).
  destruct (paths_ok h2 H2 t _ _ TR CP) as [LO PO]. pose proof (paths_len h2 t _ _ CP) as PL. destruct LO as [LO VO].
  assert (CO : cb_odd cb = xo_odd (si_output i)). { unfold control_block_of in CB. destruct (map_get (si_map i) (s, v)) as [[|x m]|]; try discriminate. assert (Q : mk_cb (snd (s, v)) (si_odd i) (si_internal i) (min_by_len x m) = cb) by congruence. rewrite <- Q. cbn [cb_odd]. exact IO. }
  assert (F32 : Forall (fun h => lenN h = 32) (cb_branch cb)) by (rewrite Forall_forall in *; intros h I; apply (PO h I)).
  assert (BL : lenN (cb_branch cb) <= 128) by lia. rewrite <- CV in VO.
  destruct (C34_encode T TO cb VO F32 BL) as [EL ED]. destruct (first_not_80 (cb_version cb) (cb_odd cb) VO) as (N80 & LV & TB & _).
  set (ctl := cb_serialize T cb) in *. assert (NX : forall r, ctl <> 80 :: r).
  { intros r Q. unfold ctl, cb_serialize in Q. apply (f_equal (fun l => hd 0 l)) in Q. cbn [hd] in Q. exact (N80 Q). }
  assert (ER : bip341_rest els = stack ++ [s; ctl] /\ bip341_annex els = annex).
  { exact (rest_annex stack s ctl annex NX AN). }
  destruct ER as [ER EA].
  destruct (three_pushes w stack s ctl annex ST SZ) as (w1 & w2 & w' & W1 & W2 & W3 & S3).
  assert (HO : forall m, SWire.hash_ok (h2 m)) by (intro m; destruct (H2 m); split; assumption).
  destruct (C47_constructors h1 h2 toyk H1 HO) as (_ & _ & _ & _ & _ & _ & _ & _ & C9). specialize (C9 T k (si_root i) hrp TO).
  assert (TT : tap_tweak h2 T k (si_root i) = Ret (si_output i)).
  { rewrite IR, (tap_tweak_eq h2 T TO). replace (tweak_of h2 T k (Some (root h2 t)) <? CURVE_ORDER) with true by (symmetry; apply N.ltb_lt; exact TL). rewrite TA. destruct (si_output i); reflexivity. }
  rewrite TT in C9. destruct C9 as (a & PA & AA & PT). destruct (ser_32 T TO (xo_key (si_output i))) as [KL KB].
  exists w', a, (t_witness 1 (c_ser T (xo_key (si_output i)))).
  split. { unfold push_p2tr_script_spend. rewrite W1. cbn [rbind]. unfold encode_to_arrayvec. fold ctl. rewrite EL. unfold cb_size. replace (_ <=? _) with true by (symmetry; apply N.leb_le; unfold CONTROL_BASE_SIZE, NODE_SIZE, MAX_NODE_COUNT; lia). cbn [rbind]. rewrite W2. cbn [rbind]. exact W3. }
  split; [exact S3|]. split; [exact PA|]. split; [rewrite (C47_script a AA), PT; reflexivity|].
  split. { unfold new_p2tr. rewrite TT. cbn [rbind]. unfold new_p2tr_tweaked, xonly_ser. apply unchecked_ok. split; [split; lia|]. intro Z. discriminate Z. }
  assert (RT : climb h2 (h2 (leaf_message h2 s (cb_version cb))) (cb_branch cb) = root h2 t) by (rewrite CV; exact (paths_climb h2 H2 t _ _ TR CP)).
  split.
  - apply u_native, (u_script_path h1 h2 T _ _ stack s ctl KL ER). exists (N.lor (if cb_odd cb then 1 else 0) (lv_to_consensus (cb_version cb))), (xonly_ser k), (cb_branch cb), (xo_key k), (xo_key (si_output i)).
    split; [unfold ctl, cb_serialize; rewrite CK; reflexivity|]. split; [apply (ser_32 T TO)|]. split; [exact F32|]. split; [exact BL|]. split; [apply (parse_ser T TO)|]. cbv zeta. rewrite LV, TB.
    change (h2 (lit "TapLeaf") ++ h2 (lit "TapLeaf") ++ [version_byte (cb_version cb)] ++ wire_bytes s) with (leaf_message h2 s (cb_version cb)). rewrite RT.
    split; [exact TL|]. split; [|reflexivity]. rewrite CO. exact TA.
  - intro SH. cbv zeta. set (dcb := fun b => match cb_decode T b with Ret (Ok c) => Some c | _ => None end). assert (DC : dcb ctl = Some (mk_cb (cb_version cb) (cb_odd cb) (mk_xonly (xo_key (cb_key cb)) false) (cb_branch cb))) by (unfold dcb; rewrite ED; reflexivity).
    assert (SC : bip341_script els = Some (s, ctl)) by (unfold bip341_script; rewrite ER, rev_app_distr; reflexivity).
    rewrite (C45_leaf_script _ dcb w' els S3 SH), (C45_annex _ dcb w' els S3 SH), SC, DC, EA. split; [reflexivity|]. split; [reflexivity|]. exact VC.
Qed.
Print Assumptions C61_p2tr_script.

(** The scripts made directly from a script or key are those the addresses pay to. *)
Theorem C61_scripts : forall hash160 sha256 T, hashes_ok hash160 sha256 -> curve_ok T ->
  (forall s net, if lenN s <=? 520 then to_p2sh hash160 s = Ok (t_p2sh (hash160 s)) /\ (exists a, MAddress.p2sh hash160 s net = Ok a /\ script_pubkey a = Ret (t_p2sh (hash160 s)))
                 else to_p2sh hash160 s = Err (lenN s)) /\
  (forall s k n i, is_u64 (lenN s) -> build sha256 [(0, LScript s MTaproot.TapScript)] = Ret (Ok [Some n]) -> finalize sha256 T [Some n] k = Ret (Ok i) ->
     to_p2tr sha256 T s k = Ret (t_witness 1 (c_ser T (xo_key (si_output i))))).
Proof.
  intros h1 h2 T [H1 H2] TO. assert (HO : forall m, SWire.hash_ok (h2 m)) by (intro m; destruct (H2 m); split; assumption).
  destruct (C47_constructors h1 h2 toyk H1 HO) as (_ & C2 & _). split.
  - intros s net. specialize (C2 s net). unfold to_p2sh, script_hash. destruct (N.leb_spec (lenN s) 520).
    + replace (520 <? lenN s) with false by lia. destruct C2 as (a & E & A & P). split; [f_equal; apply C16_build; apply H1|]. exists a. split; [exact E|]. rewrite (C47_script a A), P. reflexivity.
    + now replace (520 <? lenN s) with true by lia.
  - intros s k n i U B FI. destruct (finalize_info h2 T H2 TO (Leaf (LScript s MTaproot.TapScript)) k i n (conj U I) ltac:(discriminate) B FI) as (IK & IR & IO & TL & TA & IM).
    unfold to_p2tr, new_p2tr, tapscript_leaf_hash. rewrite leaf_eq. change (leaf_root h2 (LScript s MTaproot.TapScript)) with (root h2 (Leaf (LScript s MTaproot.TapScript))). rewrite (tap_tweak_eq h2 T TO).
    replace (_ <? _) with true by (symmetry; apply N.ltb_lt; exact TL). rewrite TA. cbn [rbind xonly_ser xo_key]. destruct (ser_32 T TO (xo_key (si_output i))) as [KL KB]. apply unchecked_ok. split; [split; lia|]. intro Z. discriminate Z.
Qed.
Print Assumptions C61_scripts.

(** Keys and lock times put into a script by a builder are read back as one more push: the key's bytes, or the value as a minimal script number, which
    fits the five bytes that OP_CHECKLOCKTIMEVERIFY reads; a pay-to-public-key script gives its key back. *)
Theorem C61_builder : forall K T, kcurve_ok K -> curve_ok T -> forall s l, bytes_ok s -> instructions s = Ret (map Ok l) ->
  (forall k, instructions (push_key K s k) = Ret (map Ok (l ++ [PushBytes (pub_bytes K k)]))) /\
  (forall k, instructions (push_x_only_key T s k) = Ret (map Ok (l ++ [PushBytes (c_ser T (xo_key k))]))) /\
  (forall v, v < 2 ^ 32 -> exists s' i d, push_consensus_u32 s v = Ret s' /\ instructions s' = Ret (map Ok (l ++ [i])) /\ pushed i = Some d /\ read_cltv_scriptint d = Ok (Z.of_N v)) /\
  (forall k, p2pk_public_key K (new_p2pk (pub_bytes K k)) = Ret (Some k)).
Proof.
  intros K T KO TO s l SB SI. assert (BS : built false s l) by (apply built_reads; auto).
  assert (PP : forall d, bytes_ok d -> 1 < lenN d < 2 ^ 32 -> instructions (sb_push_slice s d) = Ret (map Ok (l ++ [PushBytes d]))).
  { intros d DB DL. pose proof (push_slice_built false s l d BS DB ltac:(lia)) as B. unfold canon in B. replace (special d) with false in B; [apply (built_reads false) in B; exact (proj2 B)|]. destruct d as [|x [|y d]]; [rewrite lenN_nil in DL; lia|change (lenN [x]) with 1 in DL; lia|reflexivity]. }
  assert (KB : forall k, bytes_ok (pub_bytes K k) /\ (lenN (pub_bytes K k) = 33 \/ lenN (pub_bytes K k) = 65)).
  { intro k. unfold pub_bytes. destruct (lk_compressed K k); [destruct (k_ser33 K KO (lk_point K k)) as (A & B & _)|destruct (k_ser65 K KO (lk_point K k)) as (A & B & _)]; auto. }
  assert (BIG : 65 < 2 ^ 32) by reflexivity. split; [|split; [|split]].
  - intro k. destruct (KB k) as [B L]. assert (E : push_key K s k = sb_push_slice s (pub_bytes K k)) by (unfold push_key, pub_bytes; now destruct (lk_compressed K k)). rewrite E. apply PP; [exact B|lia].
  - intro k. destruct (ser_32 T TO (xo_key k)) as [L B]. unfold push_x_only_key, xonly_ser. apply PP; [exact B|lia].
  - intros v V. change (2 ^ 32) with 4294967296 in V. destruct (push_int_built false s l (Z.of_N v) BS ltac:(lia)) as (s' & i & d & E & B & PD & DB & DV & DM & _). exists s', i, d. split; [exact E|]. apply (built_reads false) in B. split; [exact (proj2 B)|]. split; [exact PD|].
    assert (L : lenN d <= 5) by (pose proof (num_of_len (Z.of_N v) d DB DM DV 5 ltac:(lia) ltac:(change (2 ^ (8 * Z.of_nat 5 - 1))%Z with 549755813888%Z; lia)); unfold lenN; lia).
    destruct (C15_read_cltv d DB) as (R & _). rewrite (R L DM), DV. reflexivity.
  - intro k. destruct (KB k) as [B L]. destruct C16_build as (_ & _ & P & _). rewrite (P _ L). unfold p2pk_public_key.
    rewrite (proj2 (p2pk_iff (t_p2pk (pub_bytes K k)) (pub_bytes K k)) (conj L eq_refl)). destruct (C49_public_bytes K (pub_bytes K k) k KO) as (_ & R & _). rewrite (proj2 R eq_refl). reflexivity.
Qed.
Print Assumptions C61_builder.

(** The first opcode decides whether a script is reported as provably unspendable: when it fails whatever comes before. *)
Theorem C61_unspendable : forall s, bytes_ok s -> exists b, is_provably_unspendable s = Ret b /\ (b = true <-> exists op r, s = op :: r /\ fails_when_run op).
Proof.
  intros [|op r] B; cbn [is_provably_unspendable]; [exists false; split; [reflexivity|split; [discriminate|intros (? & ? & ? & _); discriminate]]|].
  inversion B as [|? ? OB _]; subst. unfold byte_ok in OB.
  assert (A : forallb (fun op => match classify op Legacy with Ret c => Bool.eqb (match c with ClReturn | ClIllegal => true | _ => false end) (existsb (N.eqb op) [80; 98; 101; 102; 106; 126; 127; 128; 129; 131; 132; 133; 134; 137; 138; 141; 142; 149; 150; 151; 152; 153] || (186 <=? op)) | Panic => false end) (map N.of_nat (seq 0 256)) = true) by (vm_compute; reflexivity).
  rewrite forallb_forall in A. specialize (A op). assert (I : In op (map N.of_nat (seq 0 256))) by (apply in_map_iff; exists (N.to_nat op); split; [apply N2Nat.id|apply in_seq; lia]). apply A in I. clear A.
  destruct (classify op Legacy) as [c|]; [|discriminate]. cbn [rbind]. eexists. split; [reflexivity|]. apply Bool.eqb_prop in I. rewrite I, Bool.orb_true_iff, existsb_exists, N.leb_le. unfold fails_when_run. split.
  - intros [(x & X & E)|L]; exists op, r; split; auto. apply N.eqb_eq in E as ->. auto.
  - intros (o & q & E & F). assert (o = op) as -> by congruence. destruct F as [F|F]; [left; exists op; split; [exact F|apply N.eqb_refl]|auto].
Qed.
Print Assumptions C61_unspendable.
(** An OP_RETURN script made from data is of standard size exactly up to eighty bytes of data. *)
Theorem C61_op_return : forall d, lenN d < 2 ^ 32 -> is_standard_op_return (new_op_return d) = (lenN d <=? 80).
Proof.
  intros d L. unfold is_standard_op_return, new_op_return, MAX_OP_RETURN_RELAY, sb_push_opcode, OP_RETURN. cbn [app]. rewrite push_slice_cases. destruct (special d) eqn:SP.
  - destruct d as [|x [|y d]]; [discriminate| |discriminate]. reflexivity.
  - unfold sb_push_slice_no_opt, OP_PUSHDATA1, as_u8. destruct (N.ltb_spec (lenN d) 76) as [A|A]; [|destruct (N.ltb_spec (lenN d) 256) as [B|B]; [|destruct (N.ltb_spec (lenN d) 65536) as [C|C]]];
      cbn [app is_op_return]; rewrite !lenN_cons; change (106 =? OP_RETURN) with true; cbn [andb]; [destruct (N.leb_spec (lenN d) 80), (N.leb_spec (1 + (1 + lenN d)) 83); lia|destruct (N.leb_spec (lenN d) 80), (N.leb_spec (1 + (1 + (1 + lenN d))) 83); lia| |].
    + destruct (N.leb_spec (lenN d) 80); [lia|]. apply N.leb_gt. lia.
    + destruct (N.leb_spec (lenN d) 80); [lia|]. apply N.leb_gt. lia.
Qed.
Print Assumptions C61_op_return.

(** The virtual size is the weight, or twenty for each signature operation if that is more, divided by four and rounded up. *)
Theorem C61_virtual_size : forall w n, (0 <= w < 2 ^ 63)%Z -> (0 <= n < 2 ^ 63)%Z ->
  match get_virtual_tx_size w n with
  | Ret v => (4 * (v - 1) < Z.max w (20 * n) <= 4 * v /\ Z.max w (20 * n) < 2 ^ 63 - 4)%Z
  | Panic => (2 ^ 63 - 4 <= Z.max w (20 * n))%Z
  end.
Proof.
  intros w n W NN. change (2 ^ 63)%Z with 9223372036854775808%Z in *. unfold get_virtual_tx_size, i64_ret, i64_ok. change (- 2 ^ 63)%Z with (-9223372036854775808)%Z. change (2 ^ 63)%Z with 9223372036854775808%Z.
  destruct (Z.leb_spec (-9223372036854775808) (n * 20)); [|lia]. destruct (Z.ltb_spec (n * 20) 9223372036854775808); cbn [andb rbind]; [|lia].
  destruct (Z.leb_spec (-9223372036854775808) (Z.max w (n * 20) + 4)); [|lia]. destruct (Z.ltb_spec (Z.max w (n * 20) + 4) 9223372036854775808); cbn [andb rbind]; [|lia].
  destruct (Z.leb_spec (-9223372036854775808) (Z.max w (n * 20) + 4 - 1)); [|lia]. destruct (Z.ltb_spec (Z.max w (n * 20) + 4 - 1) 9223372036854775808); cbn [andb rbind]; [|lia].
  rewrite Z.quot_div_nonneg by lia. lia.
Qed.
Print Assumptions C61_virtual_size.

(** A signature can be added to any stack. *)
Theorem C61_push_signature : forall E, ecurve_ok E -> forall (s : esig E) w ls, stack_of w ls -> elements_size (ls ++ [ecdsa_bytes E s]) <= 2 ^ 32 ->
  exists w', push_ecdsa_signature E w s = Ret w' /\ stack_of w' (ls ++ [ecdsa_bytes E s]).
Proof.
  intros E EO s w ls ST SZ. destruct (es_ser_spec E EO s) as (x & SE & SB & _). destruct (push_total w ls _ ST SZ) as (w' & W & S). exists w'. split; [|exact S]. unfold push_ecdsa_signature. rewrite SE. cbn [rbind]. rewrite SB. exact W.
Qed.
Print Assumptions C61_push_signature.

Lemma unread : forall C (dcb : bytes -> option C) w ls s c, stack_of w ls -> short_elements ls -> bip341_script ls = Some (s, c) -> dcb c = None ->
  taproot_leaf_script dcb w = Ret None /\ taproot_annex dcb w = Ret None.
Proof. intros C dcb w ls s c ST SH E N. rewrite (C45_leaf_script C dcb w ls ST SH), (C45_annex C dcb w ls ST SH), E, N. auto. Qed.
(** Finding: an annex that does not begin with 0x50 is accepted by push_p2tr_script_spend although it is not one: the witness no longer unlocks the
    output by this script, and neither the script nor the annex is read back. *)
Theorem C61_annex_refuted : forall hash160 sha256 T, hashes_ok hash160 sha256 -> curve_ok T -> forall t k i n,
  tree_ok t -> height t <= 128 -> build sha256 (dfs 0 t) = Ret (Ok [Some n]) -> finalize sha256 T [Some n] k = Ret (Ok i) ->
  forall s v cb, control_block_of T i (s, v) = Ret (Some cb) -> lenN s <= 1000000 ->
  exists w', push_p2tr_script_spend T wit_new s cb (Some [1]) = Ret w' /\ stack_of w' [s; cb_serialize T cb; [1]] /\
    (forall spk input r, ~ unlocks hash160 sha256 T (t_witness 1 spk) input [s; cb_serialize T cb; [1]] r) /\
    let dcb := fun b => match cb_decode T b with Ret (Ok c) => Some c | _ => None end in
    taproot_leaf_script dcb w' = Ret None /\ taproot_annex dcb w' = Ret None.
Proof.
  intros h1 h2 T [H1 H2] TO t k i n TR HT B FI s v cb CB LS.
  pose proof (C34_control_block h2 T H2 TO t k i n TR HT B FI s v) as CT. rewrite CB in CT. destruct CT as (CV & CK & CP & _ & VC).
  destruct (paths_ok h2 H2 t _ _ TR CP) as [LO PO]. pose proof (paths_len h2 t _ _ CP) as PL. destruct LO as [LO VO].
  assert (F32 : Forall (fun h => lenN h = 32) (cb_branch cb)) by (rewrite Forall_forall in *; intros h I; apply (PO h I)).
  assert (BL : lenN (cb_branch cb) <= 128) by lia. rewrite <- CV in VO. destruct (C34_encode T TO cb VO F32 BL) as [EL _]. unfold cb_size, CONTROL_BASE_SIZE, NODE_SIZE in EL.
  destruct (three_pushes wit_new [] s (cb_serialize T cb) (Some [1]) new_stack) as (w1 & w2 & w' & W1 & W2 & W3 & S3).
  { cbn [app]. etransitivity; [exact (three_sizes s (cb_serialize T cb) [1])|]. rewrite EL. change (lenN [1]) with 1. apply (N.le_trans _ 1100000); [lia|discriminate]. }
  cbn [app] in S3. exists w'. split. { unfold push_p2tr_script_spend. rewrite W1. cbn [rbind]. unfold encode_to_arrayvec. replace (_ <=? _) with true by (symmetry; apply N.leb_le; rewrite EL; unfold CONTROL_BASE_SIZE, NODE_SIZE, MAX_NODE_COUNT; lia). cbn [rbind]. rewrite W2. cbn [rbind]. exact W3. }
  split; [exact S3|].
  assert (AN : bip341_annex [s; cb_serialize T cb; [1]] = None) by (apply (annex_none [s; cb_serialize T cb] [1]); discriminate).
  split.
  - intros spk input r U. remember (t_witness 1 spk) as q eqn:Q. remember [s; cb_serialize T cb; [1]] as els eqn:EE.
    assert (RE : bip341_rest els = [s; cb_serialize T cb; [1]]) by (rewrite (rest_none _ AN); exact EE). clear EE AN.
    destruct U as [v' p w0 r0 U'|h redeem p input' w0 r0 _ _ _ _ _ _ _]; [|unfold t_p2sh, t_witness in Q; cbn [app] in Q; discriminate].
    assert (v' = 1) as ->. { apply (f_equal (hd 0)) in Q. unfold t_witness, version_op in Q. cbn [app hd] in Q. change (1 =? 0) with false in Q. cbv iota in Q. destruct (N.eqb_spec v' 0); lia. }
    remember 1 as one eqn:O1 in U'. destruct U' as [h sig key|h script stack|key w0 sig A1 A2|key w0 stack script control A1 A2 A3]; [discriminate O1|discriminate O1| |].
    + rewrite RE in A2. discriminate.
    + assert (control = [1]). { rewrite RE in A2. apply (f_equal (@rev bytes)) in A2. rewrite rev_app_distr in A2. cbn [rev app] in A2. congruence. } subst control. destruct A3 as (c & key' & path & _ & _ & E & KL & _). destruct key'; [discriminate KL|discriminate E].
  - cbv zeta. set (dcb := fun b => _). assert (SH : short_elements [s; cb_serialize T cb; [1]]) by (constructor; [apply (N.le_trans _ 1000000); [exact LS|discriminate]|constructor; [apply (N.le_trans _ 5000); [lia|discriminate]|constructor; [discriminate|constructor]]]).
    assert (BS : bip341_script [s; cb_serialize T cb; [1]] = Some (cb_serialize T cb, [1])) by (apply (script_of_rest _ [s]); exact (rest_none _ AN)).
    exact (unread _ dcb w' _ _ _ S3 SH BS eq_refl).
Qed.
Print Assumptions C61_annex_refuted.

(** Concrete cases. *)
Example C61_ex_hashes : exists h160, hashes_ok h160 SSha2.SHA256.
Proof. exists (fun m => takeN 20 (SSha2.SHA256 m)). split; [|exact SHA256_ok]. intro m. destruct (SHA256_ok m) as [L B]. split; [now apply LBip32b.takeN_ok'|rewrite lenN_takeN; lia]. Qed.
Example C61_ex_tree : exists n i cb w, build SSha2.SHA256 (dfs 0 ex_tree) = Ret (Ok [Some n]) /\ finalize SSha2.SHA256 toy [Some n] (mk_xonly (toy_make 12345 : c_key toy) false) = Ret (Ok i) /\
  control_block_of toy i (ex_script, MTaproot.TapScript) = Ret (Some cb) /\ stack_of w [[7]; []] /\ tree_ok ex_tree /\ height ex_tree <= 128.
Proof. destruct C34_ex_spend as (n & i & cb & A & B & C). destruct (from_slice_total [[7]; []]) as [w W]; [vm_compute; discriminate|]. exists n, i, cb, w. split; [exact A|]. split; [exact B|]. split; [exact C|]. split; [exact W|]. split; apply C34_ex_tree. Qed.
Example C61_ex_small : is_provably_unspendable [106; 1; 7] = Ret true /\ is_provably_unspendable [118; 169] = Ret false /\ get_virtual_tx_size 561 1 = Ret 141%Z /\ get_virtual_tx_size 400 80 = Ret 400%Z /\
  is_standard_op_return (new_op_return (repeat 7 80)) = true /\ is_standard_op_return (new_op_return (repeat 7 81)) = false.
Proof. repeat split; vm_compute; reflexivity. Qed.
