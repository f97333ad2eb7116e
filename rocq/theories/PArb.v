(** Property C71: the values that the fuzzing generators make.  Generators: MArb.v, specification: SArb.v. *)
From Coq Require Import String.
From Verif Require Import Base MText MAmount MLock MWitness MTx MTxSize MPredict MAgent MPmt MTaproot MBip32 MSighash MDec MP2p MArb SArb.
From Verif Require LHex LHmac LSha2b LCompact LTxEx LTaproot PTaproot.
From Verif Require Import SWire SP2p SPmt SBip32 STaproot SAgent LDec LWire LTx2 LBuilt LBip32c LP2p2 LP2p4 LPmt3 LArb PTx PPmt PBip32 PP2p PAgent.
Local Open Scope list_scope.
Local Open Scope N_scope.

(** * Numbers *)
(** Every value of the type can be drawn, nothing else, and the [expect] and [unwrap] in the generators never fire. *)
Theorem C71_amount : panic_free arb_amount /\ makes arb_amount (fun a => 0 <= a <= 2100000000000000)%Z.
Proof. split; [exact amount_panic|exact amount_got]. Qed.
Theorem C71_signed_amount : panic_free arb_signed_amount /\ makes arb_signed_amount (fun a => - 2100000000000000 <= a <= 2100000000000000)%Z.
Proof.
  split.
  - unfold panic_free, arb_signed_amount. intro H. ginv; unfold signed_from_sat, SIGNED_MIN, AMOUNT_MAX in *; [|lia].
    destruct (Z.ltb_spec v (-21000000 * 100000000)); [lia|]. destruct (Z.ltb_spec (21000000 * 100000000) v); [lia|discriminate].
  - intros a. unfold arb_signed_amount. split.
    + intro H. ginv. unfold signed_from_sat, SIGNED_MIN, AMOUNT_MAX in *.
      destruct (Z.ltb_spec v (-21000000 * 100000000)); [discriminate|]. destruct (Z.ltb_spec (21000000 * 100000000) v); [discriminate|]. injection K as <-. lia.
    + intro H. gdraw a; [apply range_i_got; unfold SIGNED_MIN, AMOUNT_MAX; lia|]. apply lift_got. unfold signed_from_sat, SIGNED_MIN, AMOUNT_MAX.
      destruct (Z.ltb_spec a (-21000000 * 100000000)); [lia|]. destruct (Z.ltb_spec (21000000 * 100000000) a); [lia|reflexivity].
Qed.
Theorem C71_lock_times : panic_free arb_height /\ makes arb_height (fun h => h < 500000000) /\
  panic_free arb_mtp /\ makes arb_mtp (fun t => 500000000 <= t < 2 ^ 32).
Proof.
  assert (A : forall h, height_from_u32 h = if h <? 500000000 then Ok h else Err (InvalidHeight h)) by reflexivity.
  assert (B : forall h, mtp_from_u32 h = if 500000000 <=? h then Ok h else Err (InvalidTime h)) by reflexivity.
  split; [|split; [|split]].
  - unfold panic_free, arb_height, HEIGHT_MIN, HEIGHT_MAX, LOCK_TIME_THRESHOLD. intro H. ginv; [|lia]. apply upto2 in G. destruct G as [->|[->| ->]]; cbv beta iota in K; ginv; [|lia].
    rewrite A in K0. destruct (N.ltb_spec v 500000000); [discriminate|lia].
  - intros h. unfold arb_height, HEIGHT_MIN, HEIGHT_MAX, LOCK_TIME_THRESHOLD. split.
    + intro H. ginv. apply upto2 in G. destruct G as [->|[->| ->]]; cbv beta iota in K; ginv; try lia. rewrite A in K0. destruct (N.ltb_spec v 500000000); [|discriminate]. injection K0 as <-. assumption.
    + intro H. gdraw 2; [apply range_got; lia|]. gdraw h; [apply range_got; lia|]. apply lift_got. rewrite A. destruct (N.ltb_spec h 500000000); [reflexivity|lia].
  - unfold panic_free, arb_mtp, MTP_MIN, MTP_MAX, LOCK_TIME_THRESHOLD, U32_MAX. intro H. ginv; [|lia]. apply upto2 in G. destruct G as [->|[->| ->]]; cbv beta iota in K; ginv; [|lia].
    rewrite B in K0. destruct (N.leb_spec 500000000 v); [discriminate|lia].
  - intros h. unfold arb_mtp, MTP_MIN, MTP_MAX, LOCK_TIME_THRESHOLD, U32_MAX. split.
    + intro H. ginv. apply upto2 in G. destruct G as [->|[->| ->]]; cbv beta iota in K; ginv; try lia. rewrite B in K0. destruct (N.leb_spec 500000000 v); [|discriminate]. injection K0 as <-. lia.
    + intro H. gdraw 2; [apply range_got; lia|]. gdraw h; [apply range_got; lia|]. apply lift_got. rewrite B. destruct (N.leb_spec 500000000 h); [reflexivity|lia].
Qed.
Theorem C71_sequence : panic_free arb_sequence /\ makes arb_sequence (fun n => n < 2 ^ 32).
Proof. split; [exact sequence_panic|exact sequence_got]. Qed.
(** The generator of block heights, block times and their intervals only ever gives the two ends: the range it draws its
    choice from stops before the choice of an arbitrary number. *)
Theorem C71_block_number : panic_free arb_block_number /\ makes arb_block_number (fun n => n = 0 \/ n = 2 ^ 32 - 1).
Proof.
  split.
  - unfold panic_free, arb_block_number. intro H. ginv; [|lia]. apply upto2 in G. destruct G as [->|[->| ->]]; cbv beta iota in K; ginv.
  - intros n. unfold arb_block_number, U32_MAX. split.
    + intro H. ginv. apply upto2 in G. destruct G as [->|[->| ->]]; cbv beta iota in K; ginv; subst; auto.
    + intros [-> | ->]; [gdraw 0; [apply range_got; lia|now apply gret_got]|gdraw 2; [apply range_got; lia|now apply gret_got]].
Qed.
Theorem C71_block_number_refuted : exists n, n < 2 ^ 32 /\ ~ arb_block_number (Got n).
Proof. exists 1. split; [lia|]. intro H. apply (proj2 C71_block_number) in H. lia. Qed.
(** A generated fee filter message is read back as it was written (which is not so for every fee rate, C33). *)
Theorem C71_fee_filter : panic_free arb_fee_filter /\
  forall r, arb_fee_filter (Got r) -> decode_from_slice fee_filter_dec (fee_filter_encode r) = Ret (Ok r).
Proof.
  assert (U : forall k, (0 <= k <= 4294967295)%Z -> feerate_from_sat_per_kvb k = Ret (k * 1000)%Z).
  { intros k H. unfold feerate_from_sat_per_kvb, u64_mul, U64_MAX. destruct (Z.leb_spec (k * 1000) 18446744073709551615); [reflexivity|lia]. }
  assert (R : forall k, (0 <= k <= 4294967295)%Z -> decode_from_slice fee_filter_dec (fee_filter_encode (k * 1000)) = Ret (Ok (k * 1000)%Z)).
  { intros k H. apply (codec_slice fee_filter_codec); [apply le_bytes_ok|]. split; [reflexivity|]. exists (Z.to_N k). lia. }
  split.
  - unfold panic_free, arb_fee_filter. intro H. ginv; [|lia]. apply upto3 in G. destruct G as [->|[->|[->| ->]]]; cbv beta iota in K; ginv; try discriminate. rewrite U in K0 by lia. discriminate.
  - unfold arb_fee_filter. intros r H. ginv. apply upto3 in G. destruct G as [->|[->|[->| ->]]]; cbv beta iota in K; ginv.
    + subst. apply (R 0%Z). lia.
    + injection K as <-. apply (R 1000%Z). lia.
    + injection K as <-. apply (R 3000%Z). lia.
    + rewrite U in K0 by lia. injection K0 as <-. apply R. lia.
Qed.

(** * Transactions *)
(** A generated transaction obeys every rule of the decoder, whatever the drawn inputs and outputs, ... *)
Theorem C71_transaction : forall tx, arb_transaction (Got tx) ->
  tx_rules tx /\ (sizes tx -> tx_ok tx /\ decode_from_slice tx_dec (tx_encode tx) = Ret (Ok tx)).
Proof.
  intros tx H. unfold arb_transaction in H. apply gbind_got in H as (ver & Hv & H). apply gbind_got in H as (lt & Hl & H).
  apply gbind_got in H as (ins & Hi & H). apply gbind_got in H as (outs & Ho & H). cbv zeta in H. apply gbind_got in H as (outs' & Ho' & H).
  apply gbind_got in H as (r & Hr & H). rewrite gret_got in H. rewrite lift_got in Hr. rewrite vec_got in Hi, Ho.
  assert (O' : Forall (fun o => arb_txout (Got o)) outs' /\ outs' <> []).
  { destruct outs as [|o outs]; ginv; subst; [split; [constructor; auto|discriminate]|]. split; [exact Ho|discriminate]. }
  destruct O' as [O1 O2]. destruct (cap_spec outs' MAX_MONEY) as (r' & E & T & S1 & S2 & _); [vm_compute; discriminate|]. assert (r' = r) as -> by congruence.
  destruct (retain_nodup ins []) as [ND _]. destruct (drop_null_facts _ ND) as [ND2 NN].
  set (ins' := fix_coinbase (drop_null (retain_new [] ins))) in *. subst tx.
  assert (Fi : Forall (fun i => arb_txin (Got i)) ins') by (apply fix_forall, drop_null_forall, retain_forall, Hi).
  assert (T2 : total r <= 2100000000000000) by exact T.
  assert (TR : tx_rules {| tx_version := ver; tx_lock_time := lt; tx_inputs := ins'; tx_outputs := r |}).
  { constructor; cbn [tx_inputs tx_outputs].
    - intros ->. destruct outs'; [contradiction|discriminate].
    - intros L. unfold ins' in *. rewrite fix_length in L. rewrite fix_prevouts. auto.
    - intros i Ei. now apply (fix_rule (drop_null (retain_new [] ins))).
    - unfold ins'. rewrite fix_prevouts. exact ND2.
    - exact T2. }
  split; [exact TR|]. intros (Z1 & Z2 & Z3 & Z4). cbn [tx_inputs tx_outputs] in *.
  assert (OK : tx_ok {| tx_version := ver; tx_lock_time := lt; tx_inputs := ins'; tx_outputs := r |}).
  { split; [|exact TR]. unfold tx_shape. cbn [tx_version tx_lock_time tx_inputs tx_outputs]. split; [now apply version_got in Hv|]. split; [unfold arb_lock_time, arb_u32 in Hl; now rewrite any_got in Hl|]. split.
    - split; [exact Z1|]. rewrite Forall_forall in *. intros i I. specialize (Fi i I). destruct (Z4 i I) as [Y1 Y2]. apply txin_got in Fi as (A & B & C & ls & D1 & D2). unfold txin_ok, script_ok.
      split; [exact A|]. split; [split; assumption|]. split; [exact C|]. exists ls. split; [exact D2|]. destruct (Y2 ls D2) as [X1 X2]. split; [exact X1|]. rewrite Forall_forall in *. intros e Ie. split; auto.
    - split; [exact Z2|]. assert (SC : Forall (fun s => bytes_ok s) (map to_script r)). { rewrite S1. rewrite Forall_map. eapply Forall_impl; [|exact O1]. intros o Q. now apply txout_got in Q. }
      rewrite Forall_map in SC. rewrite Forall_forall in *. intros o I. unfold txout_ok, script_ok. split; [|split; auto]. clear - I T2. induction r as [|x r IH]; [contradiction|]. cbn [total fold_right] in T2. fold (total r) in T2. destruct I as [->|I]; [lia|]. apply IH; auto. lia. }
  split; [exact OK|]. apply (codec_slice tx_codec_ok); [|split; [reflexivity|exact OK]].
  apply LHex.tx_encode_ok, OK.
Qed.
(** ... every transaction that the decoder accepts can be generated, ... *)
Theorem C71_transaction_all : forall tx, tx_ok tx -> arb_transaction (Got tx).
Proof.
  intros [v lt ins outs] [(Sv & Sl & [_ Si] & [_ So]) [R1 R2 R3 R4 R5]]. cbn [tx_version tx_lock_time tx_inputs tx_outputs] in *. unfold total_out in R5. cbn [tx_outputs] in R5.
  unfold arb_transaction. gdraw v; [now apply version_got|]. gdraw lt; [now apply any_got|]. gdraw ins.
  { apply vec_got. eapply Forall_impl; [|exact Si]. intros i (A & [_ B] & C & ls & D & [_ F]). apply txin_got. split; [exact A|]. split; [exact B|]. split; [exact C|]. exists ls. split; [|exact D]. eapply Forall_impl; [|exact F]. now intros e [_ ?]. }
  gdraw outs.
  { apply vec_got. eapply Forall_impl; [|exact So]. intros o [A [_ B]]. apply txout_got. auto. }
  cbv zeta. gdraw outs; [destruct outs; [contradiction|now apply gret_got]|]. gdraw outs.
  - apply lift_got. destruct (cap_spec outs MAX_MONEY) as (r & E & _ & _ & _ & ID); [vm_compute; discriminate|]. rewrite E. f_equal. apply ID. exact R5.
  - apply gret_got. f_equal. rewrite (retain_id ins []) by auto. rewrite (drop_null_id ins) by exact R2. now rewrite (fix_id ins) by exact R3.
Qed.
(** ... and generating one panics only if a drawn witness takes four gibibytes or more (C12). *)
Theorem C71_transaction_panic : arb_transaction Panicked -> exists ls, Forall bytes_ok ls /\ 2 ^ 32 <= lenN (concat (map wire_bytes ls)).
Proof.
  unfold arb_transaction. intro H. apply gbind_panic in H as [(ver & Hv & H)|H]; [|now apply version_panic in H]. apply gbind_panic in H as [(lt & Hl & H)|H]; [|unfold arb_lock_time, arb_u32 in H; now rewrite any_panic in H].
  apply gbind_panic in H as [(ins & Hi & H)|H].
  - apply gbind_panic in H as [(outs & Ho & H)|H]; [|rewrite vec_panic in H; now apply txout_panic in H]. cbv zeta in H. apply gbind_panic in H as [(outs' & Ho' & H)|H].
    + apply gbind_panic in H as [(r & Hr & H)|H]; [now rewrite gret_panic in H|]. rewrite lift_panic in H. destruct (cap_spec outs' MAX_MONEY) as (r & E & _); [vm_compute; discriminate|]. congruence.
    + destruct outs as [|o outs]; [|now rewrite gret_panic in H]. apply gbind_panic in H as [(o & _ & H)|H]; [now rewrite gret_panic in H|now apply txout_panic in H].
  - rewrite vec_panic in H. unfold arb_txin, arb_outpoint in H. apply gbind_panic in H as [(o & Ho & H)|H].
    + apply gbind_panic in H as [(s & Hs & H)|H]; [|now rewrite bytes_panic in H]. apply gbind_panic in H as [(q & Hq & H)|H]; [|now apply sequence_panic in H].
      apply gbind_panic in H as [(w & Hw & H)|H]; [now rewrite gret_panic in H|now apply witness_panic].
    + ginv.
Qed.
Example C71_transaction_ex : arb_transaction (Got LTxEx.ex_tx).
Proof. apply C71_transaction_all. exact LTxEx.ex_tx_ok. Qed.

(** * Signatures *)
Lemma be_val_app : forall a b, be_val (a ++ b) = be_val a * 256 ^ lenN b + be_val b.
Proof.
  induction a as [|x a IH]; intros b; [reflexivity|]. cbn [app]. rewrite !LTaproot.be_val_cons, IH, lenN_app, N.pow_add_r. ring.
Qed.
Lemma be_pair : forall h l, h < 2 ^ 128 -> l < 2 ^ 128 -> be_val (be_bytes 16 h ++ be_bytes 16 l) = h * 2 ^ 128 + l /\ lenN (be_bytes 16 h ++ be_bytes 16 l) = 32.
Proof.
  intros h l Hh Hl. split; [|rewrite lenN_app, !LSha2b.be_bytes_len; reflexivity]. rewrite be_val_app, !be_val_be, LSha2b.be_bytes_len by assumption. reflexivity.
Qed.
(** The two numbers of a generated signature are below the order of the curve, so building it never fails. *)
Theorem C71_ecdsa_signature : panic_free arb_ecdsa_signature /\
  forall s t, arb_ecdsa_signature (Got (s, t)) -> lenN s = 64 /\
    be_val (takeN 32 s) < 2 ^ 256 - 0x14551231950B75FC4402DA1732FC9BEBF /\ be_val (dropN 32 s) < 2 ^ 256 - 0x14551231950B75FC4402DA1732FC9BEBF.
Proof.
  change (2 ^ 256 - 0x14551231950B75FC4402DA1732FC9BEBF) with CURVE_N.
  assert (D : forall c hl, 0 <= c <= 2 -> (match c with 0 => gret (0, 0) | 1 => gret (HIGH_MAX, LOW_MAX)
      | _ => gbind (int_in_range 0 HIGH_MAX) (fun h => gbind (int_in_range 0 LOW_MAX) (fun l => gret (h, l))) end) (Got hl) -> fst hl <= HIGH_MAX /\ snd hl <= LOW_MAX).
  { intros c hl Hc H. apply upto2 in Hc. destruct Hc as [->|[->| ->]]; cbv beta iota in H; ginv; subst; cbn [fst snd]; unfold HIGH_MAX, LOW_MAX in *; lia. }
  assert (B : forall hl, fst hl <= HIGH_MAX /\ snd hl <= LOW_MAX -> let b := be_bytes 16 (fst hl) ++ be_bytes 16 (snd hl) in
    lenN (b ++ b) = 64 /\ be_val (takeN 32 (b ++ b)) < CURVE_N /\ be_val (dropN 32 (b ++ b)) < CURVE_N).
  { intros [h l] [Hh Hl]. cbn [fst snd] in *. destruct (be_pair h l) as [V L]; [unfold HIGH_MAX in Hh; lia|unfold LOW_MAX in Hl; lia|].
    set (b := be_bytes 16 h ++ be_bytes 16 l) in *. assert (VC : be_val b < CURVE_N).
    { rewrite V. clear - Hh Hl. unfold HIGH_MAX, LOW_MAX, CURVE_N in *. change (2 ^ 128) with 340282366920938463463374607431768211456. lia. }
    split; [rewrite lenN_app; lia|]. rewrite takeN_app_le by lia. rewrite takeN_all by lia. rewrite dropN_app_ge by lia. rewrite L. change (32 - 32) with 0. rewrite dropN_0. auto. }
  split.
  - unfold panic_free, arb_ecdsa_signature. intro H. apply gbind_panic in H as [(c & Hc & H)|H]; [|ginv; lia]. rewrite range_got in Hc. apply gbind_panic in H as [(hl & Hh & H)|H].
    + apply (D c hl Hc) in Hh. apply B in Hh as (_ & Q1 & Q2). cbv zeta in H. apply gbind_panic in H as [(s & _ & H)|H].
      * apply gbind_panic in H as [(t & _ & H)|H]; [now rewrite gret_panic in H|]. unfold arb_ecdsa_type in H. ginv. lia.
      * rewrite lift_panic in H. unfold compact_ok in H. apply N.ltb_lt in Q1, Q2. rewrite Q1, Q2 in H. discriminate.
    + apply upto2 in Hc. destruct Hc as [->|[->| ->]]; cbv beta iota in H; ginv; unfold HIGH_MAX, LOW_MAX in *; lia.
  - intros s t H. unfold arb_ecdsa_signature in H. apply gbind_got in H as (c & Hc & H). rewrite range_got in Hc. apply gbind_got in H as (hl & Hh & H). apply (D c hl Hc) in Hh. apply B in Hh.
    cbv zeta in H. apply gbind_got in H as (s' & Hs & H). rewrite lift_got in Hs. apply gbind_got in H as (t' & _ & H). rewrite gret_got in H. injection H as -> ->.
    destruct (compact_ok _); [injection Hs as <-; exact Hh|discriminate].
Qed.
(** Every signature hash type can be drawn. *)
Theorem C71_sighash_types : panic_free arb_ecdsa_type /\ makes arb_ecdsa_type (fun _ => True) /\ panic_free arb_tap_type /\ makes arb_tap_type (fun _ => True).
Proof.
  split; [|split; [|split]].
  - unfold panic_free, arb_ecdsa_type. intro H. ginv. lia.
  - intros t. split; [auto|]. intros _. unfold arb_ecdsa_type.
    gdraw (match t with EAll => 0 | ENone => 1 | ESingle => 2 | EAllAcp => 3 | ENoneAcp => 4 | ESingleAcp => 5 end); [apply range_got; destruct t; lia|apply gret_got; now destruct t].
  - unfold panic_free, arb_tap_type. intro H. ginv. lia.
  - intros t. split; [auto|]. intros _. unfold arb_tap_type.
    gdraw (match t with TDefault => 0 | TAll => 1 | TNone => 2 | TSingle => 3 | TAllAcp => 4 | TNoneAcp => 5 | TSingleAcp => 6 end); [apply range_got; destruct t; lia|apply gret_got; now destruct t].
Qed.

(** * Extended keys *)
(** The generated private keys are those that survive being written and read; ... *)
Theorem C71_xpriv : forall C, ecurve_ok C -> panic_free (arb_xpriv C) /\ makes (arb_xpriv C) (fun x => xpriv_ok C x /\ priv_master_rule x) /\
  forall x, arb_xpriv C (Got x) -> exists b, xpriv_encode x = Ret b /\ xpriv_decode C b = Ok x.
Proof.
  intros C OKC. assert (M : makes (arb_xpriv C) (fun x => xpriv_ok C x /\ priv_master_rule x)).
  { intros x. unfold arb_xpriv, arb_net_kind, arb_secret_key. split.
    - intro H. apply gbind_got in H as (d & Hd & H). apply gbind_got in H as (fc & Hf & H). ginv. destruct G1 as [L1 L2]. subst x. unfold xpriv_ok, priv_master_rule. cbn [s_depth s_parent s_child s_key s_chain].
      destruct d as [|d].
      + cbv beta iota in Hf. ginv. subst fc. cbn [fst snd]. split; [|intros _; split; reflexivity]. split; [reflexivity|]. split; [reflexivity|]. split; [repeat constructor|]. split; [reflexivity|]. auto.
      + cbv beta iota in Hf. ginv. subst fc. cbn [fst snd]. destruct G as [P1 P2]. split; [|intro Q; discriminate Q]. split; [exact Hd|]. auto 10.
    - destruct x as [n d f c k h]. unfold xpriv_ok, priv_master_rule. cbn [s_depth s_parent s_child s_key s_chain]. intros ((A1 & A2 & A3 & A4 & A5 & A6 & A7) & MR).
      gdraw d; [now apply any_got|]. gdraw (f, c).
      { destruct d; [destruct (MR eq_refl) as [-> ->]; now apply gret_got|]. gdraw f; [apply any_got; auto|]. gdraw c; [now apply any_got|]. now apply gret_got. }
      gdraw n. { gdraw (match n with NMain => true | NTest => false end); [now apply any_got|]. apply gret_got. now destruct n. }
      gdraw k; [now apply any_got|]. gdraw h; [apply any_got; auto|]. now apply gret_got. }
  split; [|split; [exact M|]].
  - unfold panic_free, arb_xpriv, arb_net_kind, arb_secret_key. intro H. apply gbind_panic in H as [(d & Hd & H)|H]; [|ginv]. apply gbind_panic in H as [(fc & Hf & H)|H]; [ginv|]. destruct d; ginv.
  - intros x Hx. apply M in Hx as [OX MR]. exists (priv_bytes x). split; [now apply (priv_encode_eq C)|]. apply priv_decode_ok; auto. now apply (priv_bytes_ok C).
Qed.
(** ... a generated public key need not: at depth zero its parent fingerprint and child number are drawn all the same, and the
    decoder refuses what the encoder wrote. *)
Theorem C71_xpub : forall C, panic_free (arb_xpub C) /\ makes (arb_xpub C) (xpub_ok C).
Proof.
  intros C. split.
  - unfold panic_free, arb_xpub, arb_net_kind, arb_point. intro H. ginv.
  - intros x. unfold arb_xpub, arb_net_kind, arb_point. split.
    + intro H. ginv. subst x. unfold xpub_ok. cbn [p_depth p_parent p_child p_key p_chain]. tauto.
    + destruct x as [n d f c k h]. unfold xpub_ok. cbn [p_depth p_parent p_child p_key p_chain]. intros (A1 & A2 & A3 & A4 & A5 & A6).
      gdraw n. { gdraw (match n with NMain => true | NTest => false end); [now apply any_got|]. apply gret_got. now destruct n. }
      gdraw d; [now apply any_got|]. gdraw f; [apply any_got; auto|]. gdraw c; [now apply any_got|]. gdraw k; [now apply any_got|]. gdraw h; [apply any_got; auto|]. now apply gret_got.
Qed.
Theorem C71_xpub_refuted : forall C, ecurve_ok C -> exists x b, arb_xpub C (Got x) /\ xpub_encode C x = Ret b /\ xpub_decode C b = Err (DXkey NonZeroParent).
Proof.
  intros C OKC. set (x := mk_xpub C NMain 0 [1; 2; 3; 4] 0 (ec_mul C 1) (repeat 7 32)).
  assert (OX : xpub_ok C x). { unfold xpub_ok, x. cbn [p_depth p_parent p_child p_key p_chain]. repeat split; try reflexivity; try (repeat constructor; fail). }
  exists x, (pub_bytes C x). split; [now apply (proj2 (C71_xpub C))|]. split; [now apply pub_encode_eq|]. unfold xpub_decode. rewrite (common_decode_eq _ _ (pub_layout C OKC x OX)); [reflexivity|]. now apply pub_bytes_ok.
Qed.

(** * Taproot *)
Lemma future_exact : forall v, v < 256 -> v <> LEAF_TAPSCRIPT -> future_from_consensus v = Ret (if (v mod 2 =? 0) && negb (v =? 0x50) then Ok v else Err v).
Proof.
  intros v L NT. pose proof (PTaproot.lv_exact v L) as E. unfold lv_from_consensus in E. destruct (N.eqb_spec v LEAF_TAPSCRIPT); [contradiction|]. change 192 with LEAF_TAPSCRIPT in E. destruct (N.eqb_spec v LEAF_TAPSCRIPT); [contradiction|].
  unfold ANNEX_PREFIX in E. destruct (N.eqb_spec v 80) as [->|NA]; [reflexivity|]. destruct ((v mod 2 =? 0) && negb false), (future_from_consensus v) as [[f|e]|]; try discriminate; congruence.
Qed.
Theorem C71_leaf_version : panic_free arb_leaf_version /\ makes arb_leaf_version version_ok.
Proof.
  split.
  - unfold panic_free, arb_leaf_version, arb_future_version. intro H. apply gbind_panic in H as [(b & _ & H)|H]; [|ginv]. destruct b; [ginv|]. apply gbind_panic in H as [(f & _ & H)|H]; [ginv|].
    apply gbind_panic in H as [(v & Hv & H)|H]; [|ginv]. unfold arb_u8 in Hv. rewrite any_got in Hv. destruct (N.eqb_spec v LEAF_TAPSCRIPT); [ginv|]. apply gbind_panic in H as [([f|e] & _ & H)|H]; ginv.
    rewrite (future_exact v Hv) in H by assumption. discriminate.
  - intros lv. unfold arb_leaf_version, arb_future_version. split.
    + intro H. apply gbind_got in H as (b & _ & H). destruct b; [ginv; subst; exact I|]. apply gbind_got in H as (f & Hf & H). rewrite gret_got in H. subst lv. apply gbind_got in Hf as (v & Hv & H). unfold arb_u8 in Hv. rewrite any_got in Hv.
      destruct (N.eqb_spec v LEAF_TAPSCRIPT) as [|NT]; [ginv|]. apply gbind_got in H as (r & Hr & H). rewrite lift_got in Hr. rewrite (future_exact v Hv) in Hr by assumption. unfold LEAF_TAPSCRIPT in NT.
      destruct (N.eqb_spec (v mod 2) 0) as [E|E], (N.eqb_spec v 80) as [A|A]; cbn [andb negb] in Hr; injection Hr as <-; ginv. subst f. cbn [version_ok]. auto.
    + destruct lv as [|f]; [intros _; gdraw true; [now apply any_got|now apply gret_got]|]. intros (L & E & NA & NC). gdraw false; [now apply any_got|]. gdraw f; [|now apply gret_got]. gdraw f; [now apply any_got|].
      destruct (N.eqb_spec f LEAF_TAPSCRIPT) as [|NT]; [contradiction|]. gdraw (@Ok N N f); [|now apply gret_got]. apply lift_got. rewrite (future_exact f L NT), E. destruct (N.eqb_spec f 80); [contradiction|reflexivity].
Qed.
(** A generated taproot tree need not be one: "every value of this type has no hidden nodes" (TapTree) fails, and the root hash is
    drawn apart from the leaves. *)
Theorem C71_tap_tree_refuted : exists t, arb_tap_tree (Got t) /\ tap_tree_of t = Err t /\ ni_leaves t = [].
Proof.
  exists (mk_node (repeat 7 32) [] true). split; [|split; reflexivity]. unfold arb_tap_tree, arb_node_info. gdraw (repeat 7 32); [apply any_got; split; [reflexivity|repeat constructor]|].
  gdraw (@nil leaf_node); [apply vec_got; constructor|]. gdraw true; [now apply any_got|]. now apply gret_got.
Qed.
(** Merkle branches have at most 128 hashes. *)
Theorem C71_branch : panic_free arb_branch /\ makes arb_branch (fun b => lenN b <= 128 /\ Forall (fun h => lenN h = 32 /\ bytes_ok h) b).
Proof.
  split.
  - unfold panic_free, arb_branch. intro H. apply gbind_panic in H as [(l & _ & H)|H]; [destruct (branch_from_collection l); ginv|]. ginv.
  - intros b. unfold arb_branch, branch_from_collection. split.
    + intro H. apply gbind_got in H as (l & Hl & H). rewrite vec_got in Hl. destruct (N.ltb_spec MAX_NODE_COUNT (lenN l)); ginv. subst b. split; [exact H0|]. eapply Forall_impl; [|exact Hl]. intros a Ha. unfold arb_array in Ha. now rewrite any_got in Ha.
    + intros [L F]. gdraw b; [apply vec_got; eapply Forall_impl; [|exact F]; intros a Ha; now apply any_got|]. destruct (N.ltb_spec MAX_NODE_COUNT (lenN b)); [unfold MAX_NODE_COUNT in *; lia|now apply gret_got].
Qed.
(** The nodes that are generated: every combination of a hash, leaves and a flag, where a leaf is any script with a valid version, or any hidden
    hash, with a branch of at most 128 hashes. *)
Definition leaf_parts (l : tap_leaf) : Prop := match l with LScript s v => bytes_ok s /\ version_ok v | LHidden h => lenN h = 32 /\ bytes_ok h end.
Definition branch_parts (b : list bytes) : Prop := lenN b <= 128 /\ Forall (fun h => lenN h = 32 /\ bytes_ok h) b.
Theorem C71_tap_nodes : panic_free arb_tap_tree /\
  makes arb_tap_tree (fun t => (lenN (ni_hash t) = 32 /\ bytes_ok (ni_hash t)) /\ Forall (fun l => leaf_parts (ln_leaf l) /\ branch_parts (ln_branch l)) (ni_leaves t)).
Proof.
  assert (LP : panic_free arb_tap_leaf).
  { unfold panic_free, arb_tap_leaf. intro H. apply gbind_panic in H as [(b & _ & H)|H]; [|ginv]. destruct b; [ginv|]. apply gbind_panic in H as [(s & _ & H)|H]; [|ginv]. apply gbind_panic in H as [(v & _ & H)|H]; [ginv|]. now apply C71_leaf_version in H. }
  assert (LM : makes arb_tap_leaf leaf_parts).
  { intros l. unfold arb_tap_leaf. split.
    - intro H. apply gbind_got in H as (b & _ & H). destruct b.
      + apply gbind_got in H as (h & Hh & H). unfold arb_array in Hh. rewrite any_got in Hh. rewrite gret_got in H. subst l. exact Hh.
      + apply gbind_got in H as (s & Hs & H). rewrite bytes_got in Hs. apply gbind_got in H as (v & Hv & H). apply (proj2 C71_leaf_version) in Hv. rewrite gret_got in H. subst l. split; assumption.
    - destruct l as [s v|h]; cbn [leaf_parts].
      + intros [B V]. gdraw false; [now apply any_got|]. gdraw s; [now apply bytes_got|]. gdraw v; [now apply (proj2 C71_leaf_version)|]. now apply gret_got.
      + intros K. gdraw true; [now apply any_got|]. gdraw h; [now apply any_got|]. now apply gret_got. }
  assert (NM : makes arb_leaf_node (fun l => leaf_parts (ln_leaf l) /\ branch_parts (ln_branch l))).
  { intros n. unfold arb_leaf_node. split.
    - intro H. apply gbind_got in H as (l & Hl & H). apply LM in Hl. apply gbind_got in H as (b & Hb & H). apply (proj2 C71_branch) in Hb. rewrite gret_got in H. subst n. split; assumption.
    - destruct n as [l b]. cbn [ln_leaf ln_branch]. intros [L B]. gdraw l; [now apply LM|]. gdraw b; [now apply (proj2 C71_branch)|]. now apply gret_got. }
  unfold arb_tap_tree. split.
  - unfold panic_free, arb_node_info, arb_leaf_node. intro H. apply gbind_panic in H as [(h & _ & H)|H]; [|ginv]. apply gbind_panic in H as [(l & _ & H)|H]; [ginv|]. rewrite vec_panic in H.
    apply gbind_panic in H as [(t & _ & H)|H]; [|now apply LP in H]. apply gbind_panic in H as [(b & _ & H)|H]; [ginv|]. now apply C71_branch in H.
  - intros t. unfold arb_node_info. split.
    + intro H. apply gbind_got in H as (h & Hh & H). unfold arb_array in Hh. rewrite any_got in Hh. apply gbind_got in H as (l & Hl & H). rewrite vec_got in Hl. apply gbind_got in H as (x & _ & H). rewrite gret_got in H. subst t.
      cbn [ni_hash ni_leaves]. split; [exact Hh|]. eapply Forall_impl; [|exact Hl]. intros a Ha. now apply NM.
    + destruct t as [h l x]. cbn [ni_hash ni_leaves]. intros [Hh Hl]. gdraw h; [now apply any_got|]. gdraw l; [apply vec_got; eapply Forall_impl; [|exact Hl]; intros a Ha; now apply NM|]. gdraw x; [now apply any_got|]. now apply gret_got.
Qed.

(** * Weight predictions *)
(** Generating one can panic: the lengths are drawn over the whole range, and one of the two constructors used overflows on
    the largest (C36). *)
Theorem C71_prediction_refuted : arb_prediction Panicked.
Proof.
  unfold arb_prediction. apply gbind_panic. left. exists 6. split; [apply range_got; lia|]. apply gbind_panic. left. exists 4294967295. split; [apply any_got; lia|]. apply gbind_panic. left. exists []. split; [apply vec_got; constructor|].
  apply lift_panic. reflexivity.
Qed.
(** else exactly the predictions of the two constructors come, for any lengths. *)
Theorem C71_prediction : makes arb_prediction (fun p => exists n l, n < 2 ^ 64 /\ Forall (fun x => x < 2 ^ 64) l /\ (p = iwp_from_slice n l \/ iwp_new n l = Ret p)).
Proof.
  intro p. unfold arb_prediction. split.
  - intro H. apply gbind_got in H as (c & Hc & H). rewrite range_got in Hc.
    assert (K : forall n l, n < 2 ^ 64 -> Forall (fun x => x < 2 ^ 64) l -> gret (iwp_from_slice n l) (Got p) -> exists n l, n < 2 ^ 64 /\ Forall (fun x => x < 2 ^ 64) l /\ (p = iwp_from_slice n l \/ iwp_new n l = Ret p)).
    { intros n l A B X. rewrite gret_got in X. exists n, l. auto. }
    assert (U : forall x, arb_u64 (Got x) -> x < 2 ^ 64) by (intros x X; unfold arb_u64 in X; now rewrite any_got in X).
    assert (UV : forall l, arb_vec arb_u64 (Got l) -> Forall (fun x => x < 2 ^ 64) l) by (intros l X; rewrite vec_got in X; eapply Forall_impl; [|exact X]; exact U).
    assert (c = 0 \/ c = 1 \/ c = 2 \/ c = 3 \/ c = 4 \/ c = 5 \/ c = 6 \/ c = 7) as [->|[->|[->|[->|[->|[->|[->| ->]]]]]]] by lia;
      cbv beta iota in H; try (unfold P2WPKH_MAX, NESTED_P2WPKH_MAX, P2PKH_COMPRESSED_MAX, P2PKH_UNCOMPRESSED_MAX, P2TR_KEY_DEFAULT_SIGHASH, P2TR_KEY_NON_DEFAULT_SIGHASH in H; apply (fun A B => K _ _ A B H); [reflexivity|repeat constructor]).
    + apply gbind_got in H as (n & Hn & H). apply gbind_got in H as (l & Hl & H). rewrite lift_got in H. exists n, l. auto.
    + apply gbind_got in H as (n & Hn & H). apply gbind_got in H as (l & Hl & H). apply (K n l); auto.
  - intros (n & l & A & B & H). assert (V : arb_vec arb_u64 (Got l)) by (apply vec_got; eapply Forall_impl; [|exact B]; intros x X; now apply any_got). destruct H as [->|H].
    + gdraw 7; [apply range_got; lia|]. gdraw n; [now apply any_got|]. gdraw l; [exact V|]. now apply gret_got.
    + gdraw 6; [apply range_got; lia|]. gdraw n; [now apply any_got|]. gdraw l; [exact V|]. now apply lift_got.
Qed.

(** * Network messages *)
Lemma lor_low : forall x, x < 2 ^ 8 -> N.lor (N.shiftl 252 8) x = N.shiftl 252 8 + x.
Proof.
  intros x H. symmetry. rewrite N.add_nocarry_lxor; [apply N.lxor_lor|]; apply N.bits_inj; intro i; rewrite N.land_spec, N.bits_0; (destruct (N.lt_ge_cases i 8) as [L|L];
    [rewrite N.shiftl_spec_low by exact L; reflexivity|]);
    (replace (N.testbit x i) with false; [apply andb_false_r|]); symmetry; rewrite <- (N.mod_small x (2 ^ 8)) by exact H; now rewrite N.mod_pow2_bits_high.
Qed.
Lemma octets_ok : forall s, bytes_ok (octets s).
Proof. induction s as [|x s IH]; [constructor|]. unfold octets in *. cbn [flat_map]. apply bytes_ok_app. split; [apply LSha2b.be_bytes_ok|exact IH]. Qed.
Lemma addr_bytes_ok : forall a, addr_v2_ok a -> bytes_ok (addr_v2_encode a).
Proof.
  intros a OK. destruct a; cbn [addr_v2_ok addr_v2_encode] in *; apply bytes_ok_cons; (split; [reflexivity || apply OK|]); apply bytes_ok_app; (split; [apply LCompact.cs_encode_ok|]); try apply octets_ok; apply OK.
Qed.
(** Every generated address is read back as it was written.  All the addresses that the decoder accepts can be generated, but
    for those of the networks with the numbers 0 and 3. *)
Theorem C71_addr_v2 : panic_free arb_addr_v2 /\
  makes arb_addr_v2 (fun a => addr_v2_ok a /\ match a with NetUnknown n _ => n <> 0 /\ n <> 3 | _ => True end) /\
  forall a, arb_addr_v2 (Got a) -> decode_from_slice addr_v2_dec (addr_v2_encode a) = Ret (Ok a).
Proof.
  assert (NE : forall a b, Nlist_eqb a b = true <-> a = b) by exact Nlist_eqb_eq.
  assert (M : makes arb_addr_v2 (fun a => addr_v2_ok a /\ match a with NetUnknown n _ => n <> 0 /\ n <> 3 | _ => True end)).
  { intros a. unfold arb_addr_v2. split.
    - intro H. ginv. apply upto5 in G. destruct G as [->|[->|[->|[->|[->| ->]]]]]; cbv beta iota in K; ginv; subst a; cbn [addr_v2_ok]; (split; [|auto]); try assumption.
      + destruct G as [L F]. destruct v as [|x s]; [discriminate L|]. destruct (Nlist_eqb (firstn 3 (x :: s)) ONION) eqn:E1; cbn [orb].
        * apply NE in E1. unfold ONION in E1. cbn [firstn] in E1. injection E1 as -> E1. cbn [set_first]. inv F. split; [exact L|]. split; [constructor; [reflexivity|assumption]|]. split; [cbn [firstn]; intro Q; discriminate Q|]. cbn [firstn]. intro Q. discriminate Q.
        * destruct (Nlist_eqb (firstn 6 (x :: s)) IPV4_EMBEDDED_IPV6) eqn:E2.
          -- apply NE in E2. unfold IPV4_EMBEDDED_IPV6 in E2. cbn [firstn] in E2. injection E2 as -> E2. cbn [set_first]. inv F. split; [exact L|]. split; [constructor; [reflexivity|assumption]|]. split; [cbn [firstn]; intro Q; discriminate Q|]. cbn [firstn]. intro Q. discriminate Q.
          -- split; [exact L|]. split; [exact F|]. split; intro Q; apply NE in Q; unfold ONION, IPV4_EMBEDDED_IPV6 in *; congruence.
      + destruct G as [L F]. destruct v as [|x s]; [discriminate L|]. cbn [set_first hd]. inv F. assert (B : 64512 <= N.lor 64512 (N.land x 255) < 64768).
        { change 255 with (N.ones 8). rewrite N.land_ones. assert (x mod 2 ^ 8 < 256) by (apply N.mod_lt; discriminate). revert H. generalize (x mod 2 ^ 8). intros y Hy.
          replace (N.lor 64512 y) with (64512 + y); [lia|]. change 64512 with (N.shiftl 252 8). symmetry. apply lor_low. exact Hy. }
        split; [exact L|]. split; [constructor; [unfold group_ok; lia|assumption]|exact B].
      + destruct G as [G1 G2]. split; [lia|]. split; [cbn [In]; lia|]. split; [rewrite lenN_takeN; lia|]. now apply LHmac.takeN_ok.
      + lia.
    - destruct a as [o|sg|b|b|sg|n b]; cbn [addr_v2_ok]; intros [OK X].
      + gdraw 0; [apply range_got; lia|]. gdraw o; [now apply any_got|now apply gret_got].
      + destruct OK as (L & F & A & B). gdraw 1; [apply range_got; lia|]. gdraw sg; [apply any_got; split; [exact L|exact F]|]. apply gret_got.
        destruct (Nlist_eqb (firstn 3 sg) ONION) eqn:E1; [apply NE in E1; contradiction|]. destruct (Nlist_eqb (firstn 6 sg) IPV4_EMBEDDED_IPV6) eqn:E2; [apply NE in E2; contradiction|reflexivity].
      + gdraw 2; [apply range_got; lia|]. gdraw b; [now apply any_got|now apply gret_got].
      + gdraw 3; [apply range_got; lia|]. gdraw b; [now apply any_got|now apply gret_got].
      + destruct OK as (L & F & A). gdraw 4; [apply range_got; lia|]. gdraw sg; [apply any_got; split; [exact L|exact F]|]. apply gret_got. destruct sg as [|x s]; [discriminate L|]. cbn [set_first hd] in *. f_equal. f_equal.
        change 255 with (N.ones 8). rewrite N.land_ones. change 64512 with (N.shiftl 252 8). rewrite lor_low by (apply N.mod_lt; discriminate). change (N.shiftl 252 8) with 64512. change (2 ^ 8) with 256. clear - A. pose proof (N.div_mod x 256 ltac:(lia)). assert (x / 256 = 252); [|lia]. symmetry. apply N.div_unique with (x - 64512); lia.
      + destruct OK as (L & I & LB & OB). gdraw 5; [apply range_got; lia|]. gdraw n; [apply range_got; cbn [In] in I; lia|]. gdraw b; [now apply bytes_got|]. apply gret_got. now rewrite takeN_all by lia. }
  split; [|split; [exact M|]].
  - unfold panic_free, arb_addr_v2. intro H. ginv; [|lia]. apply upto5 in G. destruct G as [->|[->|[->|[->|[->| ->]]]]]; cbv beta iota in K; ginv. lia.
  - intros a Ha. apply M in Ha as [OK _]. apply (codec_slice addr_v2_codec); [|split; [reflexivity|exact OK]]. now apply addr_bytes_ok.
Qed.
(** An inventory item of an unknown kind can be generated with a known number, and is then read back as something else. *)
Theorem C71_inventory : panic_free arb_inventory /\ forall i, arb_inventory (Got i) ->
  decode_from_slice inventory_dec (inventory_encode i) = Ret (Ok i) \/ exists t h, i = InvUnknown t h /\ In t [0; 1; 2; 4; 5; 2 ^ 30 + 1; 2 ^ 30 + 2].
Proof.
  split.
  - unfold panic_free, arb_inventory. intro H. ginv; [|lia]. apply upto7 in G. destruct G as [->|[->|[->|[->|[->|[->|[->| ->]]]]]]]; cbv beta iota in K; ginv.
  - intros i H.
    assert (A : inventory_ok i \/ exists t h, i = InvUnknown t h /\ In t [0; 1; 2; 4; 5; 2 ^ 30 + 1; 2 ^ 30 + 2]).
    { unfold arb_inventory in H. ginv. apply upto7 in G. destruct G as [->|[->|[->|[->|[->|[->|[->| ->]]]]]]]; cbv beta iota in K; ginv; subst i; try (left; exact G).
      destruct (in_dec N.eq_dec v [0; 1; 2; 4; 5; 2 ^ 30 + 1; 2 ^ 30 + 2]) as [I|I]; [right; eauto|]. left. split; [exact G|]. split; [exact I|]. assumption. }
    destruct A as [OK|A]; [left|right; exact A]. apply (codec_slice inventory_codec); [|split; [reflexivity|exact OK]]. destruct i; cbn [inventory_ok] in OK; unfold inventory_encode; apply bytes_ok_app; (split; [apply le_bytes_ok|]); apply OK.
Qed.
Theorem C71_inventory_refuted : exists i j, arb_inventory (Got i) /\ decode_from_slice inventory_dec (inventory_encode i) = Ret (Ok j) /\ i <> j.
Proof.
  exists (InvUnknown 1 (repeat 7 32)), (InvTx (repeat 7 32)). split; [|split; [|discriminate]].
  - unfold arb_inventory. gdraw 7; [apply range_got; lia|]. gdraw 1; [apply any_got; lia|]. gdraw (repeat 7 32); [apply any_got; split; [reflexivity|repeat constructor]|]. now apply gret_got.
  - apply C33_inventory_refuted. split; [reflexivity|repeat constructor].
Qed.
(** The generated command names are exactly the ASCII names of at most twelve characters. *)
Theorem C71_command : panic_free arb_command /\ makes arb_command (fun c => exists s, field s c).
Proof.
  assert (P : forall left acc, ~ arb_command_loop left acc Panicked).
  { induction left as [|n IH]; intros acc H; cbn [arb_command_loop] in H; ginv. cbv zeta in K. destruct (1 <=? v mod 128); ginv. now apply IH in K. }
  assert (G : forall left acc c, arb_command_loop left acc (Got c) <-> exists s k, c = acc ++ s ++ repeat 0 k /\ (length s + k = left)%nat /\ Forall (fun x => 0 < x < 128) s).
  { induction left as [|n IH]; intros acc c; cbn [arb_command_loop]; split.
    - intro H. ginv. subst c. exists [], O. cbn [app repeat]. rewrite app_nil_r. auto.
    - intros ([|x s] & [|k] & -> & L & F); try discriminate L. gdraw 0; [apply any_got; lia|]. cbn [app repeat]. rewrite app_nil_r. now apply gret_got.
    - intro H. ginv. cbv zeta in K. destruct (N.leb_spec 1 (v mod 128)) as [B|B].
      + apply IH in K as (s & k & -> & L & F). exists (v mod 128 :: s), k. rewrite <- app_assoc. split; [reflexivity|]. split; [cbn [length]; lia|]. constructor; [|exact F]. pose proof (N.mod_lt v 128 ltac:(lia)). lia.
      + ginv. subst c. exists [], (S n). split; [reflexivity|]. split; [reflexivity|constructor].
    - intros ([|x s] & k & -> & L & F).
      + gdraw 0; [apply any_got; lia|]. cbn [length plus] in L. subst k. cbv zeta. change (1 <=? 0 mod 128) with false. cbv iota. now apply gret_got.
      + inv F. gdraw x; [apply any_got; lia|]. cbv zeta. rewrite N.mod_small by lia. destruct (N.leb_spec 1 x); [|lia]. apply IH. exists s, k. rewrite <- app_assoc. split; [reflexivity|]. split; [cbn [length] in L; lia|assumption]. }
  split; [apply P|]. intros c. unfold arb_command. rewrite G. unfold field. split.
  - intros (s & k & -> & L & F). exists s. split; [exact F|]. exists k. split; [reflexivity|]. cbn [app]. unfold lenN. rewrite app_length, repeat_length. lia.
  - intros (s & F & k & -> & L). exists s, k. split; [reflexivity|]. split; [|exact F]. unfold lenN in L. rewrite app_length, repeat_length in L. lia.
Qed.
(** A generated partial Merkle tree has whole bytes of flags, so it survives being written and read. *)
Theorem C71_pmt : panic_free arb_pmt /\ forall p, arb_pmt (Got p) -> lenN (pm_bits p) mod 8 = 0 /\
  (lenN (pm_hashes p) <= 4000000 -> lenN (pm_bits p) <= 32000000 -> decode_from_slice pmt_dec (pmt_encode p) = Ret (Ok p)).
Proof.
  split; [unfold panic_free, arb_pmt; intro H; ginv|]. intros p H. unfold arb_pmt in H. apply gbind_got in H as (bits & _ & H). apply gbind_got in H as (n & Hn & H). apply gbind_got in H as (hs & Hh & H). rewrite gret_got in H. subst p. cbn [pm_bits pm_hashes].
  assert (P : forall f b, (8 - lenN b mod 8) mod 8 <= N.of_nat f -> lenN (pad_bits f b) mod 8 = 0).
  { induction f as [|f IH]; intros b L; cbn [pad_bits].
    - pose proof (N.mod_lt (lenN b) 8 ltac:(lia)) as M. revert L M. generalize (lenN b mod 8). intros m L M. destruct (N.eq_dec m 0); [assumption|]. rewrite N.mod_small in L by lia. lia.
    - destruct (N.eqb_spec (lenN b mod 8) 0) as [E|E]; [exact E|]. apply IH. rewrite lenN_app. change (lenN [false]) with 1. rewrite <- N.add_mod_idemp_l by lia. pose proof (N.mod_lt (lenN b) 8 ltac:(lia)) as M. revert L E M. generalize (lenN b mod 8). intros m L E M.
      rewrite N.mod_small in L by lia. destruct (N.eq_dec m 7) as [->|]; [change ((8 - (7 + 1) mod 8) mod 8) with 0; lia|]. rewrite (N.mod_small (m + 1)) by lia. rewrite N.mod_small by lia. lia. }
  assert (Q : lenN (pad_bits 7 bits) mod 8 = 0). { apply P. pose proof (N.mod_lt (8 - lenN bits mod 8) 8 ltac:(lia)). lia. }
  split; [exact Q|]. intros L1 L2. set (p := {| pm_num := n; pm_bits := pad_bits 7 bits; pm_hashes := hs |}).
  assert (OK : pmt_full p).
  { split; [|exact Q]. unfold pmt_ok, p. cbn [pm_num pm_bits pm_hashes]. unfold arb_u32 in Hn. rewrite any_got in Hn. rewrite vec_got in Hh. split; [exact Hn|]. split; [eapply Forall_impl; [|exact Hh]; intros h A; unfold arb_array in A; now rewrite any_got in A|]. split; [exact L1|].
    apply N.lt_succ_r, N.div_lt_upper_bound; lia. }
  apply (codec_slice pmt_codec); [|split; [reflexivity|exact OK]]. destruct OK as [(W1 & W2 & W3 & W4) _]. unfold pmt_encode.
  apply bytes_ok_app. split; [apply le_bytes_ok|]. apply bytes_ok_app. split.
  + unfold slice_encode. apply bytes_ok_app. split; [apply LCompact.cs_encode_ok|]. clear - W2. induction W2 as [|h l [_ Hh] _ IH]; [constructor|]. cbn [flat_map]. apply bytes_ok_app. auto.
  + apply bytes_ok_app. split; [apply LCompact.cs_encode_ok|apply pack_ok].
Qed.

(** Every inventory vector and every partial tree with a whole number of flag bytes can be made. *)
Ltac pick_case n h := gdraw n; [apply range_got; lia|]; cbv beta iota; apply gbind_got; exists h; split; [apply any_got; assumption|]; apply gret_got; reflexivity.
Theorem C71_inventory_all : forall i, inventory_ok i -> arb_inventory (Got i).
Proof.
  intros i H. unfold arb_inventory, arb_array. destruct i; cbn [inventory_ok] in H.
  1-7: match goal with |- gbind _ _ (Got (?c ?h)) => first [pick_case 0 h | pick_case 1 h | pick_case 2 h | pick_case 3 h | pick_case 4 h | pick_case 5 h | pick_case 6 h] end.
  destruct H as (A & _ & B). gdraw 7; [apply range_got; lia|]. eapply gbind_got. eexists. split; [apply any_got; exact A|]. eapply gbind_got. eexists. split; [apply any_got; exact B|now apply gret_got].
Qed.
Theorem C71_pmt_all : forall p, pm_num p < 2 ^ 32 -> Forall hash_ok (pm_hashes p) -> lenN (pm_bits p) mod 8 = 0 -> arb_pmt (Got p).
Proof.
  intros [n bits hs] A B C. cbn [pm_num pm_bits pm_hashes] in *. unfold arb_pmt. gdraw bits; [apply vec_got; apply Forall_forall; intros; now apply any_got|]. gdraw n; [now apply any_got|].
  gdraw hs; [apply vec_got; eapply Forall_impl; [|exact B]; intros h H; now apply any_got|]. apply gret_got. cbn [pad_bits]. now rewrite C.
Qed.

(** * User agents *)
Import MAgent SAgent PAgent.
(** A version that the generator draws is short enough for the subtraction. *)
Definition software_ok (s : software) : Prop :=
  match s with SemVer a b c => a < 2 ^ 16 /\ b < 2 ^ 16 /\ c < 2 ^ 16 | Date y m d => y < 2 ^ 16 /\ m < 2 ^ 8 /\ d < 2 ^ 8 end.
Definition characters : str -> Prop := Forall (fun c => c < 0x110000 /\ ~ 0xD800 <= c <= 0xDFFF).
Lemma software_got : makes arb_software software_ok.
Proof.
  intros s. unfold arb_software, arb_bool. split.
  - intro H. apply gbind_got in H as (b & _ & H). destruct b; ginv; subst s; cbn [software_ok]; auto.
  - destruct s as [a b c|y m d]; cbn [software_ok]; intros (A & B & C).
    + gdraw false; [now apply any_got|]. gdraw a; [now apply any_got|]. gdraw b; [now apply any_got|]. gdraw c; [now apply any_got|]. now apply gret_got.
    + gdraw true; [now apply any_got|]. gdraw y; [now apply any_got|]. gdraw m; [now apply any_got|]. gdraw d; [now apply any_got|]. now apply gret_got.
Qed.
Lemma version_short : forall s, software_ok s -> lenN (version_text s) <= 17.
Proof.
  assert (A : forall n, n < 2 ^ 16 -> lenN (fmt_u n) <= 5) by (intros n H; apply LText.fmt_u_len; [|lia]; change (10 ^ 5) with 100000; lia).
  assert (B : forall n, n < 2 ^ 8 -> lenN (two_digits n) <= 4).
  { intros n H. assert (lenN (fmt_u n) <= 3) by (apply LText.fmt_u_len; [|lia]; change (10 ^ 3) with 1000; lia). unfold two_digits. destruct (n <? 10); [|lia]. rewrite lenN_app. change (lenN (lit "0")) with 1. lia. }
  intros [a b c|y m d]; cbn [software_ok version_text joined]; intros (H1 & H2 & H3); rewrite !lenN_app.
  - change (lenN (lit ".")) with 1. apply A in H1, H2, H3. lia.
  - apply A in H1. apply B in H2, H3. lia.
Qed.
Lemma truncate_keeps : forall s n, lenN (as_bytes s) <= n -> string_truncate n s = Ret s.
Proof.
  induction s as [|c s IH]; intros n H; [reflexivity|]. unfold as_bytes in *. cbn [flat_map] in H. rewrite lenN_app in H. cbn [string_truncate].
  assert (0 < lenN (char_utf8 c)). { unfold char_utf8. destruct (c <? 128); [reflexivity|]. destruct (c <? 2048); [reflexivity|]. destruct (c <? 65536); reflexivity. }
  destruct (N.eqb_spec n 0); [lia|]. destruct (N.leb_spec (lenN (char_utf8 c)) n); [|lia]. rewrite IH by lia. reflexivity.
Qed.
Lemma truncate_prefix : forall s n r, string_truncate n s = Ret r -> exists t, s = r ++ t /\ lenN (as_bytes r) <= n.
Proof.
  induction s as [|c s IH]; intros n r H; cbn [string_truncate] in H.
  - injection H as <-. exists []. split; [reflexivity|]. cbn. lia.
  - destruct (n =? 0); [injection H as <-; exists (c :: s); split; [reflexivity|cbn; lia]|]. destruct (N.leb_spec (lenN (char_utf8 c)) n) as [L|L]; [|discriminate].
    destruct (string_truncate (n - lenN (char_utf8 c)) s) as [r'|] eqn:E; [|discriminate]. injection H as <-. apply IH in E as (t & -> & B). exists t. split; [reflexivity|]. unfold as_bytes in *. cbn [flat_map]. rewrite lenN_app. lia.
Qed.
Lemma truncate_panic : forall s n, string_truncate n s = Panic <->
  exists p c t, s = p ++ c :: t /\ lenN (as_bytes p) < n < lenN (as_bytes (p ++ [c])).
Proof.
  assert (Z : forall c, 0 < lenN (char_utf8 c)). { intro c. unfold char_utf8. destruct (c <? 128); [reflexivity|]. destruct (c <? 2048); [reflexivity|]. destruct (c <? 65536); reflexivity. }
  unfold as_bytes. induction s as [|c s IH]; intros n; cbn [string_truncate].
  - split; [discriminate|]. intros ([|] & ? & ? & Q & _); discriminate Q.
  - destruct (N.eqb_spec n 0) as [->|N0]; [split; [discriminate|intros (? & ? & ? & _ & ?); lia]|]. destruct (N.leb_spec (lenN (char_utf8 c)) n) as [L|L].
    + assert (E : rbind (string_truncate (n - lenN (char_utf8 c)) s) (fun r => Ret (c :: r)) = Panic <-> string_truncate (n - lenN (char_utf8 c)) s = Panic) by (destruct (string_truncate _ s); cbn [rbind]; split; congruence).
      rewrite E, IH. split.
      * intros (p & d & t & -> & B). exists (c :: p), d, t. split; [reflexivity|]. rewrite !flat_map_app in *. cbn [flat_map app] in *. rewrite !lenN_app in *. lia.
      * intros ([|x p] & d & t & Q & B); cbn [app] in Q; injection Q as -> ->.
        -- cbn [flat_map app] in B. rewrite app_nil_r in B. lia.
        -- exists p, d, t. split; [reflexivity|]. rewrite !flat_map_app in *. cbn [flat_map app] in *. rewrite !lenN_app in *. lia.
    + split; [|reflexivity]. intros _. exists [], c, s. split; [reflexivity|]. cbn [flat_map app]. rewrite app_nil_r. change (lenN (@nil N)) with 0. lia.
Qed.
Lemma clean_filter : forall s, clean (filter (fun c => negb (invalid_char c)) s).
Proof. intro s. apply invalid_spec. induction s as [|c s IH]; [reflexivity|]. cbn [filter]. destruct (invalid_char c) eqn:E; cbn [negb]; [exact IH|]. cbn [existsb]. now rewrite E. Qed.
Lemma filter_clean : forall s, clean s -> filter (fun c => negb (invalid_char c)) s = s.
Proof.
  intros s H. apply invalid_spec in H. induction s as [|c s IH]; [reflexivity|]. cbn [existsb] in H. apply Bool.orb_false_iff in H as [E F]. cbn [filter]. rewrite E. cbn [negb]. now rewrite IH.
Qed.
Lemma bytes_ge_chars : forall s, lenN s <= lenN (as_bytes s).
Proof.
  induction s as [|c s IH]; [reflexivity|]. unfold as_bytes in *. cbn [flat_map]. rewrite lenN_cons, lenN_app. assert (0 < lenN (char_utf8 c)); [|lia].
  unfold char_utf8. destruct (c <? 128); [reflexivity|]. destruct (c <? 2048); [reflexivity|]. destruct (c <? 65536); reflexivity.
Qed.
Lemma agent_from : forall sw text, software_ok sw -> user_agent_from (av_new sw) text =
  rbind (string_truncate (253 - lenN (version_text sw)) (filter (fun c => negb (invalid_char c)) text)) (fun name => Ret (agent_text [mk_client name sw []])).
Proof.
  intros sw text OK. pose proof (version_short sw OK) as V. unfold user_agent_from, MAX_USER_AGENT_LEN. assert (D : av_display (av_new sw) = version_text sw) by (unfold av_display, av_new; cbn [av_software av_comments]; now rewrite app_nil_r, software_text).
  rewrite D. destruct (N.leb_spec (3 + lenN (version_text sw)) 256); [|lia]. replace (256 - (3 + lenN (version_text sw))) with (253 - lenN (version_text sw)) by lia.
  destruct (string_truncate _ _) as [name|] eqn:E; [|reflexivity]. cbn [rbind]. apply truncate_prefix in E as (t & E & B).
  assert (C : clean name). { pose proof (clean_filter text) as C. rewrite E in C. unfold clean in *. now apply Forall_app in C as [C _]. }
  unfold ua_new. rewrite clean_check by exact C. cbn [rbind]. rewrite D. unfold panic_max_len, MAX_USER_AGENT_LEN.
  replace (agent_text [mk_client name sw []]) with ([47] ++ name ++ [58] ++ version_text sw ++ [47]).
  - cbv zeta. destruct (N.leb_spec (lenN ([47] ++ name ++ [58] ++ version_text sw ++ [47])) 256) as [L|L]; [reflexivity|]. rewrite !lenN_app in L. change (lenN [47]) with 1 in L. change (lenN [58]) with 1 in L. pose proof (bytes_ge_chars name). lia.
  - unfold agent_text. cbn [map concat]. unfold client_text. cbn [c_name c_software c_comments]. now rewrite app_nil_r.
Qed.
(** The agents made are exactly the BIP14 texts of one client with no comments, whose name has a size in bytes such that the
    whole text would fit if it were counted in bytes. *)
Theorem C71_user_agent : makes arb_user_agent (fun a => exists name sw, characters name /\ clean name /\ software_ok sw /\
  lenN (as_bytes name) + 3 + lenN (version_text sw) <= 256 /\ a = agent_text [mk_client name sw []]).
Proof.
  intros a. unfold arb_user_agent, arb_agent_version, arb_string. split.
  - intro H. apply gbind_got in H as (v & Hv & H). apply gbind_got in Hv as (sw & Hs & Hv). rewrite gret_got in Hv. subst v. apply software_got in Hs. apply gbind_got in H as (text & Ht & H). rewrite any_got in Ht. rewrite lift_got in H.
    rewrite agent_from in H by exact Hs. destruct (string_truncate _ _) as [name|] eqn:E; [|discriminate]. cbn [rbind] in H. injection H as <-. apply truncate_prefix in E as (t & E & B).
    exists name, sw. pose proof (version_short sw Hs). split; [|split; [|split; [exact Hs|split; [lia|reflexivity]]]].
    + unfold characters. assert (F : Forall (fun c => c < 0x110000 /\ ~ 0xD800 <= c <= 0xDFFF) (filter (fun c => negb (invalid_char c)) text)).
      { rewrite Forall_forall in *. intros c I. apply filter_In in I as [I _]. now apply Ht. }
      rewrite E in F. now apply Forall_app in F as [F _].
    + pose proof (clean_filter text) as C. rewrite E in C. unfold clean in *. now apply Forall_app in C as [C _].
  - intros (name & sw & A & B & C & D & ->). gdraw (av_new sw); [gdraw sw; [now apply software_got|now apply gret_got]|]. gdraw name; [now apply any_got|]. apply lift_got. rewrite agent_from, filter_clean, truncate_keeps by (assumption || lia). reflexivity.
Qed.
(** It panics exactly when the name is cut inside a character, so never for ASCII text. *)
Theorem C71_user_agent_panic : forall sw text, software_ok sw ->
  let name := filter (fun c => negb (invalid_char c)) text in
  (user_agent_from (av_new sw) text = Panic <->
   exists p c t, name = p ++ c :: t /\ lenN (as_bytes p) < 253 - lenN (version_text sw) < lenN (as_bytes (p ++ [c]))) /\
  (Forall (fun c => c < 128) text -> user_agent_from (av_new sw) text <> Panic).
Proof.
  intros sw text OK name.
  assert (K : user_agent_from (av_new sw) text = Panic <-> exists p c t, name = p ++ c :: t /\ lenN (as_bytes p) < 253 - lenN (version_text sw) < lenN (as_bytes (p ++ [c]))).
  { rewrite agent_from by exact OK. fold name. rewrite <- truncate_panic. destruct (string_truncate _ name); cbn [rbind]; split; congruence. }
  split; [exact K|]. intros F P. apply K in P as (p & c & t & E & B). assert (C : c < 128).
  { rewrite Forall_forall in F. apply F. assert (I : In c name) by (rewrite E; apply in_elt). now apply filter_In in I as [I _]. }
  unfold as_bytes in B. rewrite flat_map_app, lenN_app in B. cbn [flat_map] in B. unfold char_utf8 in B at 3. destruct (N.ltb_spec c 128); [|lia]. change (lenN ([c] ++ [])) with 1 in B. lia.
Qed.
(** So a generated agent is not always made: a long enough name of accented letters panics. *)
Theorem C71_user_agent_refuted : arb_user_agent Panicked /\
  user_agent_from (av_new (SemVer 1 0 10)) (repeat 233 200) = Panic.
Proof.
  assert (E : user_agent_from (av_new (SemVer 1 0 10)) (repeat 233 200) = Panic) by (vm_compute; reflexivity).
  split; [|exact E]. unfold arb_user_agent. apply gbind_panic. left. exists (av_new (SemVer 1 0 10)). split.
  - unfold arb_agent_version. gdraw (SemVer 1 0 10); [apply software_got; cbn; lia|now apply gret_got].
  - apply gbind_panic. left. exists (repeat 233 200). split; [|apply lift_panic; exact E]. apply any_got. apply Forall_forall. intros c I. apply repeat_spec in I. lia.
Qed.

(** * Examples *)
Example C71_ex_agent : arb_user_agent (Got (lit "/btcd:0.24.2/")).
Proof.
  apply C71_user_agent. exists (lit "btcd"), (SemVer 0 24 2). split; [|split; [|split; [|split]]].
  - repeat constructor; cbn; lia.
  - repeat constructor; cbn; intuition lia.
  - cbn. lia.
  - vm_compute. discriminate.
  - reflexivity.
Qed.
Example C71_ex_cut : user_agent_from (av_new (SemVer 1 0 0)) (lit "a/b:c") = Ret (lit "/abc:1.0.0/") /\ software_ok (SemVer 1 0 0) /\
  user_agent_from (av_new (SemVer 1 0 0)) (repeat 233 200) = Ret (agent_text [mk_client (repeat 233 124) (SemVer 1 0 0) []]).
Proof. split; [reflexivity|]. split; [cbn; lia|]. vm_compute. reflexivity. Qed.
Example C71_ex_values : arb_amount (Got 2100000000000000%Z) /\ arb_addr_v2 (Got (Cjdns [64513; 0; 0; 0; 0; 0; 0; 1])) /\ arb_command (Got (lit "inv" ++ repeat 0 9)).
Proof.
  split; [apply (proj2 C71_amount); lia|]. split.
  - apply (proj1 (proj2 C71_addr_v2)). split; [|exact I]. cbn. repeat split; try lia. repeat constructor; reflexivity.
  - apply (proj2 C71_command). exists (lit "inv"). split; [repeat constructor|]. exists 9%nat. split; reflexivity.
Qed.

Print Assumptions C71_amount.
Print Assumptions C71_signed_amount.
Print Assumptions C71_lock_times.
Print Assumptions C71_sequence.
Print Assumptions C71_block_number.
Print Assumptions C71_block_number_refuted.
Print Assumptions C71_fee_filter.
Print Assumptions C71_transaction.
Print Assumptions C71_transaction_all.
Print Assumptions C71_transaction_panic.
Print Assumptions C71_ecdsa_signature.
Print Assumptions C71_sighash_types.
Print Assumptions C71_xpriv.
Print Assumptions C71_xpub.
Print Assumptions C71_xpub_refuted.
Print Assumptions C71_leaf_version.
Print Assumptions C71_tap_tree_refuted.
Print Assumptions C71_tap_nodes.
Print Assumptions C71_branch.
Print Assumptions C71_prediction_refuted.
Print Assumptions C71_prediction.
Print Assumptions C71_addr_v2.
Print Assumptions C71_inventory.
Print Assumptions C71_inventory_refuted.
Print Assumptions C71_command.
Print Assumptions C71_pmt.
Print Assumptions C71_user_agent.
Print Assumptions C71_user_agent_panic.
Print Assumptions C71_user_agent_refuted.
Print Assumptions C71_inventory_all.
Print Assumptions C71_pmt_all.
