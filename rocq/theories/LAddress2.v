(** Lemmas about the texts of segwit addresses and about parsing. *)
From Coq Require Import String.
From Verif Require Import Base MDec LDec MWitness MText LText LPoly MP2p LP2p2 MBip32 MBase58 SBase58 LBase58 SBip158 LBip158 SBech32 MBech32 LBech32 LBech32b LBech32c MScript SScript LScript MPow MAddress SAddress LAmountText LWire LAddress.
Local Open Scope N_scope.

Lemma from_hrp_spec : forall h k, from_hrp h = Ok k <-> lower h = prefix_text k.
Proof.
  intros h k. unfold from_hrp. rewrite <- lower_map. destruct (str_eqb (lower h) (lit "bc")) eqn:A; [apply str_eqb_eq in A|].
  - rewrite A. destruct k; split; intro H; try reflexivity; discriminate.
  - destruct (str_eqb (lower h) (lit "tb")) eqn:B; [apply str_eqb_eq in B|].
    + rewrite B. destruct k; split; intro H; try reflexivity; discriminate.
    + destruct (str_eqb (lower h) (lit "bcrt")) eqn:C; [apply str_eqb_eq in C|].
      * rewrite C. destruct k; split; intro H; try reflexivity; discriminate.
      * split; [discriminate|]. intro H. destruct k; cbn [prefix_text] in H; rewrite H in *; discriminate.
Qed.
Lemma from_hrp_err : forall h e, from_hrp h = Err e -> e = h /\ forall k, lower h <> prefix_text k.
Proof.
  intros h e H. split.
  - unfold from_hrp in H. destruct (str_eqb _ _); [discriminate|]. destruct (str_eqb _ _); [discriminate|]. destruct (str_eqb _ _); [discriminate|]. congruence.
  - intros k E. apply from_hrp_spec in E. congruence.
Qed.
Lemma prefix_ok : forall k, hrp_ok (prefix_text k) /\ hrp_ok (upper (prefix_text k)) /\ lower (prefix_text k) = prefix_text k /\ lower (upper (prefix_text k)) = prefix_text k /\ lenN (prefix_text k) <= 4 /\ Forall (fun c => c < 128) (prefix_text k).
Proof.
  assert (R : forall s : str, (lenN s <=? 83) && (1 <=? lenN s) && forallb (fun c => (33 <=? c) && (c <=? 126)) s = true -> hrp_ok s).
  { intros s H. apply andb_true_iff in H. destruct H as [H F]. split; [lia|]. rewrite forallb_forall in F. apply Forall_forall. intros c I. specialize (F c I). lia. }
  intro k. split; [apply R; destruct k; reflexivity|]. split; [apply R; destruct k; reflexivity|]. split; [destruct k; reflexivity|]. split; [destruct k; reflexivity|]. split; [destruct k; vm_compute; discriminate|].
  destruct k; repeat constructor.
Qed.
Lemma flat_bits_len : forall w l, length (flat_map (bits_of w) l) = (w * length l)%nat.
Proof. intros w l. induction l as [|x l IH]; cbn [flat_map length]; [lia|]. rewrite app_length, IH, bits_len. lia. Qed.
Lemma text_len : forall hrp v p s, segwit_text hrp v p s -> 5 * (lenN s - lenN hrp - 8) <= 8 * lenN p + 4 /\ lenN hrp + 8 <= lenN s.
Proof.
  intros hrp v p s (g & c & ch & _ & [_ (pad & P & E)] & L6 & _ & _ & F & ->). apply forall2_len in F. apply (f_equal (@length bool)) in E. rewrite app_length, repeat_length, !flat_bits_len in E.
  unfold lenN in *. rewrite !app_length. cbn [length] in F. rewrite app_length in F. change (length (lit "1")) with 1%nat. lia.
Qed.
Lemma text_90 : forall k v p s, program_valid v p -> segwit_text (prefix_text k) v p s -> lenN s <= 76.
Proof. intros k v p s [[_ L] _] T. apply text_len in T. destruct (prefix_ok k) as (_ & _ & _ & _ & L4 & _). lia. Qed.
Lemma upper_len : forall s, lenN (upper s) = lenN s.
Proof. intro s. unfold lenN, upper. now rewrite map_length. Qed.
Lemma wp_new_ok : forall v p, program_valid v p -> wp_new v p = Ok {| wp_version := v; wp_program := p |}.
Proof.
  intros v p [[_ L] V0]. unfold wp_new. replace ((lenN p <? 2) || (40 <? lenN p)) with false by lia. destruct (N.eqb_spec v 0) as [E|]; [|reflexivity]. destruct (V0 E) as [-> | ->]; reflexivity.
Qed.
Lemma from_bech32_spec : forall s, from_bech32_str s <> Panic /\ forall a, from_bech32_str s = Ret (Ok a) <-> address_ok a /\ is_segwit a /\ exists t, address_text (fun b => b) a t /\ (s = t \/ s = upper t).
Proof.
  intro s. unfold from_bech32_str. destruct (segwit_decode s) as [[[hrp v] p]|] eqn:D.
  - apply decode_spec in D. destruct D as (OK & PV & L90 & HO & t & T & X). replace (16 <? v) with false by (destruct PV as [[V _] _]; lia). rewrite (wp_new_ok v p PV). split; [destruct (from_hrp hrp); discriminate|].
    intro a. split.
    + destruct (from_hrp hrp) as [k|e] eqn:H; [|discriminate]. apply from_hrp_spec in H. intro E. injection E as <-. cbn [address_ok is_segwit address_text wp_version wp_program]. split; [auto|]. split; [exact I|]. exists t. rewrite <- H. split; [exact T|]. destruct X as [[-> _]|[-> _]]; auto.
    + destruct a as [h n|h n|w k]; intros (OK2 & SG & t' & T' & X'); [destruct SG|destruct SG|]. cbn [address_ok address_text] in *. destruct OK2 as [OK2 PV2].
      assert (D2 : segwit_decode s = Some (if existsb is_lower s then prefix_text k else upper (prefix_text k), wp_version w, wp_program w) \/ segwit_decode s = Some (prefix_text k, wp_version w, wp_program w) \/ segwit_decode s = Some (upper (prefix_text k), wp_version w, wp_program w)).
      { right. destruct (prefix_ok k) as (H1 & H2 & H3 & H4 & _). pose proof (text_90 k _ _ t' PV2 T') as L. destruct X' as [-> | ->]; [left|right]; apply decode_spec.
        - split; [exact OK2|]. split; [exact PV2|]. split; [lia|]. split; [exact H1|]. exists t'. rewrite H3. auto.
        - split; [exact OK2|]. split; [exact PV2|]. split; [rewrite upper_len; lia|]. split; [exact H2|]. exists t'. rewrite H4. auto. }
      assert (D1 : segwit_decode s = Some (hrp, v, p)) by (apply decode_spec; split; [exact OK|]; split; [exact PV|]; split; [exact L90|]; split; [exact HO|]; exists t; auto).
      assert (E3 : v = wp_version w /\ p = wp_program w /\ lower hrp = prefix_text k).
      { destruct (prefix_ok k) as (_ & _ & H3 & H4 & _). rewrite D1 in D2. destruct D2 as [D2|[D2|D2]]; injection D2; intros -> -> ->; repeat split; auto. destruct (existsb is_lower s); auto. }
      destruct E3 as (-> & -> & HK). apply from_hrp_spec in HK. rewrite HK. destruct w; reflexivity.
  - split; [discriminate|]. intro a. split; [discriminate|]. destruct a as [h n|h n|w k]; intros (OK2 & SG & t' & T' & X'); [destruct SG|destruct SG|]. cbn [address_ok address_text] in *. destruct OK2 as [OK2 PV2]. exfalso.
    destruct (prefix_ok k) as (H1 & H2 & H3 & H4 & _). pose proof (text_90 k _ _ t' PV2 T') as L.
    assert (Y : exists h, segwit_decode s = Some (h, wp_version w, wp_program w)).
    { destruct X' as [-> | ->]; [exists (prefix_text k)|exists (upper (prefix_text k))]; apply decode_spec.
      - split; [exact OK2|]. split; [exact PV2|]. split; [lia|]. split; [exact H1|]. exists t'. rewrite H3. auto.
      - split; [exact OK2|]. split; [exact PV2|]. split; [rewrite upper_len; lia|]. split; [exact H2|]. exists t'. rewrite H4. auto. }
    destruct Y as [h Y]. congruence.
Qed.
(** the choice made by the first characters *)
Lemma strip_prefix_spec : forall p s, starts_with p s = true <-> exists t, s = p ++ t.
Proof.
  intros p s. unfold starts_with. revert s. induction p as [|c p IH]; intro s.
  - split; [exists s; reflexivity|reflexivity].
  - destruct s as [|x s]; cbn [strip_prefix].
    + split; [discriminate|intros [t E]; discriminate].
    + destruct (N.eqb_spec c x) as [->|NE]; [|destruct (N.eqb_spec x c) as [->|]; try congruence].
      * rewrite ?N.eqb_refl. rewrite (IH s). split; intros [t E]; exists t; [now rewrite E|]. cbn [app] in E. congruence.
      * split; [discriminate|]. intros [t E]. cbn [app] in E. congruence.
Qed.
Lemma segwit_branch : forall k v p t s, segwit_text (prefix_text k) v p t -> s = t \/ s = upper t ->
  existsb (fun p => starts_with p (map to_lower s)) [lit "bc1"; lit "bcrt1"; lit "tb1"] = true.
Proof.
  intros k v p t s (g & c & ch & _ & _ & _ & _ & _ & _ & E) X.
  assert (exists r, map to_lower s = prefix_text k ++ lit "1" ++ r) as [r R].
  { assert (LM : forall x : str, map to_lower (map to_upper x) = map to_lower x) by (intro x; rewrite map_map; apply map_ext; apply lower_upper_lower).
    destruct X as [-> | ->]; [|rewrite upper_map, LM]; rewrite E, !map_app; exists (map to_lower ch); destruct k; reflexivity. }
  apply existsb_exists. exists (prefix_text k ++ lit "1"). split; [destruct k; cbn; auto|]. apply strip_prefix_spec. exists r. rewrite R, <- app_assoc. reflexivity.
Qed.
Lemma legacy_branch : forall sha v h s, (forall m, SWire.hash_ok (sha m)) -> lenN h = 20 -> check_text sha v h s -> In v [0; 5; 111; 196] ->
  existsb (fun p => starts_with p (map to_lower s)) [lit "bc1"; lit "bcrt1"; lit "tb1"] = false /\
  existsb (fun p => starts_with p s) [lit "1"; lit "2"; lit "3"; lit "m"; lit "n"] = true.
Proof.
  intros sha v h s SHA L B I. destruct (check_first sha SHA v h s L B) as (A0 & A5 & A111 & A196).
  assert (exists c t, s = c :: t /\ In c [49; 50; 51; 109; 110]) as (c & t & -> & IC).
  { destruct I as [<-|[<-|[<-|[<-|[]]]]].
    - destruct (A0 eq_refl) as [t ->]. exists 49, t. cbn; auto.
    - destruct (A5 eq_refl) as [_ [t ->]]. exists 51, t. cbn; auto.
    - destruct (A111 eq_refl) as [_ [t [-> | ->]]]; [exists 109, t|exists 110, t]; cbn; auto 8.
    - destruct (A196 eq_refl) as [_ [t ->]]. exists 50, t. cbn; auto. }
  destruct IC as [<-|[<-|[<-|[<-|[<-|[]]]]]]; split; reflexivity.
Qed.
(** ** Typing errors *)
Lemma text_lower : forall k v p t, segwit_text (prefix_text k) v p t -> lower t = t.
Proof.
  intros k v p t T. apply text_chars in T. destruct T as (cs & -> & F). rewrite lower_map. apply lower_id. rewrite existsb_app. replace (existsb is_upper (prefix_text k)) with false by (destruct k; reflexivity). cbn [orb existsb].
  change (is_upper 49) with false. cbn [orb]. induction F as [|c cs [x X] F IH]; [reflexivity|]. cbn [existsb]. apply symbol_facts in X. destruct X as (_ & _ & -> & _). exact IH.
Qed.
Lemma lower_text : forall k v p t s, segwit_text (prefix_text k) v p t -> s = t \/ s = upper t -> lower s = t.
Proof.
  intros k v p t s T [-> | ->]; [apply (text_lower k v p t T)|]. rewrite lower_map, upper_map, map_map. rewrite <- (text_lower k v p t T) at 2. rewrite lower_map. apply map_ext. apply lower_upper_lower.
Qed.
Lemma differences_app : forall p s t, differences (p ++ s) (p ++ t) = differences s t.
Proof. intros p s t. induction p as [|c p IH]; [reflexivity|]. cbn [app differences]. rewrite N.eqb_refl. exact IH. Qed.
Lemma differences_symbols : forall cs ds l m, Forall2 symbol cs l -> Forall2 symbol ds m -> length cs = length ds -> differences cs ds = N.of_nat (nonzero (xors l m)).
Proof.
  intros cs ds l m F. revert ds m. induction F as [|c x cs l C F IH]; intros ds m G E.
  - destruct ds; [|discriminate]. inversion G; subst. reflexivity.
  - destruct ds as [|d ds]; [discriminate|]. inversion G as [|? y ? m' D G']; subst. cbn [differences xors]. rewrite (IH ds m' G') by (cbn in E; lia). unfold nonzero. cbn [filter].
    destruct (N.eqb_spec c d) as [->|NE].
    + rewrite (symbol_fun d x y C D), N.lxor_nilpotent. cbn [N.eqb negb]. lia.
    + destruct (N.eqb_spec (N.lxor x y) 0) as [Z|Z]; cbn [negb length]; [|lia]. apply N.lxor_eq in Z. subst y. exfalso. apply NE. destruct (symbol_char c x C) as [-> _], (symbol_char d x D) as [-> _]. reflexivity.
Qed.
Lemma residue_same : forall v w, (v = 0 <-> w = 0) -> residue v = residue w.
Proof. intros v w E. unfold residue. destruct (N.eqb_spec v 0), (N.eqb_spec w 0); tauto. Qed.
Lemma text_three : forall k v p w q s t, bytes_ok p -> bytes_ok q -> program_valid v p -> segwit_text (prefix_text k) v p s -> segwit_text (prefix_text k) w q t -> (v = 0 <-> w = 0) ->
  lenN s = lenN t -> differences s t <= 3 -> v = w /\ p = q.
Proof.
  intros k v p w q s t OP OQ PV S T Z L D. pose proof (text_90 k v p s PV S) as L76.
  enough (s = t) as <- by (destruct (text_inj _ _ _ _ _ _ _ OP OQ S T) as (_ & A & B); auto).
  destruct S as (g & c & ch & V1 & G1 & L1 & C1 & P1 & F1 & ->), T as (g' & c' & ch' & V2 & G2 & L2 & C2 & P2 & F2 & ->).
  rewrite !differences_app in D. rewrite !lenN_app in L. rewrite lenN_app in L76. f_equal. f_equal. assert (LC : length ch = length ch') by (unfold lenN in L; lia).
  rewrite (differences_symbols ch ch' _ _ F1 F2 LC) in D. apply symbols_unmap in F1 as U1. apply symbols_unmap in F2 as U2. destruct U1 as [-> S1], U2 as [-> S2]. rewrite !map_length in LC. f_equal.
  apply (polymod_three (expand (prefix_text k))); [apply expand_small, prefix_ok|exact S1|exact S2|exact LC| |lia|].
  - rewrite lenN_app in L76. unfold lenN in L76 at 3. rewrite map_length in L76. unfold SPAN. lia.
  - rewrite P1, P2. apply residue_same, Z.
Qed.
Lemma text_burst : forall k v p w q pre x y post, bytes_ok p -> bytes_ok q -> segwit_text (prefix_text k) v p (prefix_text k ++ lit "1" ++ pre ++ x ++ post) -> segwit_text (prefix_text k) w q (prefix_text k ++ lit "1" ++ pre ++ y ++ post) ->
  (v = 0 <-> w = 0) -> lenN x = lenN y -> lenN x <= 6 -> v = w /\ p = q.
Proof.
  intros k v p w q pre x y post OP OQ S T Z L D.
  enough (x = y) as <- by (destruct (text_inj _ _ _ _ _ _ _ OP OQ S T) as (_ & A & B); auto).
  destruct S as (g & c & ch & V1 & G1 & L1 & C1 & P1 & F1 & E1), T as (g' & c' & ch' & V2 & G2 & L2 & C2 & P2 & F2 & E2).
  apply app_inv_head, app_inv_head in E1, E2. subst ch ch'. 
  apply forall2_app_inv in F1. destruct F1 as (a1 & b1 & EQ1 & A1 & B1). apply forall2_app_inv in B1. destruct B1 as (b1' & c1 & -> & B1 & D1).
  apply forall2_app_inv in F2. destruct F2 as (a2 & b2 & EQ2 & A2 & B2). apply forall2_app_inv in B2. destruct B2 as (b2' & c2 & -> & B2 & D2).
  rewrite EQ1 in P1. rewrite EQ2 in P2. rewrite (symbols_fun _ _ _ A2 A1) in P2. rewrite (symbols_fun _ _ _ D2 D1) in P2. rewrite (residue_same w v) in P2 by tauto.
  apply symbols_unmap in A1, B1, B2, D1. destruct A1 as [_ A1], D1 as [_ D1], B1 as [-> B1], B2 as [-> B2]. unfold lenN in L, D. rewrite !map_length in *. f_equal.
  apply (polymod_detects (expand (prefix_text k) ++ a1) b1' b2' c1); auto; [|lia|lia|].
  - apply Forall_app. split; [apply expand_small, prefix_ok|exact A1].
  - rewrite <- !app_assoc. rewrite P1, P2. reflexivity.
Qed.
Section Parse.
  Variable sha : bytes -> bytes.
  Hypothesis SHA : forall m, SWire.hash_ok (sha m).
  Lemma from_str_spec : forall s, from_str sha s <> Panic /\
    forall a, from_str sha s = Ret (Ok a) <-> address_ok a /\ exists t, address_text sha a t /\ (s = t \/ (is_segwit a /\ s = upper t)).
  Proof.
    intro s. destruct (from_base58_spec sha SHA s) as [NB B58]. destruct (from_bech32_spec s) as [N32 B32].
    assert (SEG : forall a, is_segwit a -> (from_bech32_str s = Ret (Ok a) <-> address_ok a /\ exists t, address_text sha a t /\ (s = t \/ (is_segwit a /\ s = upper t)))).
    { intros a SG. rewrite B32. destruct a; [destruct SG|destruct SG|]. cbn [address_text]. split.
      - intros (OK & _ & t & T & X). split; [exact OK|]. exists t. split; [exact T|]. destruct X; auto.
      - intros (OK & t & T & X). split; [exact OK|]. split; [exact I|]. exists t. split; [exact T|]. destruct X as [|[_ X]]; auto. }
    assert (LEG : forall a, ~ is_segwit a -> (from_base58_str sha s = Ret (Ok a) <-> address_ok a /\ exists t, address_text sha a t /\ (s = t \/ (is_segwit a /\ s = upper t)))).
    { intros a SG. rewrite B58. split.
      - intros (OK & _ & T). split; [exact OK|]. exists s. auto.
      - intros (OK & t & T & [-> | [X _]]); [auto|contradiction]. }
    assert (BR1 : forall a, is_segwit a -> address_ok a -> (exists t, address_text sha a t /\ (s = t \/ (is_segwit a /\ s = upper t))) -> existsb (fun p => starts_with p (map to_lower s)) [lit "bc1"; lit "bcrt1"; lit "tb1"] = true).
    { intros a SG OK (t & T & X). destruct a as [| |w k]; [destruct SG|destruct SG|]. cbn [address_text] in T. apply (segwit_branch k _ _ t s T). destruct X as [|[_ X]]; auto. }
    assert (BR2 : forall a, ~ is_segwit a -> address_ok a -> (exists t, address_text sha a t /\ (s = t \/ (is_segwit a /\ s = upper t))) -> existsb (fun p => starts_with p (map to_lower s)) [lit "bc1"; lit "bcrt1"; lit "tb1"] = false /\
        existsb (fun p => starts_with p s) [lit "1"; lit "2"; lit "3"; lit "m"; lit "n"] = true).
    { intros a SG OK (t & T & [-> |[X _]]); [|contradiction]. apply legacy_text_iff in T; [|exact SG]. apply (legacy_branch sha (version_of a) (payload a) t SHA); [destruct a; [apply OK|apply OK|destruct SG; exact I]|exact T|].
      destruct a as [h []|h []|w k]; cbn; auto 6; destruct SG; exact I. }
    assert (DECS : forall a, is_segwit a \/ ~ is_segwit a) by (intros [| |]; cbn; tauto).
    unfold from_str. destruct (existsb _ _) eqn:B1.
    - split; [destruct (from_bech32_str s) as [[|]|]; cbn [rbind]; try discriminate; congruence|]. intro a. split.
      + destruct (from_bech32_str s) as [[a'|e]|] eqn:F; cbn [rbind]; [|discriminate|discriminate]. intro H. injection H as ->. apply SEG; [|reflexivity]. pose proof (proj1 (B32 a) eq_refl) as (_ & SG & _). exact SG.
      + intro H. destruct (DECS a) as [SG|SG].
        * apply (SEG a SG) in H. rewrite H. reflexivity.
        * destruct H as [OK H]. destruct (BR2 a SG OK H) as [X _]. congruence.
    - destruct (existsb (fun p => starts_with p s) _) eqn:B2.
      + split; [destruct (from_base58_str sha s) as [[|]|]; cbn [rbind]; try discriminate; congruence|]. intro a. split.
        * destruct (from_base58_str sha s) as [[a'|e]|] eqn:F; cbn [rbind]; [|discriminate|discriminate]. intro H. injection H as ->. apply LEG; [|reflexivity]. pose proof (proj1 (B58 a) eq_refl) as (_ & SG & _). exact SG.
        * intro H. destruct (DECS a) as [SG|SG].
          -- destruct H as [OK H]. pose proof (BR1 a SG OK H). congruence.
          -- apply (LEG a SG) in H. rewrite H. reflexivity.
      + split; [discriminate|]. intro a. split; [discriminate|]. intros [OK H]. destruct (DECS a) as [SG|SG].
        * pose proof (BR1 a SG OK H). congruence.
        * destruct (BR2 a SG OK H). congruence.
  Qed.
  Lemma display_spec : forall a, address_ok a -> exists s, display sha false a = Ret s /\ address_text sha a s /\
    display sha true a = Ret (match a with ASegwit _ _ => upper s | _ => s end).
  Proof.
    intros [h n|h n|w k] OK; cbn [address_ok] in OK.
    - destruct n; cbn [display address_text].
      + destruct (legacy_text_spec sha SHA 0 h) as (s & E & T); try tauto; try lia. exists s. unfold PUBKEY_ADDRESS_PREFIX_MAIN. rewrite E. auto.
      + destruct (legacy_text_spec sha SHA 111 h) as (s & E & T); try tauto; try lia. exists s. unfold PUBKEY_ADDRESS_PREFIX_TEST. rewrite E. auto.
    - destruct n; cbn [display address_text].
      + destruct (legacy_text_spec sha SHA 5 h) as (s & E & T); try tauto; try lia. exists s. unfold SCRIPT_ADDRESS_PREFIX_MAIN. rewrite E. auto.
      + destruct (legacy_text_spec sha SHA 196 h) as (s & E & T); try tauto; try lia. exists s. unfold SCRIPT_ADDRESS_PREFIX_TEST. rewrite E. auto.
    - destruct OK as [OK PV]. cbn [display address_text]. destruct PV as [[V16 L] V0]. replace (wp_version w <? 32) with true by lia.
      exists (encode_lower (to_hrp k) (wp_version w) (wp_program w)). split; [reflexivity|]. change (to_hrp k) with (prefix_text k). split; [|reflexivity].
      apply encode_text; [apply prefix_ok|exact V16].
  Qed.
  Lemma address_text_fun : forall a s t, address_text sha a s -> address_text sha a t -> s = t.
  Proof.
    intros [h []|h []|w k] s t A B; cbn [address_text] in *; try apply (base58_fun _ _ _ A B). apply (text_unique _ _ _ _ _ (proj2 (proj2 (proj2 (proj2 (proj2 (prefix_ok k)))))) A B).
  Qed.
End Parse.
