(** C47: addresses. *)
From Coq Require Import String.
From Verif Require Import Base MDec LDec MWitness MText LText LPoly MP2p LP2p2 MBip32 LBip32b MHash2 SHash2 SSha2 MBase58 SBase58 LBase58 PBase58 SBech32 MBech32 LBech32 LBech32b MScript SScript LScript LScript4 PScript
  MTaproot STaproot PTaproot MKey MPow MAddress SAddress LAmountText LWire LAddress LAddress2.
Local Open Scope N_scope.

(** Displaying never fails and gives the address's text; with the alternate flag, segwit texts are in upper case. *)
Theorem C47_display : forall sha256d a, (forall m, SWire.hash_ok (sha256d m)) -> address_ok a ->
  exists s, display sha256d false a = Ret s /\ address_text sha256d a s /\
    display sha256d true a = Ret (match a with ASegwit _ _ => upper s | _ => s end) /\
    to_qr_uri sha256d a = Ret (lit "bitcoin:" ++ match a with ASegwit _ _ => upper s | _ => s end).
Proof.
  intros sha a SHA OK. destruct (display_spec sha SHA a OK) as (s & E & T & U). exists s. split; [exact E|]. split; [exact T|]. split; [exact U|]. unfold to_qr_uri. rewrite U. reflexivity.
Qed.
Print Assumptions C47_display.
(** Parsing never panics and accepts exactly the texts of addresses, the segwit ones in one case or the other. *)
Theorem C47_parse : forall sha256d s, (forall m, SWire.hash_ok (sha256d m)) ->
  from_str sha256d s <> Panic /\
  forall a, from_str sha256d s = Ret (Ok a) <->
    address_ok a /\ exists t, address_text sha256d a t /\ (s = t \/ (is_segwit a /\ s = upper t)).
Proof. intros sha s SHA. exact (from_str_spec sha SHA s). Qed.
Print Assumptions C47_parse.
Theorem C47_parse_forms : forall sha256d s, (forall m, SWire.hash_ok (sha256d m)) ->
  from_base58_str sha256d s <> Panic /\ from_bech32_str s <> Panic /\
  (forall a, from_base58_str sha256d s = Ret (Ok a) <-> address_ok a /\ ~ is_segwit a /\ address_text sha256d a s) /\
  (forall a, from_bech32_str s = Ret (Ok a) <-> address_ok a /\ is_segwit a /\ exists t, address_text sha256d a t /\ (s = t \/ s = upper t)).
Proof.
  intros sha s SHA. destruct (from_base58_spec sha SHA s) as [A B]. destruct (from_bech32_spec s) as [C D]. split; [exact A|]. split; [exact C|]. split; [exact B|].
  intro a. rewrite D. split; intros (OK & SG & t & T & X); split; auto; split; auto; exists t; (split; [|exact X]); destruct a; try destruct SG; exact T.
Qed.
Print Assumptions C47_parse_forms.
(** What is displayed parses back to the same address. *)
Theorem C47_round_trip : forall sha256d alt a, (forall m, SWire.hash_ok (sha256d m)) -> address_ok a ->
  exists s, display sha256d alt a = Ret s /\ from_str sha256d s = Ret (Ok a).
Proof.
  intros sha alt a SHA OK. destruct (display_spec sha SHA a OK) as (s & E & T & U). destruct alt.
  - rewrite U. eexists. split; [reflexivity|]. apply C47_parse; auto. split; [exact OK|]. exists s. split; [exact T|]. destruct a; cbn [is_segwit]; auto.
  - rewrite E. eexists. split; [reflexivity|]. apply C47_parse; auto. split; [exact OK|]. exists s. auto.
Qed.
Print Assumptions C47_round_trip.
(** So two addresses with one text are the same, and each address has one text up to case. *)
Theorem C47_one_text : forall sha256d, (forall m, SWire.hash_ok (sha256d m)) ->
  (forall a b x y s, address_ok a -> address_ok b -> display sha256d x a = Ret s -> display sha256d y b = Ret s -> a = b) /\
  (forall a s t, from_str sha256d s = Ret (Ok a) -> from_str sha256d t = Ret (Ok a) -> lower s = lower t).
Proof.
  intros sha SHA. split.
  - intros a b x y s OA OB EA EB. destruct (C47_round_trip sha x a SHA OA) as (s1 & E1 & P1). destruct (C47_round_trip sha y b SHA OB) as (s2 & E2 & P2). congruence.
  - intros a s t A B. apply (from_str_spec sha SHA) in A, B. destruct A as (OK & t1 & T1 & X1), B as (_ & t2 & T2 & X2). rewrite (address_text_fun sha a _ _ T1 T2) in X1.
    assert (LU : forall x, lower (upper x) = lower x) by (intro x; rewrite !lower_map, upper_map, map_map; apply map_ext; apply lower_upper_lower).
    destruct X1 as [-> |[_ ->]], X2 as [-> |[_ ->]]; rewrite ?LU; reflexivity.
Qed.
Print Assumptions C47_one_text.
(** The first characters and lengths wallets rely on. *)
Theorem C47_prefixes : forall sha256d a s, (forall m, SWire.hash_ok (sha256d m)) -> address_ok a -> display sha256d false a = Ret s ->
  match a with
  | AP2pkh _ NMain => (exists t, s = lit "1" ++ t) /\ lenN s <= 34
  | AP2pkh _ NTest => (exists t, s = lit "m" ++ t \/ s = lit "n" ++ t) /\ lenN s = 34
  | AP2sh _ NMain => (exists t, s = lit "3" ++ t) /\ lenN s = 34
  | AP2sh _ NTest => (exists t, s = lit "2" ++ t) /\ lenN s = 35
  | ASegwit w k => exists c t, symbol c (wp_version w) /\ s = prefix_text k ++ lit "1" ++ c :: t /\
      lenN t = (8 * lenN (wp_program w) + 4) / 5 + 6
  end.
Proof.
  intros sha a s SHA OK D. destruct (display_spec sha SHA a OK) as (s' & E & T & _). assert (s' = s) as -> by congruence. clear D E.
  destruct a as [h []|h []|w k]; cbn [address_text address_ok] in *.
  - pose proof (check_first sha SHA 0 h s (proj2 OK) T) as (A & _). destruct (A eq_refl) as [t ->]. split; [exists t; reflexivity|]. apply (zero_len sha SHA _ _ T). apply check_len; [exact SHA|apply OK].
  - pose proof (check_first sha SHA 111 h s (proj2 OK) T) as (_ & _ & A & _). destruct (A eq_refl) as [L [t X]]. split; [|exact L]. exists t. exact X.
  - pose proof (check_first sha SHA 5 h s (proj2 OK) T) as (_ & A & _). destruct (A eq_refl) as [L [t X]]. split; [|exact L]. exists t. exact X.
  - pose proof (check_first sha SHA 196 h s (proj2 OK) T) as (_ & _ & _ & A). destruct (A eq_refl) as [L [t X]]. split; [|exact L]. exists t. exact X.
  - destruct T as (g & c & ch & _ & [_ (pad & P & EB)] & L6 & _ & _ & F & ->). inversion F as [|x ? cs ? C F']; subst. exists x, cs. split; [exact C|]. split; [reflexivity|].
    apply forall2_len in F'. apply (f_equal (@List.length bool)) in EB. rewrite app_length, repeat_length, !flat_bits_len in EB. rewrite app_length in F'. unfold lenN in *.
    assert (Q : (8 * N.of_nat (List.length (wp_program w)) + 4) / 5 = N.of_nat (List.length g)) by (symmetry; apply (N.div_unique _ 5 _ (4 - N.of_nat pad)); lia). rewrite Q. lia.
Qed.
Print Assumptions C47_prefixes.
(** Every error names its cause. *)
Theorem C47_parse_errors : forall sha256d s e, (forall m, SWire.hash_ok (sha256d m)) -> from_str sha256d s = Ret (Err e) ->
  match e with
  | PUnknownHrp h => (exists rest, s = h ++ 49 :: rest /\ ~ In 49 rest) \/ (s = h /\ ~ In 49 s)
  | PBech32 (BechUnknownHrp h) => exists v p t, program_valid v p /\ segwit_text (lower h) v p t /\ (s = t \/ s = upper t) /\ forall k, lower h <> prefix_text k
  | PBech32 (BadWitnessVersion _) => False
  | PBech32 ParseBech32 => segwit_decode s = None
  | PBase58 (TooLongAddress n) => n = lenN (as_bytes s) /\ 50 < n
  | PBase58 (InvalidLegacyPrefix v) => (exists h, lenN h = 20 /\ check_text sha256d v h s) /\ ~ In v [0; 5; 111; 196]
  | PBase58 (B58Decode d) => decode_check_to_array sha256d 21 (as_bytes s) = Ret (Err d)
  end.
Proof.
  intros sha s e SHA H. unfold from_str in H. destruct (existsb _ _) eqn:B1.
  - destruct (from_bech32_str s) as [[a|e']|] eqn:F; cbn [rbind] in H; try discriminate. assert (e = PBech32 e') as -> by congruence. unfold from_bech32_str in F.
    destruct (segwit_decode s) as [[[hrp v] p]|] eqn:D; [|assert (e' = ParseBech32) as -> by congruence; reflexivity].
    apply decode_spec in D. destruct D as (OK & PV & _ & _ & t & T & X). replace (16 <? v) with false in F by (destruct PV as [[V _] _]; lia). rewrite (wp_new_ok v p PV) in F.
    destruct (from_hrp hrp) as [k|x] eqn:K; [discriminate|]. apply from_hrp_err in K. destruct K as [-> K]. assert (e' = BechUnknownHrp hrp) as -> by congruence. exists v, p, t. split; [exact PV|]. split; [exact T|]. split; [destruct X as [[-> _]|[-> _]]; auto|exact K].
  - destruct (existsb (fun p => starts_with p s) _) eqn:B2.
    + destruct (from_base58_str sha s) as [[a|e']|] eqn:F; cbn [rbind] in H; try discriminate. assert (e = PBase58 e') as -> by congruence. unfold from_base58_str in F.
      destruct (50 <? lenN (as_bytes s)) eqn:L; [assert (e' = TooLongAddress (lenN (as_bytes s))) as -> by congruence; split; [reflexivity|lia]|].
      destruct (decode_check_to_array sha 21 (as_bytes s)) as [[p|d]|] eqn:D; cbn [rbind] in F; [|assert (e' = B58Decode d) as -> by congruence; reflexivity|discriminate].
      destruct p as [|v h]; [discriminate|]. destruct (C26_array sha 21 (as_bytes s) SHA) as [_ A]. apply A in D. destruct D as (_ & LP & D). apply C26_decode in D; [|exact SHA]. pose proof (base58_as_bytes _ _ D) as EB. rewrite EB in D.
      unfold PUBKEY_ADDRESS_PREFIX_MAIN, PUBKEY_ADDRESS_PREFIX_TEST, SCRIPT_ADDRESS_PREFIX_MAIN, SCRIPT_ADDRESS_PREFIX_TEST in F.
      destruct (N.eqb_spec v 0) as [|N0]; [discriminate|]. destruct (N.eqb_spec v 111) as [|N1]; [discriminate|]. destruct (N.eqb_spec v 5) as [|N2]; [discriminate|]. destruct (N.eqb_spec v 196) as [|N3]; [discriminate|].
      assert (e' = InvalidLegacyPrefix v) as -> by congruence. split; [exists h; rewrite lenN_cons in LP; split; [lia|exact D]|]. intros [X|[X|[X|[X|[]]]]]; congruence.
    + assert (E : e = PUnknownHrp (match rsplit 49 s with Some (h, _) => h | None => s end)) by congruence. rewrite E. destruct (rsplit 49 s) as [[h r]|] eqn:R; [left; exists r; apply rsplit_spec; exact R|right; split; [reflexivity|apply rsplit_none; exact R]].
Qed.
Print Assumptions C47_parse_errors.

(** * Scripts *)
(** The output script of an address is the template it stands for, whatever the network; *)
Theorem C47_script : forall a, address_ok a -> script_pubkey a = Ret (pays_to a).
Proof.
  intros [h n|h n|w k] OK; cbn [address_ok script_pubkey pays_to] in *.
  - f_equal. apply (proj1 C16_build h (proj2 OK)).
  - f_equal. apply (proj1 C16_build h (proj2 OK)).
  - apply unchecked_ok. apply OK.
Qed.
Print Assumptions C47_script.
Lemma usable_kind : forall n k, (k = NMain <-> n = Bitcoin) <-> k = kind_of_network n.
Proof. intros [] []; cbn; split; intro H; try reflexivity; try discriminate; try (split; congruence); try (destruct H as [A B]; first [discriminate (A eq_refl) | discriminate (B eq_refl)]). Qed.
Lemma usable_hrp : forall n w k, usable_on (ASegwit w k) n <-> k = hrp_of_network n.
Proof. intros [] w []; cbn; split; intro H; try reflexivity; try discriminate; auto; try (destruct H as [H|[H|H]]; discriminate). Qed.
Lemma take_at : forall (pre h post : list N), firstn (List.length h) (skipn (List.length pre) (pre ++ h ++ post)) = h.
Proof. intros pre h post. rewrite skipn_app, skipn_all, Nat.sub_diag. cbn [skipn app]. rewrite firstn_app, firstn_all, Nat.sub_diag. cbn [firstn]. apply app_nil_r. Qed.
Lemma take_p2pkh : forall h, lenN h = 20 -> firstn 20 (skipn 3 (t_p2pkh h)) = h.
Proof. intros h L. pose proof (take_at [118; 169; 20] h [136; 172]) as T. replace (List.length h) with 20%nat in T by (unfold lenN in L; lia). exact T. Qed.
Lemma take_p2sh : forall h, lenN h = 20 -> firstn 20 (skipn 2 (t_p2sh h)) = h.
Proof. intros h L. pose proof (take_at [169; 20] h [135]) as T. replace (List.length h) with 20%nat in T by (unfold lenN in L; lia). exact T. Qed.
Lemma version_op_back : forall v, v <= 16 -> version_from_opcode (version_op v) = Some v.
Proof.
  intros v V. unfold version_op, version_from_opcode. destruct (N.eqb_spec v 0) as [->|NZ]; [reflexivity|]. unfold OP_1, OP_16. replace (80 + v =? 0) with false by lia.
  replace ((81 <=? 80 + v) && (80 + v <=? 96)) with true by lia. cbv zeta. replace (80 + v - 81 + 1) with v by lia. replace (v <=? 16) with true by lia. reflexivity.
Qed.
(** reading it back for a network gives the address when it is usable there; it never panics. *)
Theorem C47_from_script : forall script n, bytes_ok script ->
  from_script script n <> Panic /\
  (forall a, from_script script n = Ret (Ok a) <-> address_ok a /\ pays_to a = script /\ usable_on a n) /\
  (forall e, from_script script n = Ret (Err e) <->
    (forall a, address_ok a -> pays_to a <> script) /\
    match e with
    | FsWitnessVersion _ => False
    | FsWitnessProgram x => exists p, program_ok 0 p /\ script = t_witness 0 p /\ x = WpInvalidSegwitV0Length (lenN p)
    | FsUnrecognized => ~ exists v p, program_ok v p /\ script = t_witness v p
    end).
Proof.
  intros s n OK. destruct (C16_predicates s) as (WP & _ & _ & _ & _ & SH & PKH & _). remember (from_script s n) as R eqn:ER. unfold from_script in ER.
  destruct (is_p2pkh s) eqn:E1.
  { destruct (proj1 PKH eq_refl) as (h & L & ->). rewrite take_p2pkh in ER by exact L. rewrite L in ER. cbn [N.eqb Pos.eqb] in ER. subst R. assert (OH : bytes_ok h) by (unfold t_p2pkh in OK; apply bytes_ok_app in OK; destruct OK as [_ OK]; apply bytes_ok_app in OK; apply OK).
    split; [discriminate|]. split.
    - intro a. split.
      + intro H. injection H as <-. cbn [address_ok pays_to usable_on]. split; [auto|]. split; [reflexivity|]. apply usable_kind. reflexivity.
      + intros (OA & P & U). destruct a as [h' k|h' k|w k]; cbn [pays_to address_ok] in *; [|discriminate|].
        * apply usable_kind in U. subst k. f_equal. f_equal. f_equal. unfold t_p2pkh in P. apply (app_inv_head [118; 169; 20]) in P. apply app_inv_tail in P. congruence.
        * exfalso. destruct OA as [_ [[V _] _]]. unfold t_witness, t_p2pkh in P. cbn [app] in P. injection P as P _. unfold version_op in P. destruct (wp_version w =? 0); lia.
    - intro e. split; [discriminate|]. intros [NA _]. exfalso. apply (NA (AP2pkh h NMain)); cbn; auto. }
  destruct (is_p2sh s) eqn:E2.
  { destruct (proj1 SH eq_refl) as (h & L & ->). rewrite take_p2sh in ER by exact L. rewrite L in ER. cbn [N.eqb Pos.eqb] in ER. subst R. assert (OH : bytes_ok h) by (unfold t_p2sh in OK; apply bytes_ok_app in OK; destruct OK as [_ OK]; apply bytes_ok_app in OK; apply OK).
    split; [discriminate|]. split.
    - intro a. split.
      + intro H. injection H as <-. cbn [address_ok pays_to usable_on]. split; [auto|]. split; [reflexivity|]. apply usable_kind. reflexivity.
      + intros (OA & P & U). destruct a as [h' k|h' k|w k]; cbn [pays_to address_ok] in *; [discriminate| |].
        * apply usable_kind in U. subst k. f_equal. f_equal. f_equal. unfold t_p2sh in P. apply (app_inv_head [169; 20]) in P. apply app_inv_tail in P. congruence.
        * exfalso. destruct OA as [_ [[V _] _]]. unfold t_witness, t_p2sh in P. cbn [app] in P. injection P as P _. unfold version_op in P. destruct (wp_version w =? 0); lia.
    - intro e. split; [discriminate|]. intros [NA _]. exfalso. apply (NA (AP2sh h NMain)); cbn; auto. }
  assert (NL : forall a, address_ok a -> pays_to a = s -> is_segwit a).
  { intros [h k|h k|w k] OA P; cbn [pays_to address_ok is_segwit] in *; [|exfalso|exact I].
    - exfalso. assert (false = true) by (apply PKH; exists h; split; [apply OA|congruence]). discriminate.
    - assert (false = true) by (apply SH; exists h; split; [apply OA|congruence]). discriminate. }
  destruct (is_witness_program s) eqn:E3.
  - destruct (proj1 WP eq_refl) as (v & p & PO & ->). unfold t_witness in ER. cbn [app] in ER. rewrite version_op_back in ER by apply PO. change (skipn 2 (version_op v :: lenN p :: p)) with p in ER.
    assert (OP : bytes_ok p) by (unfold t_witness in OK; cbn [app] in OK; inversion OK as [|? ? _ X]; subst; inversion X; assumption).
    assert (INV : forall a, address_ok a -> pays_to a = t_witness v p -> exists w k, a = ASegwit w k /\ wp_version w = v /\ wp_program w = p /\ program_valid v p).
    { intros a OA P. pose proof (NL a OA P) as SG. destruct a as [| |w k]; [destruct SG|destruct SG|]. cbn [pays_to address_ok] in *. exists w, k. split; [reflexivity|]. destruct OA as [_ PV]. destruct (proj1 (C16_one_to_one _ _ _ _ (proj1 PV) PO) P) as [E4 E5]. rewrite E4, E5 in PV. auto. }
    destruct (wp_new v p) as [w|x] eqn:W; subst R.
    + assert (PV : program_valid v p) by (apply C16_program_new; [apply PO|eauto]). rewrite (wp_new_ok v p PV) in W. injection W as <-. split; [discriminate|]. split.
      * intro a. split.
        -- intro H. injection H as <-. cbn [address_ok pays_to wp_version wp_program]. split; [auto|]. split; [reflexivity|]. apply usable_hrp. reflexivity.
        -- intros (OA & P & U). destruct (INV a OA P) as (w & k & -> & <- & <- & _). apply usable_hrp in U. subst k. destruct w; reflexivity.
      * intro e. split; [discriminate|]. intros [NA _]. exfalso. apply (NA (ASegwit {| wp_version := v; wp_program := p |} HMainnet)); cbn; auto.
    + split; [discriminate|]. assert (X : v = 0 /\ x = WpInvalidSegwitV0Length (lenN p)).
      { unfold wp_new in W. destruct PO as [V L]. replace ((lenN p <? 2) || (40 <? lenN p)) with false in W by lia. destruct (N.eqb_spec v 0) as [->|]; cbn [andb] in W; [|discriminate]. split; [reflexivity|]. destruct (_ && _); [congruence|discriminate]. }
      destruct X as [-> ->]. assert (NV : ~ program_valid 0 p) by (intro PV; rewrite (wp_new_ok 0 p PV) in W; discriminate). split.
      * intro a. split; [discriminate|]. intros (OA & P & _). destruct (INV a OA P) as (_ & _ & _ & _ & _ & PV). contradiction.
      * intro e. split.
        -- intro H. injection H as <-. split; [|exists p; auto]. intros a OA P. destruct (INV a OA P) as (_ & _ & _ & _ & _ & PV). contradiction.
        -- intros [_ M]. destruct e as [op|x|]; [destruct M| |].
           ++ destruct M as (q & PQ & Q & ->). destruct (proj1 (C16_one_to_one _ _ _ _ PO PQ) Q) as [_ ->]. reflexivity.
           ++ exfalso. apply M. exists 0, p. auto.
  - subst R. split; [discriminate|]. assert (NW : ~ exists v p, program_ok v p /\ s = t_witness v p) by (intro X; apply WP in X; discriminate).
    assert (NONE : forall a, address_ok a -> pays_to a <> s). { intros a OA P. pose proof (NL a OA P) as SG. destruct a as [| |w k]; [destruct SG|destruct SG|]. cbn [pays_to address_ok] in *. apply NW. exists (wp_version w), (wp_program w). split; [apply OA|congruence]. }
    split.
    + intro a. split; [discriminate|]. intros (OA & P & _). destruct (NONE a OA P).
    + intro e. split; [intro H; injection H as <-; auto|]. intros [_ M]. destruct e as [op|x|]; [destruct M| |reflexivity]. destruct M as (p & PO & E & _). exfalso. apply NW. eauto.
Qed.
Print Assumptions C47_from_script.
(** For the other addresses of a program, matching a script is having that script as output script; for segwit addresses the witness
    version is not looked at. *)
Theorem C47_matches : forall a script, address_ok a ->
  matches_script_pubkey a script = true <->
  match a with
  | ASegwit w _ => exists v, program_ok v (wp_program w) /\ script = t_witness v (wp_program w)
  | _ => script = pays_to a
  end.
Proof.
  intros a s OK. destruct (C16_predicates s) as (WP & _ & _ & _ & _ & SH & PKH & _). destruct a as [h k|h k|w k]; cbn [matches_script_pubkey address_ok pays_to] in *.
  - rewrite andb_true_iff, PKH, beqb_eq. split.
    + intros [(h' & L & ->) E]. rewrite take_p2pkh in E by exact L. congruence.
    + intros ->. split; [exists h; split; [apply OK|reflexivity]|]. apply take_p2pkh. apply OK.
  - rewrite andb_true_iff, SH, beqb_eq. split.
    + intros [(h' & L & ->) E]. rewrite take_p2sh in E by exact L. congruence.
    + intros ->. split; [exists h; split; [apply OK|reflexivity]|]. apply take_p2sh. apply OK.
  - rewrite andb_true_iff, WP, beqb_eq. split.
    + intros [(v & p & PO & ->) E]. change (skipn 2 (t_witness v p)) with p in E. subst p. exists v. auto.
    + intros (v & PO & ->). split; [exists v, (wp_program w); auto|reflexivity].
Qed.
Print Assumptions C47_matches.
(** Finding: so an address can match the output script of another address. *)
Theorem C47_matches_refuted : exists a b, address_ok a /\ address_ok b /\ a <> b /\
  matches_script_pubkey a (pays_to b) = true /\ pays_to a <> pays_to b.
Proof.
  exists (ASegwit {| wp_version := 0; wp_program := repeat 7 32 |} HMainnet), (ASegwit {| wp_version := 1; wp_program := repeat 7 32 |} HMainnet).
  assert (B : bytes_ok (repeat 7 32)) by (apply Forall_forall; intros x I; apply repeat_spec in I; subst; reflexivity).
  split; [split; [exact B|split; [split; cbn; [lia|split; discriminate]|cbn; intros _; right; reflexivity]]|]. split; [split; [exact B|split; [split; cbn; [lia|split; discriminate]|cbn; discriminate]]|].
  split; [discriminate|]. split; [vm_compute; reflexivity|vm_compute; discriminate].
Qed.
Print Assumptions C47_matches_refuted.

(** * Networks and types *)
(** An address is accepted for a network exactly when it can be used there, and comes back unchanged. *)
Theorem C47_network : forall a n,
  (is_valid_for_network a n = true <-> usable_on a n) /\
  (require_network a n = Ok a <-> usable_on a n) /\ (require_network a n = Err (n, a) <-> ~ usable_on a n) /\
  (network_kind_of a = NMain <-> usable_on a Bitcoin).
Proof.
  intros a n. assert (V : is_valid_for_network a n = true <-> usable_on a n).
  { destruct a as [h k|h k|w k].
    - cbn [usable_on is_valid_for_network]. rewrite usable_kind. destruct k, (kind_of_network n); cbn; split; congruence.
    - cbn [usable_on is_valid_for_network]. rewrite usable_kind. destruct k, (kind_of_network n); cbn; split; congruence.
    - rewrite usable_hrp. cbn [is_valid_for_network]. destruct k, (hrp_of_network n); cbn; split; congruence. }
  split; [exact V|]. unfold require_network. split; [|split].
  - rewrite <- V. destruct (is_valid_for_network a n); split; congruence.
  - rewrite <- V. destruct (is_valid_for_network a n); split; congruence.
  - destruct a as [h k|h k|w []]; cbn [network_kind_of usable_on kind_of_hrp]; try (destruct k; split; intro H; try split; congruence || tauto || (destruct H as [_ H]; discriminate (H eq_refl)) || idtac).
    + split; reflexivity.
    + split; [discriminate|]. intros [H|[H|H]]; discriminate.
    + split; discriminate.
Qed.
Print Assumptions C47_network.
(** No address can be used both on the main network and on another. *)
Theorem C47_network_separation : forall a n, usable_on a Bitcoin -> usable_on a n -> n = Bitcoin.
Proof. intros [h k|h k|w []] n A B; cbn in *; try tauto; try discriminate. destruct A as [A|[A|A]]; discriminate. Qed.
Print Assumptions C47_network_separation.
(** The type of an address is that of its output script; none only for witness programs without a meaning yet. *)
Theorem C47_type : forall a, address_ok a ->
  (type_of a = Some TyP2pkh <-> exists h, lenN h = 20 /\ pays_to a = t_p2pkh h) /\
  (type_of a = Some TyP2sh <-> exists h, lenN h = 20 /\ pays_to a = t_p2sh h) /\
  (type_of a = Some TyP2wpkh <-> exists p, lenN p = 20 /\ pays_to a = t_witness 0 p) /\
  (type_of a = Some TyP2wsh <-> exists p, lenN p = 32 /\ pays_to a = t_witness 0 p) /\
  (type_of a = Some TyP2tr <-> exists p, lenN p = 32 /\ pays_to a = t_witness 1 p) /\
  (type_of a = Some TyP2a <-> pays_to a = t_witness 1 [78; 115]) /\
  is_spend_standard a = match type_of a with Some _ => true | None => false end /\
  (type_of a = None <-> exists v p, 1 <= v /\ program_ok v p /\ pays_to a = t_witness v p /\ ~ (v = 1 /\ (lenN p = 32 \/ p = [78; 115]))).
Proof.
  intros a OK. destruct a as [h k|h k|w k]; cbn [address_ok pays_to type_of] in *.
  - assert (NW : forall v p, program_ok v p -> t_p2pkh h <> t_witness v p).
    { intros v p [V _] P. unfold t_witness, t_p2pkh in P. cbn [app] in P. injection P as P _. unfold version_op in P. destruct (v =? 0); lia. }
    split; [split; [exists h; split; [apply OK|reflexivity]|reflexivity]|]. split; [split; [discriminate|intros (x & _ & X); discriminate]|].
    split; [split; [discriminate|intros (x & L & X); destruct (NW 0 x ltac:(split; lia) X)]|]. split; [split; [discriminate|intros (x & L & X); destruct (NW 0 x ltac:(split; lia) X)]|].
    split; [split; [discriminate|intros (x & L & X); destruct (NW 1 x ltac:(split; lia) X)]|]. split; [split; [discriminate|intro X; destruct (NW 1 [78; 115] ltac:(split; [lia|split; discriminate]) X)]|].
    split; [reflexivity|]. split; [discriminate|]. intros (v & p & _ & PO & X & _). destruct (NW v p PO X).
  - assert (NW : forall v p, program_ok v p -> t_p2sh h <> t_witness v p).
    { intros v p [V _] P. unfold t_witness, t_p2sh in P. cbn [app] in P. injection P as P _. unfold version_op in P. destruct (v =? 0); lia. }
    split; [split; [discriminate|intros (x & _ & X); discriminate]|]. split; [split; [exists h; split; [apply OK|reflexivity]|reflexivity]|].
    split; [split; [discriminate|intros (x & L & X); destruct (NW 0 x ltac:(split; lia) X)]|]. split; [split; [discriminate|intros (x & L & X); destruct (NW 0 x ltac:(split; lia) X)]|].
    split; [split; [discriminate|intros (x & L & X); destruct (NW 1 x ltac:(split; lia) X)]|]. split; [split; [discriminate|intro X; destruct (NW 1 [78; 115] ltac:(split; [lia|split; discriminate]) X)]|].
    split; [reflexivity|]. split; [discriminate|]. intros (v & p & _ & PO & X & _). destruct (NW v p PO X).
  - destruct w as [v p]. cbn [wp_version wp_program] in *. destruct OK as [_ PV]. pose proof (proj1 PV) as PO.
    assert (EQ : forall v' p', program_ok v' p' -> (t_witness v p = t_witness v' p' <-> v = v' /\ p = p')) by (intros; apply C16_one_to_one; auto).
    assert (NP : forall h, t_witness v p <> t_p2pkh h). { intros h P. destruct PO as [V _]. unfold t_witness, t_p2pkh in P. cbn [app] in P. injection P as P _. unfold version_op in P. destruct (v =? 0); lia. }
    assert (NS : forall h, t_witness v p <> t_p2sh h). { intros h P. destruct PO as [V _]. unfold t_witness, t_p2sh in P. cbn [app] in P. injection P as P _. unfold version_op in P. destruct (v =? 0); lia. }
    assert (A1 : forall v' n, v' <= 16 -> 2 <= n <= 40 -> ((exists q, lenN q = n /\ t_witness v p = t_witness v' q) <-> (v =? v') && (lenN p =? n) = true)).
    { intros v' n V' N'. rewrite andb_true_iff, !N.eqb_eq. split.
      - intros (q & L & E). apply EQ in E; [|split; lia]. destruct E as [-> ->]. auto.
      - intros [-> E]. exists p. auto. }
    assert (A2 : t_witness v p = t_witness 1 [78; 115] <-> (v =? 1) && beqb p [78; 115] = true).
    { rewrite (EQ 1 [78; 115]) by (split; [lia|split; discriminate]). rewrite andb_true_iff, N.eqb_eq, beqb_eq. reflexivity. }
    rewrite (A1 0 20), (A1 0 32), (A1 1 32), A2 by lia. unfold wp_is_p2wpkh, wp_is_p2wsh, wp_is_p2tr, wp_is_p2a. cbn [wp_version wp_program]. change P2A_PROGRAM with [78; 115].
    assert (LAST : (exists v0 p0, 1 <= v0 /\ program_ok v0 p0 /\ t_witness v p = t_witness v0 p0 /\ ~ (v0 = 1 /\ (lenN p0 = 32 \/ p0 = [78; 115]))) <-> 1 <= v /\ ~ (v = 1 /\ (lenN p = 32 \/ p = [78; 115]))).
    { split; [intros (v0 & p0 & L & PO0 & E & N0); apply EQ in E; [|exact PO0]; destruct E as [<- <-]; auto|]. intros [L N0]. exists v, p. auto. }
    rewrite LAST. clear A1 A2 EQ LAST. unfold is_spend_standard. cbn [type_of]. unfold wp_is_p2wpkh, wp_is_p2wsh, wp_is_p2tr, wp_is_p2a. cbn [wp_version wp_program]. change P2A_PROGRAM with [78; 115].
    assert (BQ : beqb p [78; 115] = true -> lenN p = 2) by (intro X; apply beqb_eq in X; subst; reflexivity). pose proof (proj2 PV) as V0.
    assert (NPF : forall X : address_type, (X = TyP2pkh \/ X = TyP2sh) -> True) by auto.
    destruct (N.eqb_spec v 0) as [->|N0].
    + cbn [N.eqb andb]. destruct (V0 eq_refl) as [L|L]; rewrite L; cbn [N.eqb Pos.eqb]; repeat split; try discriminate; try (intros (h & _ & X); destruct (NP h X)); try (intros (h & _ & X); destruct (NS h X)); try lia.
    + cbn [andb]. destruct (N.eqb_spec v 1) as [->|N1]; cbn [andb].
      * destruct (N.eqb_spec (lenN p) 32) as [L|L].
        -- repeat split; try discriminate; try (intros (h & _ & X); destruct (NP h X)); try (intros (h & _ & X); destruct (NS h X)).
           ++ intro X. specialize (BQ X). lia.
           ++ intros [_ X]. exfalso. apply X. auto.
        -- destruct (beqb p [78; 115]) eqn:B; repeat split; try discriminate; try (intros (h & _ & X); destruct (NP h X)); try (intros (h & _ & X); destruct (NS h X)); try lia.
           ++ intros [_ X]. exfalso. apply X. apply beqb_eq in B. auto.
           ++ intros [_ [X|X]]; [lia|]. rewrite <- beqb_eq in X. congruence.
      * repeat split; try discriminate; try (intros (h & _ & X); destruct (NP h X)); try (intros (h & _ & X); destruct (NS h X)); try lia.
Qed.
Print Assumptions C47_type.
Theorem C47_type_text : forall s t, type_from_str s = Some t <-> s = type_display t.
Proof.
  intros s t. unfold type_from_str. split.
  - destruct (str_eqb s (lit "p2pkh")) eqn:E0; [apply str_eqb_eq in E0; intro E; injection E as <-; exact E0|].
    destruct (str_eqb s (lit "p2sh")) eqn:E1; [apply str_eqb_eq in E1; intro E; injection E as <-; exact E1|].
    destruct (str_eqb s (lit "p2wpkh")) eqn:E2; [apply str_eqb_eq in E2; intro E; injection E as <-; exact E2|].
    destruct (str_eqb s (lit "p2wsh")) eqn:E3; [apply str_eqb_eq in E3; intro E; injection E as <-; exact E3|].
    destruct (str_eqb s (lit "p2tr")) eqn:E4; [apply str_eqb_eq in E4; intro E; injection E as <-; exact E4|].
    destruct (str_eqb s (lit "p2a")) eqn:E5; [apply str_eqb_eq in E5; intro E; injection E as <-; exact E5|].
    intro E. discriminate E.
  - intros ->. destruct t; reflexivity.
Qed.
Print Assumptions C47_type_text.

(** * Constructors *)
(** Each constructor gives an address that pays to the standard script of what it was given; scripts over the limits (520 bytes, and
    10000 bytes for witness scripts) are refused with their size. *)
Theorem C47_constructors : forall (hash160 sha256 : bytes -> bytes) (C : kcurve),
  (forall m, bytes_ok (hash160 m) /\ lenN (hash160 m) = 20) -> (forall m, SWire.hash_ok (sha256 m)) ->
  (forall k n, address_ok (p2pkh hash160 C k n) /\ pays_to (p2pkh hash160 C k n) = t_p2pkh (hash160 (if lk_compressed C k then kc_ser33 C (lk_point C k) else kc_ser65 C (lk_point C k)))) /\
  (forall s n, if lenN s <=? 520 then exists a, p2sh hash160 s n = Ok a /\ address_ok a /\ pays_to a = t_p2sh (hash160 s) else p2sh hash160 s n = Err (lenN s)) /\
  (forall k h, address_ok (p2wpkh hash160 C k h) /\ pays_to (p2wpkh hash160 C k h) = t_witness 0 (hash160 (kc_ser33 C k))) /\
  (forall s h, if lenN s <=? 10000 then exists a, p2wsh sha256 s h = Ok a /\ address_ok a /\ pays_to a = t_witness 0 (sha256 s) else p2wsh sha256 s h = Err (lenN s)) /\
  (forall k n, exists a, p2shwpkh hash160 C k n = Ret a /\ address_ok a /\ pays_to a = t_p2sh (hash160 (t_witness 0 (hash160 (kc_ser33 C k))))) /\
  (forall s n, if lenN s <=? 10000 then exists a, p2shwsh hash160 sha256 s n = Ret (Ok a) /\ address_ok a /\ pays_to a = t_p2sh (hash160 (t_witness 0 (sha256 s)))
     else p2shwsh hash160 sha256 s n = Ret (Err (lenN s))) /\
  (forall h, address_ok (p2a h) /\ pays_to (p2a h) = t_witness 1 [78; 115]) /\
  (forall key h, SWire.hash_ok key -> address_ok (p2tr_tweaked key h) /\ pays_to (p2tr_tweaked key h) = t_witness 1 key) /\
  (forall T k root h, curve_ok T -> match tap_tweak sha256 T k root with
     | Ret out => exists a, p2tr sha256 T k root h = Ret a /\ address_ok a /\ pays_to a = t_witness 1 (c_ser T (xo_key out))
     | Panic => p2tr sha256 T k root h = Panic end).
Proof.
  intros h1 h2 C H1 H2. assert (PB : forall m, new_witness_program_unchecked 0 (h1 m) = Ret (t_witness 0 (h1 m))).
  { intro m. apply unchecked_ok. destruct (H1 m). split; [split; lia|]. auto. }
  assert (PB2 : forall m, new_witness_program_unchecked 0 (h2 m) = Ret (t_witness 0 (h2 m))).
  { intro m. apply unchecked_ok. destruct (H2 m). split; [split; lia|]. auto. }
  assert (LW : forall v p, lenN (t_witness v p) = 2 + lenN p) by (intros; unfold t_witness; rewrite lenN_app; reflexivity).
  assert (SB : forall m, sb_push_slice (sb_push_opcode [] 0) (h1 m) = t_witness 0 (h1 m)).
  { intro m. specialize (PB m). unfold new_witness_program_unchecked in PB. destruct (H1 m) as [_ L]. rewrite L in PB. cbn [N.leb N.compare Pos.compare Pos.compare_cont andb negb orb N.eqb Pos.eqb] in PB. change (version_to_opcode 0) with 0 in PB. congruence. }
  assert (SB2 : forall m, sb_push_slice (sb_push_opcode [] 0) (h2 m) = t_witness 0 (h2 m)).
  { intro m. specialize (PB2 m). unfold new_witness_program_unchecked in PB2. destruct (H2 m) as [L _]. rewrite L in PB2. cbn [N.leb N.compare Pos.compare Pos.compare_cont andb negb orb N.eqb Pos.eqb] in PB2. change (version_to_opcode 0) with 0 in PB2. congruence. }
  split; [|split; [|split; [|split; [|split; [|split; [|split; [|split]]]]]]].
  - intros k n. split; [apply H1|reflexivity].
  - intros s n. unfold p2sh, script_hash. destruct (N.leb_spec (lenN s) 520); [replace (520 <? lenN s) with false by lia|replace (520 <? lenN s) with true by lia; reflexivity]. eexists. split; [reflexivity|]. split; [apply H1|reflexivity].
  - intros k h. split; [|reflexivity]. destruct (H1 (kc_ser33 C k)) as [A B]. split; [exact A|]. cbn [p2wpkh wp_version wp_program]. unfold fk_pubkey_hash, fk_to_bytes. split; [split; lia|auto].
  - intros s h. unfold p2wsh, wscript_hash. destruct (N.leb_spec (lenN s) 10000); [replace (10000 <? lenN s) with false by lia|replace (10000 <? lenN s) with true by lia; reflexivity]. eexists. split; [reflexivity|]. split; [|reflexivity].
    destruct (H2 s) as [A B]. split; [exact B|]. cbn [wp_version wp_program]. split; [split; lia|auto].
  - intros k n. unfold p2shwpkh, script_hash, fk_pubkey_hash. rewrite SB, LW, (proj2 (H1 _)). eexists. split; [reflexivity|]. split; [apply H1|reflexivity].
  - intros s n. unfold p2shwsh, wscript_hash, script_hash. destruct (N.leb_spec (lenN s) 10000); [replace (10000 <? lenN s) with false by lia|replace (10000 <? lenN s) with true by lia; reflexivity]. rewrite SB2, LW, (proj1 (H2 _)). eexists. split; [reflexivity|]. split; [apply H1|reflexivity].
  - intros h. split; [|reflexivity]. split; [repeat constructor|]. split; [split; [cbn; lia|cbn; split; discriminate]|cbn; discriminate].
  - intros key h [L B]. split; [|reflexivity]. split; [exact B|]. cbn [p2tr_tweaked wp_version wp_program]. split; [split; lia|lia].
  - intros T k root h TO. unfold p2tr. destruct (tap_tweak h2 T k root) as [out|]; cbn [rbind]; [|reflexivity]. eexists. split; [reflexivity|]. split; [|reflexivity]. destruct (ser_32 T TO (xo_key out)) as [L B]. split; [exact B|]. unfold xonly_ser. cbn [p2tr_tweaked wp_version wp_program]. split; [split; lia|lia].
Qed.
Print Assumptions C47_constructors.
(** A key is related to an address exactly when the hash or program the address holds is the key's hash, its x coordinate or the
    hash of its P2WPKH script, *)
Theorem C47_related : forall hash160 C a k, (forall m, lenN (hash160 m) = 20) -> address_ok a ->
  let ser := if lk_compressed C k then kc_ser33 C (lk_point C k) else kc_ser65 C (lk_point C k) in
  let holds h := pays_to a = t_p2pkh h \/ pays_to a = t_p2sh h \/ exists v, program_ok v h /\ pays_to a = t_witness v h in
  (is_related_to_pubkey hash160 C a k = true <->
   holds (hash160 ser) \/ holds (fst (kc_xonly C (lk_point C k))) \/ holds (hash160 (t_witness 0 (hash160 ser)))) /\
  (forall x, is_related_to_xonly a x = true <-> holds x).
Proof.
  intros h1 C a k H1 OK ser holds.
  assert (HP : forall h, beqb h (payload a) = true <-> holds h).
  { intro h. rewrite beqb_eq. unfold holds. destruct a as [x n|x n|w n]; cbn [payload pays_to address_ok] in *.
    - split; [intros ->; auto|]. intros [E|[E|(v & [V _] & E)]]; [|discriminate|exfalso; unfold t_witness, t_p2pkh in E; cbn [app] in E; injection E as E _; unfold version_op in E; destruct (v =? 0); lia].
      unfold t_p2pkh in E. apply (app_inv_head [118; 169; 20]) in E. apply app_inv_tail in E. congruence.
    - split; [intros ->; auto|]. intros [E|[E|(v & [V _] & E)]]; [discriminate| |exfalso; unfold t_witness, t_p2sh in E; cbn [app] in E; injection E as E _; unfold version_op in E; destruct (v =? 0); lia].
      unfold t_p2sh in E. apply (app_inv_head [169; 20]) in E. apply app_inv_tail in E. congruence.
    - split.
      + intros ->. right. right. exists (wp_version w). split; [apply OK|reflexivity].
      + assert (V : wp_version w <= 16) by apply OK. intros [E|[E|(v & PO & E)]].
        * exfalso. unfold t_witness, t_p2pkh in E. cbn [app] in E. injection E as E _. unfold version_op in E. destruct (wp_version w =? 0); lia.
        * exfalso. unfold t_witness, t_p2sh in E. cbn [app] in E. injection E as E _. unfold version_op in E. destruct (wp_version w =? 0); lia.
        * apply C16_one_to_one in E; [|apply OK|exact PO]. symmetry. apply E. }
  split; [|exact HP]. unfold is_related_to_pubkey. rewrite !orb_true_iff, !HP. unfold lk_pubkey_hash, lk_serialize, segwit_redeem_hash, xonly_of_legacy. fold ser.
  assert (t_witness 0 (h1 ser) = [0; 20] ++ h1 ser) as -> by (unfold t_witness; rewrite H1; reflexivity). tauto.
Qed.
Print Assumptions C47_related.
(** so the addresses built from a key are related to it; *)
Theorem C47_related_own : forall hash160 C k n h, (forall m, bytes_ok (hash160 m) /\ lenN (hash160 m) = 20) ->
  is_related_to_pubkey hash160 C (p2pkh hash160 C k n) k = true /\
  is_related_to_pubkey hash160 C (p2wpkh hash160 C (lk_point C k) h) (mk_legacy C true (lk_point C k)) = true /\
  (forall a, p2shwpkh hash160 C (lk_point C k) n = Ret a -> is_related_to_pubkey hash160 C a (mk_legacy C true (lk_point C k)) = true) /\
  is_related_to_pubkey hash160 C (p2tr_tweaked (fst (kc_xonly C (lk_point C k))) h) k = true.
Proof.
  intros h1 C k n h H1. assert (R : forall x, beqb x x = true) by (intro x; apply beqb_eq; reflexivity). unfold is_related_to_pubkey. split; [|split; [|split]].
  - cbn [p2pkh payload]. rewrite R. reflexivity.
  - cbn [p2wpkh payload wp_program]. unfold lk_pubkey_hash, lk_serialize. cbn [lk_compressed lk_point]. rewrite R. reflexivity.
  - intros a E. unfold p2shwpkh, script_hash in E. destruct (520 <? _); [discriminate|]. injection E as <-. cbn [payload]. unfold segwit_redeem_hash, lk_pubkey_hash, lk_serialize. cbn [lk_compressed lk_point].
    assert (sb_push_slice (sb_push_opcode [] 0) (fk_pubkey_hash h1 C (lk_point C k)) = [0; 20] ++ h1 (kc_ser33 C (lk_point C k))) as ->.
    { assert (PV : program_valid 0 (h1 (kc_ser33 C (lk_point C k)))) by (destruct (H1 (kc_ser33 C (lk_point C k))); split; [split; lia|auto]). pose proof (unchecked_ok _ _ PV) as PB. unfold new_witness_program_unchecked in PB. destruct (H1 (kc_ser33 C (lk_point C k))) as [_ L]. unfold t_witness in PB. rewrite L in PB. cbn [N.leb N.compare Pos.compare Pos.compare_cont andb negb orb N.eqb Pos.eqb] in PB. change (version_to_opcode 0) with 0 in PB.
      unfold fk_pubkey_hash, fk_to_bytes. assert (X : forall a b : bytes, Ret a = Ret b -> a = b) by (intros a b X; congruence). apply X. rewrite PB. reflexivity. }
    rewrite R, !orb_true_r. reflexivity.
  - cbn [p2tr_tweaked payload wp_program]. unfold xonly_of_legacy. rewrite R, orb_true_r. reflexivity.
Qed.
Print Assumptions C47_related_own.
(** Finding: but so is the P2SH address whose script hash is the key's hash, which the key cannot spend, and a witness program of
    another version. *)
Theorem C47_related_refuted : forall hash160 C k, (forall m, bytes_ok (hash160 m) /\ lenN (hash160 m) = 20) ->
  exists a b, address_ok a /\ address_ok b /\ type_of a = Some TyP2sh /\ type_of b = None /\
    pays_to a = t_p2sh (hash160 (if lk_compressed C k then kc_ser33 C (lk_point C k) else kc_ser65 C (lk_point C k))) /\
    is_related_to_pubkey hash160 C a k = true /\ is_related_to_pubkey hash160 C b k = true.
Proof.
  intros h1 C k H1. exists (AP2sh (lk_pubkey_hash h1 C k) NMain), (ASegwit {| wp_version := 2; wp_program := lk_pubkey_hash h1 C k |} HMainnet). unfold is_related_to_pubkey. cbn [payload wp_program address_ok type_of pays_to wp_version].
  assert (R : forall x, beqb x x = true) by (intro x; apply beqb_eq; reflexivity). rewrite R. destruct (H1 (lk_serialize C k)) as [A B]. fold (lk_pubkey_hash h1 C k) in *. split; [auto|]. split; [split; [exact A|split; [split; lia|lia]]|]. auto.
Qed.
Print Assumptions C47_related_refuted.

(** * Typing errors *)
(** At most three wrong characters, or wrong characters all within six consecutive places, never turn the text of a segwit address
    into that of another one of the same network: provided the version stays 0 or stays not 0, the two differ in their checksum. *)
Theorem C47_three_errors : forall sha256d s t w w' k, (forall m, SWire.hash_ok (sha256d m)) ->
  from_str sha256d s = Ret (Ok (ASegwit w k)) -> from_str sha256d t = Ret (Ok (ASegwit w' k)) ->
  (wp_version w = 0 <-> wp_version w' = 0) -> lenN s = lenN t -> differences (lower s) (lower t) <= 3 -> w = w'.
Proof.
  intros sha s t [v p] [v' p'] k SHA A B Z L D. apply (from_str_spec sha SHA) in A, B. destruct A as ((OP & PV) & x & T1 & X1), B as ((OQ & _) & y & T2 & X2). cbn [address_text wp_version wp_program] in *.
  assert (LX : forall a b, a = b \/ (True /\ a = upper b) -> a = b \/ a = upper b) by tauto. pose proof (lower_text k v p x s T1 (LX _ _ X1)) as E1. pose proof (lower_text k v' p' y t T2 (LX _ _ X2)) as E2. rewrite E1, E2 in D.
  assert (LL : lenN x = lenN y) by (rewrite <- E1, <- E2; unfold lenN, lower in *; rewrite !map_length; exact L). destruct (text_three k v p v' p' x y OP OQ PV T1 T2 Z LL D) as [-> ->]. reflexivity.
Qed.
Print Assumptions C47_three_errors.
Theorem C47_burst_errors : forall sha256d s t w w' k pre x y post, (forall m, SWire.hash_ok (sha256d m)) ->
  from_str sha256d s = Ret (Ok (ASegwit w k)) -> from_str sha256d t = Ret (Ok (ASegwit w' k)) ->
  (wp_version w = 0 <-> wp_version w' = 0) ->
  lower s = prefix_text k ++ lit "1" ++ pre ++ x ++ post -> lower t = prefix_text k ++ lit "1" ++ pre ++ y ++ post -> lenN x = lenN y -> lenN x <= 6 -> w = w'.
Proof.
  intros sha s t [v p] [v' p'] k pre x y post SHA A B Z ES ET L D. apply (from_str_spec sha SHA) in A, B. destruct A as ((OP & PV) & a & T1 & X1), B as ((OQ & _) & b & T2 & X2). cbn [address_text wp_version wp_program] in *.
  assert (LX : forall a b, a = b \/ (True /\ a = upper b) -> a = b \/ a = upper b) by tauto. pose proof (lower_text k v p a s T1 (LX _ _ X1)) as E1. pose proof (lower_text k v' p' b t T2 (LX _ _ X2)) as E2.
  rewrite ES in E1. rewrite ET in E2. subst a b. destruct (text_burst k v p v' p' pre x y post OP OQ T1 T2 Z L D) as [-> ->]. reflexivity.
Qed.
Print Assumptions C47_burst_errors.

(** BIP173's first test vector, in upper case, and a legacy address (checksums by a toy hash). *)
Example C47_nonvacuous :
  let p := [117; 30; 118; 232; 25; 145; 150; 212; 84; 148; 28; 69; 209; 179; 163; 35; 241; 67; 59; 214] in
  let a := ASegwit {| wp_version := 0; wp_program := p |} HMainnet in let b := AP2sh p NTest in
  (forall m, SWire.hash_ok (toy_sha m)) /\ address_ok a /\ address_ok b /\
  from_str toy_sha (lit "BC1QW508D6QEJXTDG4Y5R3ZARVARY0C5XW7KV8F3T4") = Ret (Ok a) /\
  from_str toy_sha (lit "BC1QW508D6QEJXTDG4Y5R3ZARVARY0C5XW7KV8F3T5") = Ret (Err (PBech32 ParseBech32)) /\
  from_script (pays_to a) Bitcoin = Ret (Ok a) /\ from_script (pays_to b) Signet = Ret (Ok b) /\
  usable_on b Regtest /\ ~ usable_on b Bitcoin /\
  (exists s, display toy_sha false b = Ret s /\ from_str toy_sha s = Ret (Ok b)) /\
  type_of a = Some TyP2wpkh /\ matches_script_pubkey a (pays_to a) = true.
Proof.
  assert (OK : bytes_ok [117; 30; 118; 232; 25; 145; 150; 212; 84; 148; 28; 69; 209; 179; 163; 35; 241; 67; 59; 214]) by (repeat constructor).
  split; [exact toy_sha_ok|]. split; [split; [exact OK|split; [split; [cbn; lia|cbn; split; discriminate]|cbn; auto]]|]. split; [split; [exact OK|reflexivity]|].
  split; [vm_compute; reflexivity|]. split; [vm_compute; reflexivity|]. split; [vm_compute; reflexivity|]. split; [vm_compute; reflexivity|].
  split; [cbn; split; discriminate|]. split; [cbn; intros [_ H]; discriminate (H eq_refl)|]. split; [apply C47_round_trip; [exact toy_sha_ok|split; [exact OK|reflexivity]]|]. split; vm_compute; reflexivity.
Qed.

(** The payload of an address is returned by the one accessor of its kind. *)
Theorem C47_payload : forall a h p,
  (pubkey_hash_of a = Some h <-> exists k, a = AP2pkh h k) /\ (script_hash_of a = Some h <-> exists k, a = AP2sh h k) /\
  (witness_program_of a = Some p <-> exists k, a = ASegwit p k).
Proof.
  intros [x k|x k|w k] h p; cbn [pubkey_hash_of script_hash_of witness_program_of]; (split; [|split]); (split; [intro H; try discriminate; exists k; congruence|intros [k' H]; congruence]).
Qed.
Print Assumptions C47_payload.
