(** Codecs of the payloads. *)
From Coq Require Import String.
From Verif Require Import Base MDec LDec LDec2 LPrefix LCompact LCodec MWitness SWitness LWitness LWitDec MTx MAmount MText MPmt MBip152 LTx2 LWire LPmt3 LBip152 LTaproot LBip32b LSha2b MP2p MP2pMsg SWire SPmt SBip152 SP2p LP2p.
Local Open Scope N_scope.

Lemma le_arr : forall n v, is_array (N.of_nat n) (le_bytes n v).
Proof. intros. split; [unfold lenN; now rewrite le_bytes_length|apply le_bytes_ok]. Qed.
Lemma be_arr : forall n v, is_array (N.of_nat n) (be_bytes n v).
Proof. intros. split; [apply be_bytes_len|apply be_bytes_ok]. Qed.
Lemma le_back : forall n b, is_array (N.of_nat n) b -> le_bytes n (le_val b) = b /\ le_val b < 256 ^ N.of_nat n.
Proof. intros n b [H1 H2]. split; [now apply LCompact.le_bytes_of_val|]. apply le_val_lt in H2. now rewrite H1 in H2. Qed.
Lemma be_back : forall n b, is_array (N.of_nat n) b -> be_bytes n (be_val b) = b /\ be_val b < 256 ^ N.of_nat n.
Proof.
  intros n b [H1 H2]. unfold be_bytes, be_val.
  destruct (le_back n (rev b)) as [A B].
  { split; [unfold lenN in *; now rewrite rev_length|unfold bytes_ok; now apply Forall_rev]. }
  split; [|exact B]. rewrite A. apply rev_involutive.
Qed.
Lemma be_val_be : forall n v, v < 256 ^ N.of_nat n -> be_val (be_bytes n v) = v.
Proof. intros n v H. unfold be_val, be_bytes. rewrite rev_involutive. now apply le_val_bytes. Qed.
Lemma arr1 : forall b, is_array 1 b -> exists x, b = [x] /\ x < 256 /\ le_val b = x /\ hd 0 b = x.
Proof.
  intros b [H1 H2]. destruct b as [|x [|y b]]; [discriminate| |rewrite !lenN_cons in H1; lia].
  inversion H2; subst. unfold byte_ok in *. exists x. cbn [le_val hd]. repeat split; auto; lia.
Qed.
Lemma is_arr1 : forall x, x < 256 -> is_array 1 [x].
Proof. intros. split; [reflexivity|repeat constructor; exact H]. Qed.
Lemma le_val1 : forall x, le_val [x] = x.
Proof. intros. cbn [le_val]. lia. Qed.

Lemma services_codec : codec services_dec (le_bytes 8) is_u64.
Proof.
  unfold services_dec. eapply newtype_codec; [apply array_codec; lia| |].
  - intros v H. exists (le_bytes 8 v). split; [apply (le_arr 8)|]. split; [|reflexivity]. now rewrite le_val_bytes by exact H.
  - intros a v W H. inv H. destruct (le_back 8 a W) as [A B]. split; [exact B|auto].
Qed.
Lemma nonce_codec : codec nonce_dec (le_bytes 8) is_u64.
Proof.
  unfold nonce_dec. eapply newtype_codec; [apply array_codec; lia| |].
  - intros v H. exists (le_bytes 8 v). split; [apply (le_arr 8)|]. split; [|reflexivity]. now rewrite le_val_bytes by exact H.
  - intros a v W H. inv H. destruct (le_back 8 a W) as [A B]. split; [exact B|auto].
Qed.
Lemma address_codec : codec address_dec address_encode address_ok.
Proof.
  unfold address_dec. eapply newtype_codec; [apply dec3_codec; [apply services_codec|apply (array_codec 16); lia|apply (array_codec 2); lia]| |].
  - intros [s a p] (W1 & W2 & W3 & W4). cbn [a_services a_addr a_port] in *. exists (s, groups a, be_bytes 2 p). cbn [fst snd]. split; [|split].
    + split; [exact W1|]. split; [|apply (be_arr 2)]. split; [rewrite groups_len; lia|apply groups_ok].
    + rewrite segments_groups by exact W3. now rewrite be_val_be by exact W4.
    + unfold address_encode. cbn [a_services a_addr a_port]. now rewrite octets_groups.
  - intros [[s a] p] b (W1 & [W2 W2'] & W3) H. cbn [fst snd] in *. inv H. destruct (segments16 a W2 W2') as (A & B & C). destruct (be_back 2 p W3) as [P1 P2].
    split; [split; [exact W1|split; [exact C|split; [exact A|exact P2]]]|]. unfold address_encode. cbn [a_services a_addr a_port]. now rewrite octets_groups, B, P1.
Qed.
Lemma addr_v1_codec : codec addr_v1_dec addr_v1_encode (fun x => is_u32 (fst x) /\ address_ok (snd x)).
Proof.
  unfold addr_v1_dec. eapply newtype_codec; [apply dec2_codec; [apply (array_codec 4); lia|apply address_codec]| |].
  - intros [t a] [W1 W2]. cbn [fst snd] in *. exists (le_bytes 4 t, a). cbn [fst snd]. split; [split; [apply (le_arr 4)|exact W2]|]. split; [|reflexivity]. now rewrite le_val_bytes by exact W1.
  - intros [t a] b [W1 W2] H. cbn [fst snd] in *. inv H. destruct (le_back 4 t W1) as [A B]. split; [split; [exact B|exact W2]|].
    unfold addr_v1_encode. cbn [fst snd]. now rewrite A.
Qed.

Lemma Nlist_eqb_eq : forall a b, Nlist_eqb a b = true <-> a = b.
Proof.
  induction a as [|x a IH]; intros [|y b]; cbn [Nlist_eqb]; try (split; congruence).
  rewrite andb_true_iff, N.eqb_eq, IH. split; [intros [-> ->]; auto|intros H; inv H; auto].
Qed.
Lemma fc_hd : forall o, lenN o = 16 -> bytes_ok o -> (64512 <= hd 0 (segments o) < 64768 <-> hd 0 o = 252).
Proof.
  intros o L B. destruct o as [|x [|y o]]; [discriminate|discriminate|]. cbn [segments hd]. inversion B as [|? ? Bx B1]; subst. inversion B1 as [|? ? By B2]; subst.
  unfold byte_ok in *. lia.
Qed.
Lemma groups16 : forall s, lenN s = 8 -> is_array 16 (groups s).
Proof. intros s H. split; [rewrite groups_len; lia|apply groups_ok]. Qed.
(** what the conversion accepts *)
Lemma addr_v2_of_ok : forall a, addr_v2_ok a -> exists n b, n < 256 /\ is_bytevec MAX_VEC_SIZE b /\ addr_v2_of n b = Ok a /\ [n] ++ cs_encode (lenN b) ++ b = addr_v2_encode a.
Proof.
  intros a W. unfold is_bytevec, MAX_VEC_SIZE. destruct a; cbn [addr_v2_ok] in W.
  - destruct W as [W1 W2]. exists 1, o. rewrite W1. split; [lia|]. split; [split; [lia|exact W2]|]. split; [|reflexivity].
    unfold addr_v2_of, to_fixed. now rewrite W1.
  - destruct W as (W1 & W2 & W3 & W4). exists 2, (groups s). destruct (groups16 s W1) as [G1 G2]. rewrite G1. split; [lia|]. split; [split; [lia|exact G2]|]. split.
    + unfold addr_v2_of, to_fixed. rewrite G1. cbn [N.ltb N.eqb N.compare Pos.compare Pos.compare_cont Pos.eqb]. rewrite segments_groups by exact W2.
      destruct (Nlist_eqb _ ONION) eqn:E1; [now apply Nlist_eqb_eq in E1|]. destruct (Nlist_eqb _ IPV4_EMBEDDED_IPV6) eqn:E2; [now apply Nlist_eqb_eq in E2|]. reflexivity.
    + cbn [addr_v2_encode]. now rewrite octets_groups.
  - destruct W as [W1 W2]. exists 4, b. rewrite W1. split; [lia|]. split; [split; [lia|exact W2]|]. split; [|reflexivity].
    unfold addr_v2_of, to_fixed. now rewrite W1.
  - destruct W as [W1 W2]. exists 5, b. rewrite W1. split; [lia|]. split; [split; [lia|exact W2]|]. split; [|reflexivity].
    unfold addr_v2_of, to_fixed. now rewrite W1.
  - destruct W as (W1 & W2 & W3). exists 6, (groups s). destruct (groups16 s W1) as [G1 G2]. rewrite G1. split; [lia|]. split; [split; [lia|exact G2]|]. split.
    + unfold addr_v2_of, to_fixed. rewrite G1. cbn [N.ltb N.eqb N.compare Pos.compare Pos.compare_cont Pos.eqb]. rewrite segments_groups by exact W2.
      assert (hd 0 (groups s) = 252) as -> by (apply fc_hd; auto; rewrite segments_groups; auto). reflexivity.
    + cbn [addr_v2_encode]. now rewrite octets_groups.
  - destruct W as (W1 & W2 & W3 & W4). exists network, b. split; [exact W1|]. split; [split; [lia|exact W4]|]. split; [|reflexivity].
    unfold addr_v2_of. replace (512 <? lenN b) with false by lia. cbn [In] in W2.
    replace (network =? 1) with false by lia. replace (network =? 2) with false by lia. replace (network =? 4) with false by lia.
    replace (network =? 5) with false by lia. now replace (network =? 6) with false by lia.
Qed.
Lemma addr_v2_of_inv : forall n b a, n < 256 -> bytes_ok b -> addr_v2_of n b = Ok a -> addr_v2_ok a /\ [n] ++ cs_encode (lenN b) ++ b = addr_v2_encode a.
Proof.
  intros n b a Hn Hb H. unfold addr_v2_of, to_fixed in H. destruct (N.ltb_spec 512 (lenN b)); [discriminate|].
  destruct (N.eqb_spec n 1) as [->|N1]. { destruct (N.eqb_spec (lenN b) 4) as [E|]; inv H. rewrite E. split; [split; auto|reflexivity]. }
  destruct (N.eqb_spec n 2) as [->|N2].
  { destruct (N.eqb_spec (lenN b) 16) as [E|]; [|discriminate]. destruct (segments16 b E Hb) as (A & B & C).
    destruct (Nlist_eqb (firstn 3 _) ONION) eqn:E1; [discriminate|]. destruct (Nlist_eqb (firstn 6 _) IPV4_EMBEDDED_IPV6) eqn:E2; [discriminate|]. inv H. rewrite E.
    split; [|cbn [addr_v2_encode]; now rewrite octets_groups, B]. cbn [addr_v2_ok]. repeat split; auto.
    - intros K. apply Nlist_eqb_eq in K. unfold ONION in E1. congruence.
    - intros K. apply Nlist_eqb_eq in K. unfold IPV4_EMBEDDED_IPV6 in E2. congruence. }
  destruct (N.eqb_spec n 4) as [->|N4]. { destruct (N.eqb_spec (lenN b) 32) as [E|]; inv H. rewrite E. split; [split; auto|reflexivity]. }
  destruct (N.eqb_spec n 5) as [->|N5]. { destruct (N.eqb_spec (lenN b) 32) as [E|]; inv H. rewrite E. split; [split; auto|reflexivity]. }
  destruct (N.eqb_spec n 6) as [->|N6].
  { destruct (N.eqb_spec (lenN b) 16) as [E|]; [|discriminate]. destruct (segments16 b E Hb) as (A & B & C).
    destruct (N.eqb_spec (hd 0 b) 252) as [F|]; [|discriminate]. cbn [negb] in H. inv H. rewrite E.
    split; [|cbn [addr_v2_encode]; now rewrite octets_groups, B]. cbn [addr_v2_ok]. repeat split; auto; apply fc_hd; auto. }
  inv H. split; [|reflexivity]. cbn [addr_v2_ok In]. repeat split; auto. lia.
Qed.
Lemma addr_v2_codec : codec addr_v2_dec addr_v2_encode addr_v2_ok.
Proof.
  unfold addr_v2_dec. eapply newtype_codec; [apply dec2_codec; [apply (array_codec 1); lia|apply bytevec_codec; reflexivity]| |].
  - intros a W. destruct (addr_v2_of_ok a W) as (n & b & H1 & H2 & H3 & H4). exists ([n], b). cbn [fst snd]. split; [split; [now apply is_arr1|exact H2]|].
    rewrite le_val1, H3. auto.
  - intros [n b] a [W1 W2] H. cbn [fst snd] in *. destruct (arr1 n W1) as (x & -> & X1 & X2 & _). rewrite X2 in H.
    destruct (addr_v2_of x b) eqn:E; inv H. apply addr_v2_of_inv in E; [exact E|exact X1|apply W2].
Qed.
Definition addr_v2_msg_ok (x : addr_v2_msg) : Prop := is_u32 (am_time x) /\ is_u64 (am_services x) /\ addr_v2_ok (am_addr x) /\ am_port x < 2 ^ 16.
Lemma addr_v2_msg_codec : codec addr_v2_msg_dec addr_v2_msg_encode addr_v2_msg_ok.
Proof.
  unfold addr_v2_msg_dec. eapply newtype_codec; [apply dec4_codec; [apply (array_codec 4); lia|apply cs_u64_codec|apply addr_v2_codec|apply (array_codec 2); lia]| |].
  - intros [t s a p] (W1 & W2 & W3 & W4). cbn [am_time am_services am_addr am_port] in *. exists (le_bytes 4 t, s, a, be_bytes 2 p). cbn [fst snd]. split; [|split].
    + split; [apply (le_arr 4)|]. split; [exact W2|]. split; [exact W3|apply (be_arr 2)].
    + rewrite le_val_bytes by exact W1. now rewrite be_val_be by exact W4.
    + reflexivity.
  - intros [[[t s] a] p] b (W1 & W2 & W3 & W4) H. cbn [fst snd] in *. inv H. destruct (le_back 4 t W1) as [T1 T2]. destruct (be_back 2 p W4) as [P1 P2].
    split; [split; [exact T2|split; [exact W2|split; [exact W3|exact P2]]]|]. unfold addr_v2_msg_encode. cbn [am_time am_services am_addr am_port]. now rewrite T1, P1.
Qed.

Lemma inventory_of_inv : forall t h, is_u32 t -> hash_ok h -> inventory_ok (inventory_of t h) /\ inventory_encode (inventory_of t h) = le_bytes 4 t ++ h.
Proof.
  intros t h Ht Hh. unfold inventory_of.
  repeat match goal with |- context [t =? ?k] => destruct (N.eqb_spec t k) as [->|?]; [split; [exact Hh|reflexivity]|] end.
  split; [|reflexivity]. cbn [inventory_ok]. change (2 ^ 30 + 1) with 1073741825. change (2 ^ 30 + 2) with 1073741826. cbn [In]. repeat split; auto; try apply Hh. lia.
Qed.
Lemma inventory_codec : codec inventory_dec inventory_encode inventory_ok.
Proof.
  unfold inventory_dec. eapply newtype_codec; [apply dec2_codec; [apply (array_codec 4); lia|apply (array_codec 32); lia]| |].
  - intros i W. assert (K : exists t h, is_u32 t /\ hash_ok h /\ inventory_of t h = i /\ inventory_encode i = le_bytes 4 t ++ h).
    { destruct i; cbn [inventory_ok] in W; try (eexists _, _; split; [|split; [exact W|split; [|reflexivity]]]; [reflexivity|reflexivity]).
      destruct W as (W1 & W2 & W3). exists ty, h. repeat split; auto; try apply W3. unfold inventory_of. cbn [In] in W2.
      change (2 ^ 30 + 1) with 1073741825 in W2. change (2 ^ 30 + 2) with 1073741826 in W2.
      repeat match goal with |- context [ty =? ?k] => replace (ty =? k) with false by lia end. reflexivity. }
    destruct K as (t & h & K1 & K2 & K3 & K4). exists (le_bytes 4 t, h). cbn [fst snd]. split; [split; [apply (le_arr 4)|exact K2]|]. rewrite le_val_bytes by exact K1. split; [now rewrite K3|auto].
  - intros [t h] i [W1 W2] H. cbn [fst snd] in *. inv H. destruct (le_back 4 t W1) as [A B]. destruct (inventory_of_inv (le_val t) h B W2) as [I1 I2]. split; [exact I1|]. now rewrite I2, A.
Qed.
Definition get_blocks_ok (g : get_blocks) : Prop := is_u32 (gb_version g) /\ list_ok hash_ok (gb_locator g) /\ hash_ok (gb_stop g).
Lemma get_blocks_codec : codec get_blocks_dec get_blocks_encode get_blocks_ok.
Proof.
  unfold get_blocks_dec. eapply newtype_codec; [apply dec3_codec; [apply u32_codec|apply vec_codec; [reflexivity|apply hash_codec]|apply hash_codec]| |].
  - intros [v l s] (W1 & W2 & W3). exists (v, l, s). split; [split; [exact W1|split; [exact W2|exact W3]]|split; reflexivity].
  - intros [[v l] s] b (W1 & W2 & W3) H. inv H. split; [split; [exact W1|split; [exact W2|exact W3]]|reflexivity].
Qed.
Definition filter_load_ok (f : filter_load) : Prop := blob_ok (fl_filter f) /\ is_u32 (fl_hash_funcs f) /\ is_u32 (fl_tweak f).
Lemma bloom_codec : codec bloom_dec (fun f => [bloom_byte f]) (fun _ => True).
Proof.
  unfold bloom_dec. eapply newtype_codec; [apply (array_codec 1); lia| |].
  - intros f _. exists [bloom_byte f]. split; [apply is_arr1; destruct f; reflexivity|]. rewrite le_val1. split; [|reflexivity]. now destruct f.
  - intros b f W H. destruct (arr1 b W) as (x & -> & X1 & X2 & _). cbv zeta in H. rewrite X2 in H. split; [exact I|].
    clear W X1 X2. destruct (N.eqb_spec x 0) as [E0|_]; [subst x; now inv H|]. destruct (N.eqb_spec x 1) as [E0|_]; [subst x; now inv H|]. destruct (N.eqb_spec x 2) as [E0|_]; [subst x; now inv H|discriminate].
Qed.
Lemma filter_load_codec : codec filter_load_dec filter_load_encode filter_load_ok.
Proof.
  unfold filter_load_dec. eapply newtype_codec; [apply dec4_codec; [apply bytevec_codec; reflexivity|apply (array_codec 4); lia|apply (array_codec 4); lia|apply bloom_codec]| |].
  - intros [f h t g] (W1 & W2 & W3). cbn [fl_filter fl_hash_funcs fl_tweak fl_flags] in *. exists (f, le_bytes 4 h, le_bytes 4 t, g). cbn [fst snd].
    split; [split; [exact W1|split; [apply (le_arr 4)|split; [apply (le_arr 4)|exact I]]]|]. rewrite !le_val_bytes by assumption. split; reflexivity.
  - intros [[[f h] t] g] b (W1 & W2 & W3 & _) H. cbn [fst snd] in *. inv H. destruct (le_back 4 h W2) as [A B]. destruct (le_back 4 t W3) as [C D].
    split; [split; [exact W1|split; [exact B|exact D]]|]. unfold filter_load_encode, prefixed. cbn [fl_filter fl_hash_funcs fl_tweak fl_flags]. now rewrite A, C, <- app_assoc.
Qed.
Lemma blob_codec : codec blob_dec prefixed blob_ok.
Proof.
  unfold blob_dec. eapply newtype_codec; [apply bytevec_codec; reflexivity| |].
  - intros b W. exists b. split; [exact W|split; reflexivity].
  - intros a b W H. inv H. split; [exact W|reflexivity].
Qed.
Lemma send_cmpct_codec : codec send_cmpct_dec send_cmpct_encode (fun x => is_u64 (snd x)).
Proof.
  unfold send_cmpct_dec. eapply newtype_codec; [apply dec2_codec; [apply (array_codec 1); lia|apply (array_codec 8); lia]| |].
  - intros [c v] W. cbn [snd] in W. exists ([bool_byte c], le_bytes 8 v). cbn [fst snd hd]. split; [split; [apply is_arr1; now destruct c|apply (le_arr 8)]|].
    rewrite le_val_bytes by exact W. rewrite le_val1. split; [now destruct c|reflexivity].
  - intros [c v] b [W1 W2] H. cbn [fst snd] in *. destruct (arr1 c W1) as (x & -> & X1 & X2 & X3). rewrite X2, X3 in H. destruct (le_back 8 v W2) as [A B].
    destruct (N.eqb_spec x 1) as [->|].
    + inv H. cbn [orb] in *. split; [exact B|]. unfold send_cmpct_encode. cbn [fst snd]. now rewrite A.
    + destruct (N.eqb_spec x 0) as [->|]; [|discriminate]. inv H. split; [exact B|]. unfold send_cmpct_encode. cbn [fst snd]. now rewrite A.
Qed.
Lemma rcncl_codec : codec rcncl_dec rcncl_encode (fun x => is_u32 (fst x) /\ is_u64 (snd x)).
Proof.
  unfold rcncl_dec. eapply newtype_codec; [apply dec2_codec; [apply (array_codec 4); lia|apply (array_codec 8); lia]| |].
  - intros [v s] [W1 W2]. cbn [fst snd] in *. exists (le_bytes 4 v, le_bytes 8 s). cbn [fst snd]. split; [split; [apply (le_arr 4)|apply (le_arr 8)]|].
    rewrite !le_val_bytes by assumption. split; reflexivity.
  - intros [v s] b [W1 W2] H. cbn [fst snd] in *. inv H. destruct (le_back 4 v W1) as [A B]. destruct (le_back 8 s W2) as [C D]. split; [split; [exact B|exact D]|]. unfold rcncl_encode. cbn [fst snd]. now rewrite A, C.
Qed.
Lemma str_len_ascii : forall s, Forall (fun c => c < 128) s -> str_len s = lenN s.
Proof.
  induction s as [|c s IH]; intros F; [reflexivity|]. inversion F; subst. cbn [str_len fold_right]. fold (str_len s). rewrite IH, lenN_cons by auto. unfold char_len.
  now replace (c <? 128) with true by lia.
Qed.
Lemma is_ascii_all : forall s, is_ascii s = true <-> Forall (fun c => c < 128) s.
Proof. intros s. unfold is_ascii. rewrite forallb_forall, Forall_forall. split; intros H x X; specialize (H x X); lia. Qed.
Lemma ascii_ok : forall s, Forall (fun c => c < 128) s -> bytes_ok s.
Proof. intros s F. eapply Forall_impl; [|exact F]. intros a H. unfold byte_ok. cbn beta in H. lia. Qed.
Lemma ascii_bytes : forall s, Forall (fun c => c < 128) s -> as_bytes s = s.
Proof. intros s F. symmetry. apply utf8_bytes. now apply ascii_utf8. Qed.
Definition feature_ok (f : str * bytes) : Prop := Forall (fun c => c < 128) (fst f) /\ 4 <= lenN (fst f) <= 80 /\ lenN (snd f) <= 512 /\ bytes_ok (snd f).
Lemma feature_id_codec : codec feature_id_dec (fun s => prefixed (as_bytes s)) (fun s => Forall (fun c => c < 128) s /\ 4 <= lenN s <= 80).
Proof.
  unfold feature_id_dec. eapply newtype_codec; [apply bytevec_codec; reflexivity| |].
  - intros s [W1 W2]. exists s. split; [split; [lia|now apply ascii_ok]|]. rewrite (from_utf8_complete s s) by (now apply ascii_utf8). unfold feature_id_of.
    rewrite (proj2 (is_ascii_all s) W1), str_len_ascii by exact W1. cbn [negb]. replace ((lenN s <? 4) || (80 <? lenN s)) with false by lia. split; [reflexivity|].
    rewrite ascii_bytes by exact W1. reflexivity.
  - intros b s [W1 W2] H. destruct (from_utf8 b) as [s'|] eqn:E; [|discriminate]. apply from_utf8_spec in E; [|exact W2]. unfold feature_id_of in H.
    destruct (is_ascii s') eqn:A; [|discriminate]. cbn [negb] in H. apply is_ascii_all in A. rewrite str_len_ascii in H by exact A.
    destruct ((lenN s' <? 4) || (80 <? lenN s')) eqn:L; [discriminate|]. inv H. apply utf8_bytes in E as ->. split; [|reflexivity]. split; [exact A|lia].
Qed.
Lemma feature_codec : codec feature_dec feature_encode feature_ok.
Proof.
  unfold feature_dec. eapply newtype_codec; [apply dec2_codec; [apply feature_id_codec|]| |].
  - unfold feature_data_dec. eapply (newtype_codec _ _ _ _ _ _ _ _ _ prefixed (is_bytevec 512)); [apply bytevec_codec; reflexivity| |].
    + intros b W. exists b. split; [exact W|split; reflexivity].
    + intros a b W H. inv H. split; [exact W|reflexivity].
  - intros [i d] (W1 & W2 & W3 & W4). cbn [fst snd] in *. exists (i, d). cbn [fst snd]. split; [split; [auto|split; auto]|split; reflexivity].
  - intros [i d] f [[W1 W2] [W3 W4]] H. cbn [fst snd] in *. inv H. split; [|reflexivity]. split; [exact W1|split; [exact W2|split; auto]].
Qed.
Lemma u8_codec : codec (newtype_dec (array_dec 1) (fun e : eof_err => e) (fun b => Ok (le_val b))) (fun x => [x]) is_u8.
Proof.
  eapply newtype_codec; [apply (array_codec 1); lia| |].
  - intros x W. exists [x]. split; [now apply is_arr1|]. rewrite le_val1. split; reflexivity.
  - intros b x W H. inv H. destruct (arr1 b W) as (x & -> & X1 & X2 & _). rewrite X2. split; [exact X1|reflexivity].
Qed.
Definition get_cf_ok (g : get_cf) : Prop := is_u8 (gc_type g) /\ is_u32 (gc_height g) /\ hash_ok (gc_stop g).
Lemma get_cf_codec : codec get_cf_dec get_cf_encode get_cf_ok.
Proof.
  unfold get_cf_dec. eapply newtype_codec; [apply dec3_codec; [apply (array_codec 1); lia|apply u32_codec|apply hash_codec]| |].
  - intros [t h s] (W1 & W2 & W3). cbn [gc_type gc_height gc_stop] in *. exists ([t], h, s). cbn [fst snd]. split; [split; [now apply is_arr1|split; [exact W2|exact W3]]|]. rewrite le_val1. split; reflexivity.
  - intros [[t h] s] b (W1 & W2 & W3) H. cbn [fst snd] in *. inv H. destruct (arr1 t W1) as (x & -> & X1 & X2 & _). rewrite X2. split; [split; [exact X1|split; [exact W2|exact W3]]|reflexivity].
Qed.
Definition cfilter_ok (c : cfilter) : Prop := is_u8 (cf_type c) /\ hash_ok (cf_block c) /\ blob_ok (cf_filter c).
Lemma cfilter_codec : codec cfilter_dec cfilter_encode cfilter_ok.
Proof.
  unfold cfilter_dec. eapply newtype_codec; [apply dec3_codec; [apply (array_codec 1); lia|apply hash_codec|apply bytevec_codec; reflexivity]| |].
  - intros [t h s] (W1 & W2 & W3). cbn [cf_type cf_block cf_filter] in *. exists ([t], h, s). cbn [fst snd]. split; [split; [now apply is_arr1|split; [exact W2|exact W3]]|]. rewrite le_val1. split; reflexivity.
  - intros [[t h] s] b (W1 & W2 & W3) H. cbn [fst snd] in *. inv H. destruct (arr1 t W1) as (x & -> & X1 & X2 & _). rewrite X2. split; [split; [exact X1|split; [exact W2|exact W3]]|reflexivity].
Qed.
Definition cfheaders_ok (c : cfheaders) : Prop := is_u8 (ch_type c) /\ hash_ok (ch_stop c) /\ hash_ok (ch_previous c) /\ list_ok hash_ok (ch_hashes c).
Lemma cfheaders_codec : codec cfheaders_dec cfheaders_encode cfheaders_ok.
Proof.
  unfold cfheaders_dec. eapply newtype_codec; [apply dec4_codec; [apply (array_codec 1); lia|apply hash_codec|apply hash_codec|apply vec_codec; [reflexivity|apply hash_codec]]| |].
  - intros [t h p s] (W1 & W2 & W3 & W4). cbn [ch_type ch_stop ch_previous ch_hashes] in *. exists ([t], h, p, s). cbn [fst snd]. split; [split; [now apply is_arr1|split; [exact W2|split; [exact W3|exact W4]]]|]. rewrite le_val1. split; reflexivity.
  - intros [[[t h] p] s] b (W1 & W2 & W3 & W4) H. cbn [fst snd] in *. inv H. destruct (arr1 t W1) as (x & -> & X1 & X2 & _). rewrite X2. split; [split; [exact X1|split; [exact W2|split; [exact W3|exact W4]]]|reflexivity].
Qed.
Lemma get_cfcheckpt_codec : codec get_cfcheckpt_dec get_cfcheckpt_encode (fun x => is_u8 (fst x) /\ hash_ok (snd x)).
Proof.
  unfold get_cfcheckpt_dec. eapply newtype_codec; [apply dec2_codec; [apply (array_codec 1); lia|apply hash_codec]| |].
  - intros [t s] [W1 W2]. cbn [fst snd] in *. exists ([t], s). cbn [fst snd]. split; [split; [now apply is_arr1|exact W2]|]. rewrite le_val1. split; reflexivity.
  - intros [t s] b [W1 W2] H. cbn [fst snd] in *. inv H. destruct (arr1 t W1) as (x & -> & X1 & X2 & _). rewrite X2. split; [split; [exact X1|exact W2]|reflexivity].
Qed.
Definition cfcheckpt_ok (c : cfcheckpt) : Prop := is_u8 (cc_type c) /\ hash_ok (cc_stop c) /\ list_ok hash_ok (cc_headers c).
Lemma cfcheckpt_codec : codec cfcheckpt_dec cfcheckpt_encode cfcheckpt_ok.
Proof.
  unfold cfcheckpt_dec. eapply newtype_codec; [apply dec3_codec; [apply (array_codec 1); lia|apply hash_codec|apply vec_codec; [reflexivity|apply hash_codec]]| |].
  - intros [t h s] (W1 & W2 & W3). cbn [cc_type cc_stop cc_headers] in *. exists ([t], h, s). cbn [fst snd]. split; [split; [now apply is_arr1|split; [exact W2|exact W3]]|]. rewrite le_val1. split; reflexivity.
  - intros [[t h] s] b (W1 & W2 & W3) H. cbn [fst snd] in *. inv H. destruct (arr1 t W1) as (x & -> & X1 & X2 & _). rewrite X2. split; [split; [exact X1|split; [exact W2|exact W3]]|reflexivity].
Qed.
Lemma net_header_codec : codec net_header_dec net_header_encode (fun x => header_ok (fst x) /\ is_u8 (snd x)).
Proof.
  unfold net_header_dec. eapply newtype_codec; [apply dec2_codec; [apply header_codec|apply (array_codec 1); lia]| |].
  - intros [h t] [W1 W2]. cbn [fst snd] in *. exists (h, [t]). cbn [fst snd]. split; [split; [exact W1|now apply is_arr1]|]. rewrite le_val1. split; reflexivity.
  - intros [h t] b [W1 W2] H. cbn [fst snd] in *. inv H. destruct (arr1 t W2) as (x & -> & X1 & X2 & _). rewrite X2. split; [split; [exact W1|exact X1]|reflexivity].
Qed.
(** *** FeeFilter *)
Lemma fee_filter_of_spec : forall kvb, fee_filter_of kvb = Ret (if 2100000000000000 <? kvb then Err (FfInvalid kvb) else Ok (1000 * Z.of_N kvb)%Z).
Proof.
  intros kvb. unfold fee_filter_of. destruct (N.ltb_spec 2100000000000000 kvb); [reflexivity|].
  change (feerate_from_sat_per_kvb 1) with (Ret 1000%Z). cbn [rbind]. unfold feerate_checked_mul, u64_checked_mul.
  replace (1000 * Z.of_N kvb <=? U64_MAX)%Z with true; [reflexivity|]. unfold U64_MAX. lia.
Qed.
Definition rate_ok (r : Z) : Prop := exists kvb, kvb <= 2100000000000000 /\ r = (1000 * Z.of_N kvb)%Z.
Lemma fee_enc : forall kvb, fee_filter_encode (1000 * Z.of_N kvb) = le_bytes 8 kvb.
Proof.
  intros kvb. unfold fee_filter_encode, feerate_to_kvb_ceil, u64_div_ceil. f_equal.
  rewrite Z.mul_comm. rewrite Z.div_mul, Z.mod_mul by lia. cbn. lia.
Qed.
Lemma fee_filter_codec : codec fee_filter_dec fee_filter_encode rate_ok.
Proof.
  unfold fee_filter_dec. eapply newtype_codec; [apply (array_codec 8); lia| |].
  - intros r (kvb & K1 & ->). exists (le_bytes 8 kvb). split; [apply (le_arr 8)|]. rewrite le_val_bytes, fee_filter_of_spec by (change (256 ^ N.of_nat 8) with 18446744073709551616; lia).
    replace (2100000000000000 <? kvb) with false by lia. split; [reflexivity|]. now rewrite fee_enc.
  - intros b r W H. rewrite fee_filter_of_spec in H. destruct (le_back 8 b W) as [A B]. destruct (N.ltb_spec 2100000000000000 (le_val b)); [discriminate|].
    assert (r = (1000 * Z.of_N (le_val b))%Z) as -> by congruence. split; [eexists; split; [exact H0|reflexivity]|]. now rewrite fee_enc, A.
Qed.
