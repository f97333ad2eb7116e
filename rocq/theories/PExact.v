(** C33: payloads are read exactly, neither longer nor shorter; alerts. *)
From Coq Require Import String.
From Verif Require Import Base MDec LDec LDec2 LDrive LBuilt LCompact LCodec MWitness LWitness MTx MText MP2p MP2pMsg SWire SP2p LP2p LP2p2 LP2p3 LP2p4 LP2p5 LP2p7 LP2p8 PP2p MAlert.
From Verif Require LBip32b LBip152 SSha2.
Local Open Scope N_scope.

Lemma reads_prefix : forall m m' p x, number m <> None -> number m = number m' -> reads m p -> reads m' (p ++ x) -> x = [].
Proof.
  intros m m' p x NN EN R R'. destruct (kind_of m) as [k|] eqn:K.
  - assert (K' : kind_of m' = Some k).
    { clear -K EN. destruct m as [[]| | | | | | | | | | | | | | | | | | | | | | | | | | | | | | | |c0 b0], m' as [[]| | | | | | | | | | | | | | | | | | | | | | | | | | | | | | | |c1 b1]; try discriminate K; try discriminate EN; exact K. }
    destruct (kind_rcodec k) as ([g den] & _ & RT & _). cbn [fst snd] in RT.
    pose proof (RT m p x (conj K R)) as A. pose proof (RT m' (p ++ x) [] (conj K' R')) as B. rewrite app_nil_r in B. rewrite A in B. congruence.
  - destruct m as [b| | | | | | | | | | | | | | | | | | | | | | | | | | | | | | | |c0 b0]; try discriminate K; [|now destruct NN].
    assert (p = []) as -> by exact R. cbn [app] in R'. clear R K.
    destruct b; (destruct m' as [[]| | | | | | | | | | | | | | | | | | | | | | | | | | | | | | | |c1 b1]; try discriminate EN; exact R').
Qed.
Fixpoint distinct (l : list str) : bool := match l with [] => true | x :: l' => negb (existsb (beqb x) l') && distinct l' end.
Lemma distinct_nodup : forall l, distinct l = true -> NoDup l.
Proof.
  induction l as [|x l IH]; intros H; [constructor|]. cbn [distinct] in H. apply andb_true_iff in H as [A B]. constructor; [|now apply IH].
  intros I. apply negb_true_iff in A. rewrite <- not_true_iff_false in A. apply A. apply existsb_exists. exists x. split; [exact I|now apply beqb_spec].
Qed.
Lemma known_nodup : NoDup known.
Proof. apply distinct_nodup. vm_compute. reflexivity. Qed.
Lemma named_number : forall m m' c, named m c -> named m' c -> number m = number m'.
Proof.
  intros m m' c H H'. unfold named in *.
  assert (FS : forall s s', field s c -> field s' c -> s = s').
  { intros s s' F F'. pose proof (field_str s c F) as A. pose proof (field_str s' c F') as B. congruence. }
  assert (ND : NoDup known) by (apply known_nodup).
  destruct (number m) as [i|], (number m') as [i'|].
  - destruct H as (s & K & F), H' as (s' & K' & F'). rewrite (FS s' s F' F) in K'. f_equal. eapply (proj1 (NoDup_nth_error known) ND); [apply nth_error_Some; now rewrite K|now rewrite K, K'].
  - destruct H as (s & K & F), H' as (p & _ & s' & F' & NI). rewrite (FS s' s F' F) in NI. apply nth_error_In in K. contradiction.
  - destruct H' as (s & K & F), H as (p & _ & s' & F' & NI). rewrite (FS s' s F' F) in NI. apply nth_error_In in K. contradiction.
  - reflexivity.
Qed.

Lemma app_split : forall (a a' b b' : bytes), lenN a = lenN a' -> a ++ b = a' ++ b' -> a = a' /\ b = b'.
Proof.
  induction a as [|x a IH]; intros [|y a'] b b' L E; try (rewrite ?lenN_cons, ?lenN_nil in L; lia); [auto|].
  rewrite !lenN_cons in L. injection E as -> E. destruct (IH a' b b') as [-> ->]; [lia|exact E|auto].
Qed.
Lemma le4_inj : forall a b, a < 2 ^ 32 -> b < 2 ^ 32 -> le_bytes 4 a = le_bytes 4 b -> a = b.
Proof. intros a b A B E. apply (f_equal le_val) in E. rewrite !le_val_bytes in E by assumption. exact E. Qed.
Lemma frame_inj : forall sha256d, (forall m, hash_ok (sha256d m)) -> forall magic magic' c c' p p' t t',
  lenN magic = 4 -> lenN magic' = 4 -> lenN c = 12 -> lenN c' = 12 -> lenN p < 2 ^ 32 -> lenN p' < 2 ^ 32 ->
  frame sha256d magic c p ++ t = frame sha256d magic' c' p' ++ t' -> magic = magic' /\ c = c' /\ p = p' /\ t = t'.
Proof.
  intros sha256d HS magic magic' c c' p p' t t' M M' C C' P P' E. unfold frame in E. rewrite <- !app_assoc in E.
  apply app_split in E as [-> E]; [|congruence]. apply app_split in E as [-> E]; [|congruence].
  apply app_split in E as [EL E]; [|unfold lenN; now rewrite !le_bytes_length]. apply le4_inj in EL; [|assumption..].
  apply app_split in E as [_ E]; [|destruct (hash4 _ (HS p)) as [A _], (hash4 _ (HS p')) as [B _]; congruence].
  apply app_split in E as [-> ->]; [|exact EL]. auto.
Qed.

(** A frame that is right in all respects, except that its payload is that of a message and something more, or that of a
    message without its end, is not read: not as that message, not as another one, not in part. *)
Definition unread (sha256d : bytes -> bytes) (magic c q : bytes) : Prop :=
  forall t y r, bytes_ok t -> decode_from_slice_unbounded (v1_dec sha256d) (frame sha256d magic c q ++ t) <> Ret (Ok y, r).
Lemma unread_other : forall sha256d, (forall m, hash_ok (sha256d m)) -> forall magic m c q, fixed 4 magic -> named m c ->
  bytes_ok q -> lenN q < 2 ^ 32 -> (forall m', number m' = number m -> ~ reads m' q) -> unread sha256d magic c q.
Proof.
  intros sha256d HS magic m c q [M MB] Nm QB QL NR t y r TB D. destruct (named_field m c Nm) as [s F]. destruct (field_ok s c F) as [CL CB].
  apply C33_v1_slice in D; [|exact HS|].
  - destruct D as (magic' & c' & p' & m' & (E & M' & P' & Nm' & R') & _). destruct (named_field m' c' Nm') as [s' F']. destruct (field_ok s' c' F') as [CL' _].
    apply frame_inj in E; try assumption; [|change (2 ^ 32) with 4294967296; lia]. destruct E as (<- & <- & <- & _).
    exact (NR m' (named_number m' m c Nm' Nm) R').
  - unfold frame. rewrite !bytes_ok_app. destruct (hash4 _ (HS q)) as [_ HB]. repeat (split; try assumption). apply le_bytes_ok.
Qed.
Theorem C33_extra : forall sha256d, (forall m, hash_ok (sha256d m)) -> forall magic m c p x, fixed 4 magic -> named m c ->
  (forall c' p', m <> MUnknown c' p') -> reads m p -> bytes_ok (p ++ x) -> lenN (p ++ x) < 2 ^ 32 -> x <> [] ->
  unread sha256d magic c (p ++ x).
Proof.
  intros sha256d HS magic m c p x MF Nm NU R B L X. apply (unread_other sha256d HS magic m c (p ++ x) MF Nm B L).
  intros m' EN R'. apply X. apply (reads_prefix m m' p x); [|auto..].
  intros NN. unfold named in Nm. rewrite NN in Nm. destruct Nm as (p0 & E & _). exact (NU _ _ E).
Qed.
Theorem C33_cut : forall sha256d, (forall m, hash_ok (sha256d m)) -> forall magic m c p x, fixed 4 magic -> named m c ->
  (forall c' p', m <> MUnknown c' p') -> reads m (p ++ x) -> bytes_ok p -> lenN p < 2 ^ 32 -> x <> [] ->
  unread sha256d magic c p.
Proof.
  intros sha256d HS magic m c p x MF Nm NU R B L X. apply (unread_other sha256d HS magic m c p MF Nm B L).
  intros m' EN R'. apply X. apply (reads_prefix m' m p x); [|auto..].
  intros NN. rewrite EN in NN. unfold named in Nm. rewrite NN in Nm. destruct Nm as (p0 & E & _). exact (NU _ _ E).
Qed.

(** BIP37 made the last byte of the version message, the relay flag, optional: a node that leaves it out is not understood. *)
Theorem C33_no_relay_refuted : forall sha256d, (forall m, hash_ok (sha256d m)) -> forall magic v p flag, fixed 4 magic ->
  reads (MVersion v) (p ++ [flag]) -> bytes_ok p -> lenN p < 2 ^ 32 -> unread sha256d magic (pad12 (lit "version")) p.
Proof.
  intros sha256d HS magic v p flag MF R B L. apply (C33_cut sha256d HS magic (MVersion v) (pad12 (lit "version")) p [flag]); auto; [|discriminate|discriminate].
  exists (lit "version"). split; [reflexivity|]. apply known_field. vm_compute. tauto.
Qed.

(** * Alerts *)
(** On the network an alert is the text of the alert and a signature of it, both as length-prefixed strings.  Such a message
    is never read, whatever text and signature it has. *)
Theorem C33_signed_alert_refuted : forall sha256d, (forall m, hash_ok (sha256d m)) -> forall magic text signature, fixed 4 magic ->
  blob_ok text -> bytes_ok signature -> lenN (wire_bytes text ++ wire_bytes signature) < 2 ^ 32 ->
  unread sha256d magic (pad12 (lit "alert")) (wire_bytes text ++ wire_bytes signature).
Proof.
  intros sha256d HS magic text sg MF T SB L.
  apply (C33_extra sha256d HS magic (MAlert text) (pad12 (lit "alert")) (wire_bytes text) (wire_bytes sg)); auto; try discriminate.
  - exists (lit "alert"). split; [reflexivity|]. apply known_field. vm_compute. tauto.
  - split; [exact T|reflexivity].
  - destruct T as [_ TB]. rewrite bytes_ok_app. unfold wire_bytes. rewrite !bytes_ok_app, <- !LWire.wire_compact_eq. repeat split; auto; apply LCompact.cs_encode_ok.
  - unfold wire_bytes. intros E. apply (f_equal lenN) in E. rewrite lenN_app, lenN_nil, <- LWire.wire_compact_eq in E.
    pose proof (LCompact.cs_encode_ne (lenN sg)) as Z. destruct (cs_encode (lenN sg)); [now apply Z|rewrite lenN_cons in E; lia].
Qed.

(** The final alert: what each of its fields says, in the format of the alert system.  No later alert can replace it (its
    number is the highest, it cancels all others and never expires), it addresses every version and has top priority. *)
Record alert_text := { a_version : N; a_relay_until : N; a_expires : N; a_id : N; a_cancel : N; a_also_cancel : list N; a_min_version : N;
  a_max_version : N; a_agents : list str; a_priority : N; a_comment : str; a_status_bar : str; a_reserved : str }.
Definition write_alert (a : alert_text) : bytes :=
  le_bytes 4 (a_version a) ++ le_bytes 8 (a_relay_until a) ++ le_bytes 8 (a_expires a) ++ le_bytes 4 (a_id a) ++ le_bytes 4 (a_cancel a) ++
  wire_list (le_bytes 4) (a_also_cancel a) ++ le_bytes 4 (a_min_version a) ++ le_bytes 4 (a_max_version a) ++ wire_list wire_bytes (a_agents a) ++
  le_bytes 4 (a_priority a) ++ wire_bytes (a_comment a) ++ wire_bytes (a_status_bar a) ++ wire_bytes (a_reserved a).
Theorem C33_final_alert : 
  final_alert = write_alert {| a_version := 1; a_relay_until := 0; a_expires := 2 ^ 31 - 1; a_id := 2 ^ 31 - 1; a_cancel := 2 ^ 31 - 2;
    a_also_cancel := [2 ^ 31 - 1]; a_min_version := 0; a_max_version := 2 ^ 31 - 1; a_agents := []; a_priority := 2 ^ 31 - 1; a_comment := [];
    a_status_bar := lit "URGENT: Alert key compromised, upgrade required"; a_reserved := [] |} /\
  (forall a, is_final_alert a = true <-> a = final_alert) /\
  (forall sha256d, (forall m, hash_ok (sha256d m)) -> forall magic, fixed 4 magic -> exists x, v1_new sha256d magic (MAlert final_alert) = Ret x /\
    v1_encode x = frame sha256d magic (pad12 (lit "alert")) (wire_bytes final_alert) /\
    forall cs r, bytes_ok r -> concat cs = v1_encode x ++ r -> feed_chunks (v1_dec sha256d) (init (v1_dec sha256d)) cs = RDone x r).
Proof.
  split; [vm_compute; reflexivity|]. split; [intros a; apply beqb_spec|]. intros sha256d HS magic MF.
  assert (Nm : named (MAlert final_alert) (pad12 (lit "alert"))) by (exists (lit "alert"); split; [reflexivity|]; apply known_field; vm_compute; tauto).
  assert (R : reads (MAlert final_alert) (wire_bytes final_alert)).
  { split; [|reflexivity]. split; [vm_compute; discriminate|]. repeat constructor; vm_compute; reflexivity. }
  destruct (C33_v1_encode sha256d magic _ _ _ Nm R) as (x & E1 & E2 & _ & _ & E3); [vm_compute; discriminate|].
  rewrite E3 in E2 by discriminate.
  destruct (C33_v1_round_trip sha256d HS magic _ _ _ MF Nm R) as (x' & E1' & _ & RT); [rewrite E3 by discriminate; apply LBip152.bytes_okb; vm_compute; reflexivity|vm_compute; discriminate|].
  exists x. assert (x' = x) as -> by congruence. auto.
Qed.
(** instances *)
Example C33_exact_ex : unread SSha2.SHA256d [249; 190; 180; 217] (pad12 (lit "ping")) (le_bytes 8 7 ++ [0]) /\
  unread SSha2.SHA256d [249; 190; 180; 217] (pad12 (lit "version")) (removelast odd_relay) /\
  unread SSha2.SHA256d [249; 190; 180; 217] (pad12 (lit "alert")) (wire_bytes final_alert ++ wire_bytes (repeat 48 70)).
Proof.
  assert (MF : fixed 4 [249; 190; 180; 217]) by (split; [reflexivity|repeat constructor]).
  split; [|split].
  - apply (C33_extra SSha2.SHA256d LBip32b.SHA256d_ok _ (MPing 7) _ (le_bytes 8 7) [0] MF); try discriminate; try reflexivity.
    + exists (lit "ping"). split; [reflexivity|]. apply known_field. vm_compute. tauto.
    + split; vm_compute; reflexivity.
    + apply LBip152.bytes_okb. vm_compute. reflexivity.
  - destruct odd_reads as [R B]. apply (C33_no_relay_refuted SSha2.SHA256d LBip32b.SHA256d_ok _ some_version _ (last odd_relay 0)); [exact MF| |apply LBip152.bytes_okb; vm_compute; reflexivity|vm_compute; reflexivity].
    rewrite <- app_removelast_last by (vm_compute; discriminate). exact R.
  - apply (C33_signed_alert_refuted SSha2.SHA256d LBip32b.SHA256d_ok); auto; try (vm_compute; reflexivity).
    + split; [vm_compute; discriminate|]. repeat constructor; vm_compute; reflexivity.
    + apply Forall_forall. intros y Y. apply repeat_spec in Y. subst. reflexivity.
Qed.
Print Assumptions C33_extra.
Print Assumptions C33_cut.
Print Assumptions C33_no_relay_refuted.
Print Assumptions C33_signed_alert_refuted.
Print Assumptions C33_final_alert.
