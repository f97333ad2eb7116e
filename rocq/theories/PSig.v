(** C50: signatures with their sighash types. *)
From Coq Require Import String.
From Verif Require Import Base MDec LDec MText SText LText MKey MSighash LKey MSig SSig LSig.
Local Open Scope N_scope.

(** An ECDSA signature is read from DER bytes followed by the byte of one of the six standard types, and from nothing else; *)
Theorem C50_ecdsa_read : forall C b s,
  es_from_slice C b = Ok s <-> exists der, b = der ++ [type_byte (es_type C s)] /\ ec_from_der C der = Some (es_sig C s).
Proof. intros C b s. apply es_slice_iff. Qed.
(** the error names the cause, the type before the encoding; *)
Theorem C50_ecdsa_read_errors : forall C b e, es_from_slice C b = Err e ->
  match e with
  | EsEmpty => b = []
  | EsSighashType n => exists der, b = der ++ [n] /\ forall t, n <> type_byte t
  | EsInvalidDer => exists der t, b = der ++ [type_byte t] /\ ec_from_der C der = None
  end.
Proof.
  intros C b e. unfold es_from_slice. destruct (rev b) as [|ty fr] eqn:R.
  - intro H. assert (e = EsEmpty) as -> by congruence. rewrite <- (rev_involutive b), R. reflexivity.
  - apply rev_last in R. destruct (from_standard ty) as [t|n] eqn:T.
    + apply std_iff in T. destruct (ec_from_der C (rev fr)) eqn:D; [discriminate|]. intro H. assert (e = EsInvalidDer) as -> by congruence. exists (rev fr), t. rewrite <- T. auto.
    + intro H. assert (e = EsSighashType n) as -> by congruence. apply std_err in T. destruct T as [-> T]. exists (rev fr). auto.
Qed.
(** it is written without panic, within 73 bytes, both ways of writing agree, and it is read back. *)
Theorem C50_ecdsa_write : forall C s, ecurve_ok C ->
  exists x, es_serialize C s = Ret x /\ ss_bytes x = Ret (ecdsa_bytes C s) /\ ss_len x = lenN (ecdsa_bytes C s) /\ lenN (ecdsa_bytes C s) <= 73 /\
    es_to_vec C s = ecdsa_bytes C s /\ es_to_signature C x = Ret (Ok s) /\ es_from_slice C (ecdsa_bytes C s) = Ok s.
Proof.
  intros C s OK. destruct (es_ser_spec C OK s) as (x & E & B & L). exists x. split; [exact E|]. split; [exact B|].
  assert (LB : lenN (ecdsa_bytes C s) = lenN (ec_der C (es_sig C s)) + 1) by (unfold ecdsa_bytes; rewrite lenN_app; reflexivity). pose proof (e_len C OK (es_sig C s)) as LD.
  assert (R : es_from_slice C (ecdsa_bytes C s) = Ok s) by (apply es_slice_iff; exists (ec_der C (es_sig C s)); split; [reflexivity|apply (e_back C OK)]).
  split. { unfold ss_bytes in B. destruct (N.leb_spec (ss_len x) (lenN (ss_data x))) as [X|X]; [|discriminate]. assert (B' : takeN (ss_len x) (ss_data x) = ecdsa_bytes C s) by congruence. rewrite <- B', lenN_takeN. lia. }
  split; [lia|]. split; [unfold es_to_vec; rewrite as_u8_byte; reflexivity|]. split; [|exact R]. unfold es_to_signature. rewrite B. cbn [rbind]. now rewrite R.
Qed.
Theorem C50_ecdsa_injective : forall C s s', ecurve_ok C -> es_to_vec C s = es_to_vec C s' -> s = s'.
Proof.
  intros C s s' OK E. destruct (C50_ecdsa_write C s OK) as (x & _ & _ & _ & _ & V & _ & R). destruct (C50_ecdsa_write C s' OK) as (x' & _ & _ & _ & _ & V' & _ & R'). rewrite <- V, E, V' in R. congruence.
Qed.
(** Its text is the hexadecimal of those bytes; parsing takes either case and never confuses two signatures. *)
Theorem C50_ecdsa_text : forall C s upper, ecurve_ok C ->
  (exists t, es_display C upper s = Ret t /\ hex_of t (ecdsa_bytes C s) /\ es_from_str C t = Ok s /\ (upper = false -> map lower t = t)) /\
  (forall t x, es_from_str C t = Ok x <-> exists b, hex_of t b /\ es_from_slice C b = Ok x).
Proof.
  intros C s upper OK. assert (I : forall t x, es_from_str C t = Ok x <-> exists b, hex_of t b /\ es_from_slice C b = Ok x).
  { intros t x. unfold es_from_str. split.
    - destruct (decode_to_vec t) as [b|] eqn:D; [|discriminate]. apply vec_spec in D. destruct (es_from_slice C b) as [y|] eqn:F; [|discriminate]. intro H. assert (y = x) as -> by congruence. exists b. auto.
    - intros (b & H & F). apply vec_spec in H. now rewrite H, F. }
  split; [|exact I]. destruct (C50_ecdsa_write C s OK) as (x & E & B & _ & _ & _ & _ & R). exists (hex_bytes upper (ecdsa_bytes C s)). unfold es_display. rewrite E. cbn [rbind]. rewrite B. cbn [rbind]. split; [reflexivity|].
  assert (OB : bytes_ok (ecdsa_bytes C s)) by (unfold ecdsa_bytes; apply bytes_ok_app; split; [apply (e_bytes C OK)|constructor; [destruct (es_type C s); reflexivity|constructor]]).
  assert (H : hex_of (hex_bytes upper (ecdsa_bytes C s)) (ecdsa_bytes C s)) by now apply hex_bytes_of. split; [exact H|]. split; [apply I; eauto|]. intros ->. exact (lower_hex _ _ H).
Qed.

(** A taproot signature is 64 bytes, followed by a type byte exactly when the type is not the default one; nothing else is read, no panic. *)
Theorem C50_taproot_read : forall b s, ts_from_slice b <> Panic /\ (ts_from_slice b = Ret (Ok s) <-> lenN (ts_sig s) = 64 /\ b = tap_bytes s).
Proof. intros b s. split; [apply ts_slice_total|apply ts_slice_iff]. Qed.
Theorem C50_taproot_read_errors : forall b e, ts_from_slice b = Ret (Err e) ->
  match e with
  | TsSize n => n = lenN b /\ n <> 64 /\ n <> 65
  | TsSighashType n => exists r, b = r ++ [n] /\ lenN r = 64 /\ forall t, [n] <> tap_byte t
  end.
Proof.
  intros b e. unfold ts_from_slice. destruct (N.eqb_spec (lenN b) 64) as [L|L]; [discriminate|]. destruct (N.eqb_spec (lenN b) 65) as [L'|L'].
  2: { intro H. assert (e = TsSize (lenN b)) as -> by congruence. auto. }
  destruct (rev b) as [|ty fr] eqn:R; [discriminate|]. apply rev_last in R. assert (LF : lenN (rev fr) = 64) by (rewrite R, lenN_app in L'; change (lenN [ty]) with 1 in L'; lia).
  assert (NT : forall t, is_tdefault t = false -> [ty] = tap_byte t -> tap_from_consensus_u8 ty = Ok t) by (intros t D E; rewrite (tap_byte_u8 t D) in E; apply tap_iff; congruence).
  destruct (tap_from_consensus_u8 ty) as [t|n] eqn:T.
  - destruct (is_tdefault t) eqn:D; [|discriminate]. intro H. assert (e = TsSighashType 0) as -> by congruence. destruct t; try discriminate D. apply tap_iff in T. cbn [tap_u8] in T. exists (rev fr). rewrite <- T at 1. split; [exact R|]. split; [exact LF|].
    intros t E. destruct t; discriminate E.
  - intro H. assert (e = TsSighashType n) as -> by congruence. assert (n = ty) as ->.
    { clear -T. unfold tap_from_consensus_u8 in T. repeat match type of T with (if ?b then _ else _) = _ => destruct b; try discriminate end. congruence. }
    exists (rev fr). split; [exact R|]. split; [exact LF|]. intros t E. destruct (is_tdefault t) eqn:D; [destruct t; discriminate|]. specialize (NT t D E). discriminate NT.
Qed.
Theorem C50_taproot_write : forall s, lenN (ts_sig s) = 64 ->
  exists x, ts_serialize s = Ret x /\ ss_bytes x = Ret (tap_bytes s) /\ ss_len x = lenN (tap_bytes s) /\
    lenN (tap_bytes s) = (match ts_type s with TDefault => 64 | _ => 65 end) /\
    ts_to_vec s = tap_bytes s /\ ts_to_signature x = Ret (Ok s) /\ ts_from_slice (tap_bytes s) = Ret (Ok s).
Proof.
  intros s L. destruct (ts_ser_spec s L) as (x & E & B & LX & _). exists x. split; [exact E|]. split; [exact B|]. split; [exact LX|]. split; [rewrite (tap_len s L); destruct (ts_type s); reflexivity|].
  assert (R : ts_from_slice (tap_bytes s) = Ret (Ok s)) by (apply ts_slice_iff; auto). split; [|split; [|exact R]].
  - unfold ts_to_vec, tap_bytes. destruct (is_tdefault (ts_type s)) eqn:D; [destruct (ts_type s); try discriminate D; cbn [tap_byte]; now rewrite app_nil_r|now rewrite (tap_byte_u8 _ D)].
  - unfold ts_to_signature. rewrite B. cbn [rbind]. exact R.
Qed.
Theorem C50_taproot_injective : forall s s', lenN (ts_sig s) = 64 -> lenN (ts_sig s') = 64 -> ts_to_vec s = ts_to_vec s' -> s = s'.
Proof.
  intros s s' L L' E. destruct (C50_taproot_write s L) as (x & _ & _ & _ & _ & V & _ & R). destruct (C50_taproot_write s' L') as (x' & _ & _ & _ & _ & V' & _ & R'). rewrite <- V, E, V' in R. congruence.
Qed.
Theorem C50_taproot_text : forall s upper, lenN (ts_sig s) = 64 -> bytes_ok (ts_sig s) ->
  (exists t, ts_display upper s = Ret t /\ hex_of t (tap_bytes s) /\ ts_from_str t = Ret (Ok s) /\ (upper = false -> map lower t = t)) /\
  (forall t, ts_from_str t <> Panic) /\
  (forall t x, ts_from_str t = Ret (Ok x) <-> lenN (ts_sig x) = 64 /\ hex_of t (tap_bytes x)).
Proof.
  intros s upper L OK. assert (T : forall t, ts_from_str t <> Panic).
  { intro t. unfold ts_from_str. destruct (decode_to_array 64 t) as [b|[n|]]; [|destruct (decode_to_array 65 t) as [b|[m|]]|]; try discriminate.
    all: pose proof (ts_slice_total b) as X; destruct (ts_from_slice b); [discriminate|congruence]. }
  assert (I : forall t x, ts_from_str t = Ret (Ok x) <-> lenN (ts_sig x) = 64 /\ hex_of t (tap_bytes x)).
  { intros t x. split.
    - unfold ts_from_str. destruct (decode_to_array 64 t) as [b|[n|]] eqn:D; [|destruct (decode_to_array 65 t) as [b|[m|]] eqn:D'|]; try discriminate.
      + apply array_spec in D. destruct (ts_from_slice b) as [[y|]|] eqn:F; try discriminate. cbn [rbind]. intro H. assert (y = x) as -> by congruence. apply ts_slice_iff in F. destruct F as [F ->]. split; [exact F|apply D].
      + apply array_spec in D'. destruct (ts_from_slice b) as [[y|]|] eqn:F; try discriminate. cbn [rbind]. intro H. assert (y = x) as -> by congruence. apply ts_slice_iff in F. destruct F as [F ->]. split; [exact F|apply D'].
    - intros [LX H]. assert (F : ts_from_slice (tap_bytes x) = Ret (Ok x)) by (apply ts_slice_iff; auto). pose proof (tap_len x LX) as LT. unfold ts_from_str. destruct (is_tdefault (ts_type x)).
      + rewrite (proj2 (array_spec 64 t _) (conj H LT)), F. reflexivity.
      + destruct (decode_to_array 64 t) as [b|e] eqn:D; [apply array_spec in D; destruct D as [D LD]; apply hex_pairs_of in D, H; rewrite H in D; assert (b = tap_bytes x) as -> by congruence; lia|].
        apply array_err in D. destruct e as [m|]; [|destruct D as [D _]; rewrite (hex_len _ _ H), LT in D; discriminate D]. rewrite (proj2 (array_spec 65 t _) (conj H LT)), F. reflexivity. }
  split; [|split; [exact T|exact I]]. destruct (ts_ser_spec s L) as (x & E & B & LX & _). exists (hex_bytes upper (tap_bytes s)). unfold ts_display. rewrite E. cbn [rbind]. unfold ts_fmt. rewrite B. cbn [rbind]. rewrite LX.
  assert (OB : bytes_ok (tap_bytes s)) by (unfold tap_bytes; apply bytes_ok_app; split; [exact OK|destruct (ts_type s); constructor; reflexivity || constructor]).
  assert (H : hex_of (hex_bytes upper (tap_bytes s)) (tap_bytes s)) by now apply hex_bytes_of.
  split; [rewrite (tap_len s L); destruct (is_tdefault (ts_type s)); reflexivity|]. split; [exact H|]. split; [apply I; auto|]. intros ->. exact (lower_hex _ _ H).
Qed.
Theorem C50_taproot_text_errors : forall t e, ts_from_str t = Ret (Err e) ->
  match e with
  | TpLength n => n = str_len t /\ n <> 128 /\ n <> 130
  | TpInvalidChar => (str_len t = 128 \/ str_len t = 130) /\ ~ exists b, hex_of t b
  | TpDecode e => exists b, hex_of t b /\ ts_from_slice b = Ret (Err e)
  end.
Proof.
  intros t e. unfold ts_from_str. destruct (decode_to_array 64 t) as [b|[n|]] eqn:D; [|destruct (decode_to_array 65 t) as [b|[m|]] eqn:D'|]; intro H.
  - apply array_spec in D. destruct (ts_from_slice b) as [[y|y]|] eqn:F; try discriminate. cbn [rbind] in H. assert (e = TpDecode y) as -> by congruence. exists b. split; [apply D|exact F].
  - apply array_spec in D'. destruct (ts_from_slice b) as [[y|y]|] eqn:F; try discriminate. cbn [rbind] in H. assert (e = TpDecode y) as -> by congruence. exists b. split; [apply D'|exact F].
  - assert (e = TpLength (str_len t)) as -> by congruence. apply array_err in D, D'. destruct D as [-> D], D' as [-> D']. split; [reflexivity|]. split; [exact D|exact D'].
  - assert (e = TpInvalidChar) as -> by congruence. apply array_err in D'. destruct D' as [A B]. split; [right; exact A|exact B].
  - assert (e = TpInvalidChar) as -> by congruence. apply array_err in D. destruct D as [A B]. split; [left; exact A|exact B].
Qed.

(** The owning iterator over a serialised signature behaves, for every sequence of calls from either end, as a queue holding its bytes. *)
Theorem C50_iterator : forall s x cs, lenN (ts_sig s) = 64 -> ts_serialize s = Ret x ->
  exists i, iter_run (iter_new x) cs = Ret (fst (queue_run (tap_bytes s) cs), i) /\
    iter_as_slice i = Ret (snd (queue_run (tap_bytes s) cs)) /\ iter_len i = Ret (lenN (snd (queue_run (tap_bytes s) cs))).
Proof.
  intros s x cs L E. destruct (ts_ser_spec s L) as (x' & E' & B & LX & LD). assert (x' = x) as -> by congruence.
  destruct (view_run cs (iter_new x) (tap_bytes s) (view_new x _ B ltac:(rewrite LD; reflexivity) LX)) as (i & R & V). exists i. split; [exact R|]. split; [exact (view_slice _ _ V)|exact (view_len _ _ V)].
Qed.

(** A DER that keeps its bytes, a signature of each kind, and a history from both ends. *)
Definition toy_e : ecurve := mk_ecurve { n : N | (n <? 256) = true } (fun s => [48; proj1_sig s])
  (fun b => match b with [48; n] => match Sumbool.sumbool_of_bool (n <? 256) with left p => Some (exist _ n p) | right _ => None end | _ => None end).
Lemma toy_e_ok : ecurve_ok toy_e.
Proof.
  constructor; cbn [toy_e ec_sig ec_der ec_from_der].
  - intro s. vm_compute. discriminate.
  - intros [n P]. cbn [proj1_sig]. constructor; [reflexivity|]. constructor; [|constructor]. unfold byte_ok. lia.
  - intros [n P]. cbn [proj1_sig]. destruct (Sumbool.sumbool_of_bool (n <? 256)) as [Q|Q]; [|congruence]. f_equal. f_equal. apply Eqdep_dec.UIP_dec. decide equality.
Qed.
Example C50_nonvacuous :
  (exists t, es_display toy_e true (mk_esig toy_e (exist _ 171 eq_refl) ENoneAcp) = Ret t /\ es_from_str toy_e t = Ok (mk_esig toy_e (exist _ 171 eq_refl) ENoneAcp)) /\
  es_from_slice toy_e [48; 7; 4] = Err (EsSighashType 4) /\
  ts_from_slice (repeat 9 64 ++ [0]) = Ret (Err (TsSighashType 0)) /\
  (exists x, ts_serialize (mk_tsig (repeat 9 64) TSingle) = Ret x /\ exists i, iter_run (iter_new x) [CBack; CNth 62; CNext; CNext; CBack] = Ret ([Some 3; Some 9; Some 9; None; None], i)).
Proof.
  split; [|split; [reflexivity|split; [reflexivity|]]].
  - destruct (proj1 (C50_ecdsa_text toy_e (mk_esig toy_e (exist _ 171 eq_refl) ENoneAcp) true toy_e_ok)) as (t & E & _ & F & _). exists t. auto.
  - destruct (C50_taproot_write (mk_tsig (repeat 9 64) TSingle) eq_refl) as (x & E & _). exists x. split; [exact E|].
    destruct (C50_iterator (mk_tsig (repeat 9 64) TSingle) x [CBack; CNth 62; CNext; CNext; CBack] eq_refl E) as (i & R & _). exists i. exact R.
Qed.
Print Assumptions C50_ecdsa_read.
Print Assumptions C50_ecdsa_read_errors.
Print Assumptions C50_ecdsa_write.
Print Assumptions C50_ecdsa_injective.
Print Assumptions C50_ecdsa_text.
Print Assumptions C50_taproot_read.
Print Assumptions C50_taproot_read_errors.
Print Assumptions C50_taproot_write.
Print Assumptions C50_taproot_injective.
Print Assumptions C50_taproot_text.
Print Assumptions C50_taproot_text_errors.
Print Assumptions C50_iterator.
(** sighash_all appends the byte 1. *)
Theorem C50_sighash_all : forall C s, ecurve_ok C -> es_to_vec C (sighash_all C s) = ec_der C s ++ [1].
Proof. intros C s OK. destruct (C50_ecdsa_write C (sighash_all C s) OK) as (x & _ & _ & _ & _ & E & _). rewrite E. reflexivity. Qed.
Print Assumptions C50_sighash_all.
