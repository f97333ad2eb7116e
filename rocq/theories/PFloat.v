(** C62: amounts and floating point; satoshis in hexadecimal. *)
From Coq Require Import String.
From Verif Require PAmount.
From Verif Require Import Base LDec MText SText LText PText MAmount MAmountText SAmount SAmountText LAmountText PAmountText MFloat SFloat LFloat.
Local Open Scope list_scope.
Local Open Scope N_scope.

Lemma sup : forall a, valid_signed a <-> (Z.abs a <= 2100000000000000)%Z.
Proof. intro a. unfold valid_signed, SUPPLY. lia. Qed.
Lemma amount_signed : forall a, valid_amount a -> valid_signed a.
Proof. intro a. unfold valid_amount, valid_signed, SUPPLY. lia. Qed.
Lemma nearest_fun : forall v k m s m' s', nearest v k m s -> nearest v k m' s' -> m = m' /\ s = s'.
Proof. intros v k m s m' s' A B. apply nearest_round with (neg := false) in A, B. rewrite A in B. injection B as -> ->. auto. Qed.

(** ** From amounts to floating point: the nearest f64, without panic; a decimal has only one. *)
Theorem C62_to_float : forall a d, valid_signed a ->
  exists x, signed_to_float_in a d = Ret x /\ closest_f64 a (places d) x /\ is_f64 x /\ (valid_amount a -> amount_to_float_in a d = Ret x).
Proof.
  intros a d V. apply sup in V. destruct (to_float_signed a d V) as (m & s & E & NR & EA). exists (Fin (a <? 0)%Z m s).
  split; [exact E|]. split; [exists m, s; auto|]. split; [apply NR|]. intros [P _]. auto.
Qed.
Theorem C62_closest_unique : forall a k x y, closest_f64 a k x -> closest_f64 a k y -> x = y.
Proof. intros a k x y (m & s & -> & A) (m' & s' & -> & B). now destruct (nearest_fun _ _ _ _ _ _ A B) as [-> ->]. Qed.
Theorem C62_to_btc : forall a, amount_to_btc a = amount_to_float_in a Bitcoin /\ signed_to_btc a = signed_to_float_in a Bitcoin.
Proof. intro. split; reflexivity. Qed.

(** what is printed for the f64 of an amount is a text of that amount *)
Lemma printed : forall a d m s u v k, valid_signed a -> nearest (Z.to_N (Z.abs a)) (places d) m s -> plain u v k -> nearest v k m s ->
  (forall n v' k', nearest v' k' m s -> significant n v' -> significant n v) ->
  shown (places d) (Z.to_N (Z.abs a)) None u /\ amount_text d u (Z.to_N (Z.abs a)) /\ str_len u <= 40.
Proof.
  intros a d m s u v k V NA PL NV SH. apply sup in V.
  assert (X : shown (places d) (Z.to_N (Z.abs a)) None u) by (apply (print_amount _ _ m s _ v k); auto; [lia|apply places8]).
  split; [exact X|]. apply shown_text in X as (T & L & _); auto. change (2 ^ 63) with 9223372036854775808. lia.
Qed.
Lemma zero_zero : forall k, nearest 0 k 0 0.
Proof. intro k. destruct (round_nearest 0 k false) as (m & s & _ & H); [reflexivity|]. now destruct (nearest_zero _ _ _ H) as [-> ->]. Qed.
Lemma not_number : forall d x t, (exists b, x = Inf b) \/ x = NaN -> prints x t -> exists e e', amount_from_str_in t d = Ret (Err e) /\ signed_from_str_in t d = Ret (Err e').
Proof.
  intros d x t [[b ->]| ->] E; cbn [prints] in E; subst t; [destruct b|]; destruct d; eexists; eexists; split; vm_compute; reflexivity.
Qed.

(** ** From floating point to amounts: exactly the f64 numbers of amounts are accepted; [signed_from_float_in] also takes minus zero. *)
Theorem C62_from_float_signed : forall show x d a, prints x (show x) ->
  (signed_from_float_in show x d = Ret (Ok a) <-> valid_signed a /\ (signed_to_float_in a d = Ret x \/ (x = minus_zero /\ a = 0%Z))).
Proof.
  intros show x d a PR. unfold signed_from_float_in. remember (show x) as t eqn:ET. clear ET. rewrite signed_parse_iff. split.
  - intros (L & T & B). split; [now apply sup|]. destruct x as [|b|neg m s].
    1: destruct (not_number d NaN t (or_intror eq_refl) PR) as (e & e' & _ & X).
    2: destruct (not_number d (Inf b) t (or_introl (ex_intro _ b eq_refl)) PR) as (e & e' & _ & X).
    1,2: exfalso; assert (Y : signed_from_str_in t d = Ret (Ok a)) by (apply signed_parse_iff; auto); congruence.
    destruct PR as (u & v & k & -> & PL & NV & _). destruct (read_plain u v k PL) as (_ & HD & NE).
    destruct (to_float_signed a d B) as (m' & s' & E & NR & _).
    assert (G : exists w, amount_text d u w /\ a = if neg then (- Z.of_N w)%Z else Z.of_N w).
    { destruct neg; cbn [app] in T; destruct T as [(w & T & EA)|(t & w & ET & T & EA)].
      - exfalso. apply amount_text_head in T. discriminate.
      - injection ET as <-. eauto.
      - eauto.
      - exfalso. rewrite ET in HD. now apply HD. }
    destruct G as (w & TW & EA). pose proof (amount_plain _ _ _ _ _ PL TW) as EQ.
    assert (EW : Z.to_N (Z.abs a) = w) by (destruct neg; lia). rewrite EW in NR.
    assert (NW : nearest w (places d) m s) by (apply (nearest_same v k); auto).
    destruct (nearest_fun _ _ _ _ _ _ NW NR) as [<- <-]. destruct neg.
    + destruct (N.eq_dec w 0) as [->|NZ].
      * right. destruct (nearest_zero _ _ _ NW) as [-> ->]. split; [reflexivity|lia].
      * left. rewrite E. do 2 f_equal. lia.
    + left. rewrite E. do 2 f_equal. lia.
  - intros (V & H). pose proof V as B. apply sup in B. destruct H as [E|[-> ->]].
    + destruct (to_float_signed a d B) as (m & s & E' & NR & _). rewrite E in E'. injection E' as ->.
      destruct PR as (u & v & k & -> & PL & NV & SH). destruct (printed a d m s u v k V NR PL NV SH) as (_ & T & L).
      split; [destruct (a <? 0)%Z; cbn [app]; [rewrite str_len_cons; change (char_len 45) with 1|]; lia|]. split; [|exact B].
      destruct (Z.ltb_spec a 0); [right|left].
      * exists u, (Z.to_N (Z.abs a)). repeat split; auto. lia.
      * exists (Z.to_N (Z.abs a)). split; [exact T|lia].
    + destruct PR as (u & v & k & -> & PL & NV & SH). destruct (printed 0 d 0 0 u v k V (zero_zero _) PL NV SH) as (_ & T & L). cbn [app].
      split; [rewrite str_len_cons; change (char_len 45) with 1; lia|]. split; [|exact B]. right. exists u, 0. repeat split; auto.
Qed.
Theorem C62_from_float : forall show x d a, prints x (show x) ->
  (amount_from_float_in show x d = Ret (Ok a) <-> valid_amount a /\ amount_to_float_in a d = Ret x).
Proof.
  intros show x d a PR. unfold amount_from_float_in. destruct (negative x) eqn:NG.
  - split; [discriminate|]. intros (V & E). exfalso. pose proof (amount_signed a V) as VS. apply sup in VS.
    destruct (to_float_signed a d VS) as (m & s & _ & _ & EA). destruct V as [P _]. rewrite (EA P) in E. injection E as <-.
    cbn [negative] in NG. destruct (Z.ltb_spec a 0); [lia|discriminate].
  - remember (show x) as t eqn:ET. clear ET. rewrite amount_parse_iff. unfold MAXSAT. split.
    + intros (L & w & T & B & ->). assert (V : valid_amount (Z.of_N w)) by (unfold valid_amount, SUPPLY; lia). split; [exact V|].
      pose proof (amount_signed _ V) as VS.
      assert (S0 : signed_from_float_in (fun _ => t) x d = Ret (Ok (Z.of_N w))).
      { apply signed_parse_iff. split; [exact L|]. split; [left; eauto|exact (proj1 (sup _) VS)]. }
      apply C62_from_float_signed in S0; [|exact PR]. destruct S0 as (_ & [E|[-> EZ]]).
      * apply sup in VS. destruct (to_float_signed _ d VS) as (m & s & E' & _ & EA). rewrite E in E'. injection E' as ->. apply EA. lia.
      * exfalso. destruct PR as (u & v & k & -> & _). apply amount_text_head in T. discriminate.
    + intros (V & E). pose proof (amount_signed a V) as VS. pose proof VS as B. apply sup in B.
      destruct (to_float_signed a d B) as (m & s & E' & NR & EA). destruct V as [P Q]. rewrite (EA P) in E. injection E as <-.
      destruct PR as (u & v & k & -> & PL & NV & SH). destruct (printed a d m s u v k VS NR PL NV SH) as (_ & T & L).
      destruct (Z.ltb_spec a 0); [lia|]. cbn [app]. split; [lia|]. exists (Z.to_N (Z.abs a)). split; [exact T|]. unfold SUPPLY in Q. lia.
Qed.
(** Hence every amount survives the way through floating point, in every denomination, ... *)
Theorem C62_round_trip : forall show a d,
  (valid_amount a -> exists x, amount_to_float_in a d = Ret x /\ (prints x (show x) -> amount_from_float_in show x d = Ret (Ok a))) /\
  (valid_signed a -> exists x, signed_to_float_in a d = Ret x /\ (prints x (show x) -> signed_from_float_in show x d = Ret (Ok a))).
Proof.
  intros show a d. split; intro V.
  - destruct (C62_to_float a d (amount_signed a V)) as (x & _ & _ & _ & E). exists x. split; [auto|]. intro P. apply C62_from_float; auto.
  - destruct (C62_to_float a d V) as (x & E & _). exists x. split; [auto|]. intro P. apply C62_from_float_signed; auto.
Qed.
(** ... the text printed for the f64 of an amount is the amount's own text, and that is a possible one, ... *)
Theorem C62_prints : forall a d x, valid_signed a -> signed_to_float_in a d = Ret x ->
  exists t, signed_to_string_in a d = Ret t /\ forall t', prints x t' <-> t' = t.
Proof.
  intros a d x V E. pose proof V as B. apply sup in B. destruct (to_float_signed a d B) as (m & s & E' & NR & _). rewrite E in E'. injection E' as ->.
  destruct (signed_string a d B) as (t & SH & ES & _). exists ((if (a <? 0)%Z then [45] else []) ++ t). split; [exact ES|].
  apply shown_plain in SH as (v & k & PL & EV). pose proof (nearest_same _ _ _ _ m s EV NR) as NV.
  assert (AB : Z.to_N (Z.abs a) < 2251799813685248) by lia.
  intro t'. split.
  - intros (u & v' & k' & -> & PL' & NV' & SH'). f_equal. apply (plain_unique u v' k' t v k); auto.
    pose proof (print_amount _ _ m s u v' k' AB (places8 d) NR PL' NV' SH') as X. apply shown_plain in X as (v2 & k2 & PL2 & EV2).
    destruct (read_plain _ _ _ PL2) as (R2 & _). destruct (read_plain _ _ _ PL') as (R1 & _). rewrite R1 in R2. injection R2 as <- <-.
    apply N.mul_cancel_r with (p := 10 ^ places d); [pose proof (pow10_gt0 (places d)); lia|].
    replace (v' * 10 ^ k * 10 ^ places d) with (v' * 10 ^ places d * 10 ^ k) by lia. rewrite <- EV2.
    replace (v * 10 ^ k' * 10 ^ places d) with (v * 10 ^ places d * 10 ^ k') by lia. rewrite <- EV. lia.
  - intros ->. exists t, v, k. split; [reflexivity|]. split; [exact PL|]. split; [exact NV|].
    exact (amount_short _ _ m s v k AB (places8 d) NR EV).
Qed.
(** ... and the order of amounts is the order of their f64 numbers: different amounts stay different. *)
Lemma nearest_inj : forall v w p m s, v < 2251799813685248 -> w < 2251799813685248 -> p <= 8 -> nearest v p m s -> nearest w p m s -> v = w.
Proof.
  assert (H : forall v w p m s, v < 2251799813685248 -> p <= 8 -> 0 < v -> nearest v p m s -> nearest w p m s -> v = w).
  { intros v w p m s A P V0 NV NW. pose proof (close v p w p m s V0 P NV NW) as C. pose proof (pow10_gt0 p) as T.
    generalize dependent (10 ^ p). intros x C X. destruct (N.eq_dec v w); [auto|]. exfalso. clear -A X C n. nia. }
  intros v w p m s A B P NV NW. destruct (N.eq_dec v 0) as [->|]; [destruct (N.eq_dec w 0) as [->|]; [auto|]; symmetry|]; apply (H _ _ p m s); auto; lia.
Qed.
Lemma nearest_order : forall v w p m s m' s', v < w -> w < 2251799813685248 -> p <= 8 -> nearest v p m s -> nearest w p m' s' -> m * 2 ^ s < m' * 2 ^ s'.
Proof.
  intros v w p m s m' s' L B P NV NW.
  assert (NE : (m', s') <> (m, s)). { intro E. injection E as -> ->. assert (v = w) by (apply (nearest_inj v w p m s); auto; lia). lia. }
  assert (NE2 : m * 2 ^ s <> m' * 2 ^ s').
  { intro E. destruct NV as (D1 & _). destruct NW as (D2 & _). apply double_norm in D1 as [D1 _]. apply double_norm in D2 as [D2 _].
    destruct (norm_inj _ _ _ _ D1 D2 E) as [-> ->]. now apply NE. }
  destruct NV as (DV & _ & NV). destruct NW as (DW & _ & NW). specialize (NV m' s' DW NE). specialize (NW m s DV (not_eq_sym NE)).
  assert (X : (off v p m s <= off v p m' s')%Z) by lia. assert (Y : (off w p m' s' <= off w p m s)%Z) by lia. clear NV NW.
  unfold off in X, Y. assert (U : 0 < 2 ^ 1074) by apply pow2_pos. pose proof (pow10_gt0 p) as T. generalize dependent (2 ^ 1074). intros u X Y U.
  assert (VW : v * u < w * u) by (apply N.mul_lt_mono_pos_r; auto).
  destruct (N.lt_trichotomy (m * 2 ^ s) (m' * 2 ^ s')) as [G|[G|G]]; [auto|congruence|exfalso].
  assert (G2 : m' * 2 ^ s' * 10 ^ p < m * 2 ^ s * 10 ^ p) by (apply N.mul_lt_mono_pos_r; auto).
  clear -X Y VW G2. lia.
Qed.
Theorem C62_ordered : forall a b d x y, valid_signed a -> valid_signed b -> signed_to_float_in a d = Ret x -> signed_to_float_in b d = Ret y ->
  ((a < b)%Z <-> less x y) /\ (a = b <-> x = y).
Proof.
  assert (H : forall a b d m s m' s', valid_signed a -> valid_signed b -> nearest (Z.to_N (Z.abs a)) (places d) m s -> nearest (Z.to_N (Z.abs b)) (places d) m' s' ->
    (a < b)%Z -> (signed_value (a <? 0)%Z m s < signed_value (b <? 0)%Z m' s')%Z).
  { intros a b d m s m' s' VA VB NA NB L. apply sup in VA, VB. unfold signed_value.
    pose proof (zero_zero (places d)) as Z0.
    destruct (Z.ltb_spec a 0), (Z.ltb_spec b 0); try lia.
    - assert (X : m' * 2 ^ s' < m * 2 ^ s) by (apply (nearest_order (Z.to_N (Z.abs b)) (Z.to_N (Z.abs a)) (places d)); auto; [lia|lia|apply places8]). lia.
    - assert (X : 0 * 2 ^ 0 < m * 2 ^ s) by (apply (nearest_order 0 (Z.to_N (Z.abs a)) (places d)); auto; [lia|lia|apply places8]). lia.
    - assert (X : m * 2 ^ s < m' * 2 ^ s') by (apply (nearest_order (Z.to_N (Z.abs a)) (Z.to_N (Z.abs b)) (places d)); auto; [lia|lia|apply places8]). lia. }
  intros a b d x y VA VB EA EB.
  destruct (to_float_signed a d (proj1 (sup a) VA)) as (m & s & E1 & NA & _). rewrite EA in E1. injection E1 as ->.
  destruct (to_float_signed b d (proj1 (sup b) VB)) as (m' & s' & E2 & NB & _). rewrite EB in E2. injection E2 as ->.
  assert (I : a = b -> Fin (a <? 0)%Z m s = Fin (b <? 0)%Z m' s').
  { intros ->. rewrite EA in EB. injection EB as -> ->. reflexivity. }
  assert (J : Fin (a <? 0)%Z m s = Fin (b <? 0)%Z m' s' -> signed_value (a <? 0)%Z m s = signed_value (b <? 0)%Z m' s').
  { intro E. exact (f_equal (fun x => match x with Fin n m s => signed_value n m s | _ => 0%Z end) E). }
  pose proof (H a b d m s m' s' VA VB NA NB) as X. pose proof (H b a d m' s' m s VB VA NB NA) as Y. cbn [less].
  split; split; auto; intro G.
  - destruct (Z.lt_trichotomy a b) as [K|[K|K]]; [auto|specialize (J (I K)); lia|specialize (Y K); lia].
  - specialize (J G). destruct (Z.lt_trichotomy a b) as [K|[K|K]]; [specialize (X K); lia|auto|specialize (Y K); lia].
Qed.
(** Nothing panics; negative numbers, infinities and NaN are refused. *)
Theorem C62_total : forall show x d, prints x (show x) ->
  (exists r, amount_from_float_in show x d = Ret r) /\ (exists r, signed_from_float_in show x d = Ret r) /\
  (less x (Fin false 0 0) -> amount_from_float_in show x d = Ret (Err (PaOutOfRange {| is_signed := false; is_greater_than_max := false |}))) /\
  ((x = NaN \/ exists neg, x = Inf neg) -> (exists e, amount_from_float_in show x d = Ret (Err e)) /\ exists e, signed_from_float_in show x d = Ret (Err e)).
Proof.
  intros show x d PR. unfold amount_from_float_in, signed_from_float_in. split; [destruct (negative x); [eauto|apply amount_total]|].
  split; [apply signed_total|]. split.
  - intro L. replace (negative x) with true; [reflexivity|]. destruct x as [|b|[] m s]; cbn [less signed_value negative andb] in *; try tauto; [|lia].
    destruct (N.eqb_spec m 0) as [->|]; [cbn in L; lia|reflexivity].
  - intros H. destruct (not_number d x (show x)) as (e & e' & E1 & E2); [tauto|exact PR|]. split; [|eauto]. destruct (negative x); eauto.
Qed.
(** Minus zero is the number zero, but [Amount] refuses it. *)
Theorem C62_minus_zero_refuted : exists x zero, (~ less x zero /\ ~ less zero x) /\ prints x (lit "-0") /\ prints zero (lit "0") /\ forall show d, show x = lit "-0" -> show zero = lit "0" ->
  amount_from_float_in show zero d = Ret (Ok 0%Z) /\ signed_from_float_in show x d = Ret (Ok 0%Z) /\
  amount_from_float_in show x d = Ret (Err (PaOutOfRange {| is_signed := false; is_greater_than_max := false |})).
Proof.
  exists minus_zero, (Fin false 0 0).
  assert (P : exists u v k, lit "0" = u /\ plain u v k /\ nearest v k 0 0 /\ forall n v' k', nearest v' k' 0 0 -> significant n v' -> significant n v).
  { exists (lit "0"), 0, 0. split; [reflexivity|]. split.
    - exists [48], 0, [], 0. split; [|split; [apply digits_nil|split; [now left|split; [reflexivity|split; reflexivity]]]].
      split; [constructor; split; reflexivity|]. split; [reflexivity|]. intro X. now destruct X.
    - split; [apply zero_zero|]. intros. exists 0, 0. split; [reflexivity|apply pow10_gt0]. }
  split; [split; intro X; vm_compute in X; discriminate|].
  split; [destruct P as (u & v & k & <- & P); exists (lit "0"), v, k; split; [reflexivity|exact P]|].
  split; [destruct P as (u & v & k & <- & P); exists (lit "0"), v, k; split; [reflexivity|exact P]|].
  intros show d S1 S2. unfold amount_from_float_in, signed_from_float_in. rewrite S1, S2. destruct d; vm_compute; auto.
Qed.

(** ** serde's as_btc *)
Definition ok_for (signed : bool) (a : Z) : Prop := if signed then valid_signed a else valid_amount a.
Lemma to_signed_ok : forall a, valid_amount a -> amount_to_signed a = Ret a.
Proof. intros a V. now destruct (PAmount.C17_conversions_total a V) as (E & _). Qed.
Lemma to_unsigned_ok : forall a, valid_signed a -> exists r, signed_to_unsigned a = Ret r /\ forall b, r = Ok b <-> b = a /\ valid_amount a.
Proof.
  intros a V. unfold signed_to_unsigned, amount_from_sat. unfold valid_signed, valid_amount, SUPPLY in *. change AMOUNT_MAX with 2100000000000000%Z.
  destruct (Z.ltb_spec a 0); [eexists; split; [reflexivity|]; intro b; split; [discriminate|lia]|].
  destruct (Z.ltb_spec 2100000000000000 a); [lia|]. eexists; split; [reflexivity|]. intro b. split; [intro E; injection E as ->; lia|intros [-> _]; reflexivity].
Qed.
Theorem C62_serde : forall show signed x a, prints x (show x) ->
  (ok_for signed a -> exists y, btc_serialize signed a = Ret y /\ signed_to_float_in a Bitcoin = Ret y) /\
  (btc_deserialize show signed x = Ret (Some a) <-> ok_for signed a /\ (btc_serialize signed a = Ret x \/ (x = minus_zero /\ a = 0%Z))) /\
  btc_deserialize show signed x <> Panic.
Proof.
  intros show signed x a PR.
  assert (S0 : forall b, ok_for signed b -> valid_signed b) by (intros b H; destruct signed; [exact H|now apply amount_signed]).
  assert (S1 : forall b, ok_for signed b -> btc_serialize signed b = signed_to_float_in b Bitcoin).
  { intros b H. unfold btc_serialize. destruct signed; [reflexivity|]. now rewrite to_signed_ok. }
  split; [|].
  - intro H. rewrite (S1 a H). destruct (C62_to_float a Bitcoin (S0 a H)) as (y & E & _). eauto.
  - unfold btc_deserialize, signed_from_btc. destruct (C62_total show x Bitcoin PR) as (_ & [r R] & _). rewrite R. cbn [rbind].
    destruct r as [b|e].
    + pose proof (proj1 (C62_from_float_signed show x Bitcoin b PR) R) as (VB & FB).
      assert (G : signed = true /\ btc_serialize signed b = Ret x \/ True) by auto. clear G.
      assert (K : forall c, c = b -> ok_for signed c -> (btc_serialize signed c = Ret x \/ (x = minus_zero /\ c = 0%Z))).
      { intros c -> H. rewrite (S1 b H). exact FB. }
      assert (K2 : ok_for signed a -> (btc_serialize signed a = Ret x \/ (x = minus_zero /\ a = 0%Z)) -> a = b).
      { intros H F. rewrite (S1 a H) in F. pose proof (proj2 (C62_from_float_signed show x Bitcoin a PR) (conj (S0 a H) F)) as R'. congruence. }
      destruct signed.
      * split; [|discriminate]. split; [intro E; injection E as <-; split; [exact VB|auto]|]. intros [H F]. now rewrite (K2 H F).
      * destruct (to_unsigned_ok b VB) as (u & EU & HU). rewrite EU. cbn [rbind]. split; [|discriminate]. split.
        -- destruct u as [c|]; [|discriminate]. intro E. injection E as ->. destruct (proj1 (HU a) eq_refl) as [-> V]. split; [exact V|auto].
        -- intros [H F]. specialize (K2 H F). subst b. rewrite (proj2 (HU a)); auto.
    + split; [|discriminate]. split; [discriminate|]. intros [H F]. rewrite (S1 a H) in F.
      pose proof (proj2 (C62_from_float_signed show x Bitcoin a PR) (conj (S0 a H) F)) as R'. congruence.
Qed.
Theorem C62_serde_vec : forall show signed l, Forall (ok_for signed) l ->
  exists xs, btc_serialize_vec signed l = Ret xs /\ List.length xs = List.length l /\
    (Forall (fun x => prints x (show x)) xs -> btc_deserialize_vec show signed xs = Ret (Some l)).
Proof.
  intros show signed l. induction l as [|a l IH]; intro H.
  - exists []. repeat split; auto.
  - inv H. rename H2 into HA. destruct IH as (xs & E & L & D); [assumption|].
    assert (X : exists x, btc_serialize signed a = Ret x).
    { destruct signed; [destruct (C62_to_float a Bitcoin HA) as (x & EX & _); exists x; exact EX|].
      destruct (C62_to_float a Bitcoin (amount_signed a HA)) as (x & EX & _). exists x. unfold btc_serialize. rewrite to_signed_ok by exact HA. exact EX. }
    destruct X as (x & EX). exists (x :: xs). cbn [btc_serialize_vec]. rewrite EX. cbn [rbind]. rewrite E. cbn [rbind]. split; [reflexivity|].
    split; [cbn [List.length]; congruence|]. intro F. inv F. cbn [btc_deserialize_vec].
    destruct (C62_serde show signed x a H1) as (_ & R & _). rewrite (proj2 R) by auto. cbn [rbind]. rewrite D by auto. reflexivity.
Qed.

Theorem C62_serde_vec_accepts : forall show signed xs l, Forall (fun x => prints x (show x)) xs ->
  (btc_deserialize_vec show signed xs = Ret (Some l) <-> Forall2 (fun x a => btc_deserialize show signed x = Ret (Some a)) xs l) /\
  btc_deserialize_vec show signed xs <> Panic.
Proof.
  intros show signed xs l F. revert l. induction F as [|x xs P F IH]; intro l; cbn [btc_deserialize_vec].
  - split; [|discriminate]. split; [intro H; injection H as <-; constructor|intro H; inv H; reflexivity].
  - destruct (C62_serde show signed x 0 P) as (_ & _ & NP). destruct (btc_deserialize show signed x) as [r|] eqn:E; [|congruence]. cbn [rbind].
    destruct r as [a|].
    + destruct (btc_deserialize_vec show signed xs) as [r'|] eqn:E2; [|destruct (IH []) as [_ X]; congruence]. cbn [rbind]. split; [|discriminate]. split.
      * destruct r' as [l'|]; [|discriminate]. intro H. injection H as <-. constructor; [exact E|]. now apply IH.
      * intro H. inv H. rewrite E in H2. injection H2 as ->. apply IH in H4. injection H4 as ->. reflexivity.
    + split; [|discriminate]. split; [discriminate|]. intro H. inv H. congruence.
Qed.

(** ** Satoshis in hexadecimal: with the prefix or without it, and in range *)
Theorem C62_hex : forall s a,
  (amount_from_sat_hex s = Ok a <-> (exists p t, hex_prefix p /\ s = p ++ t /\ int_text digit16 16 false t a) /\ valid_amount a) /\
  (signed_from_sat_hex s = Ok a <-> amount_from_sat_hex s = Ok a) /\
  (amount_from_sat_unprefixed_hex s = Ok a <-> (forall p t, hex_prefix p -> s <> p ++ t) /\ int_text digit16 16 false s a /\ valid_amount a) /\
  (signed_from_sat_unprefixed_hex s = Ok a <-> amount_from_sat_unprefixed_hex s = Ok a).
Proof.
  intros s a.
  assert (A : forall n e, (match amount_from_sat (Z.of_N n) with Ok x => Ok x | Err o => e o end : result Z hex_amount_err) = Ok a -> (forall o, e o <> Ok a) -> a = Z.of_N n /\ valid_amount a).
  { intros n e. unfold amount_from_sat, valid_amount, SUPPLY. change AMOUNT_MAX with 2100000000000000%Z.
    destruct (Z.ltb_spec 2100000000000000 (Z.of_N n)); [intros E F; now apply F in E|]. intros E _. injection E as <-. lia. }
  assert (A' : forall n, a = Z.of_N n -> valid_amount a -> amount_from_sat (Z.of_N n) = Ok a).
  { intros n -> V. unfold amount_from_sat, valid_amount, SUPPLY in *. change AMOUNT_MAX with 2100000000000000%Z. destruct (Z.ltb_spec 2100000000000000 (Z.of_N n)); [lia|reflexivity]. }
  assert (SG : forall n, signed_from_sat_u64 n = Ok a <-> match amount_from_sat (Z.of_N n) with Ok x => Ok x | Err e => Err (HaOutOfRange e) end = Ok a).
  { intro n. unfold signed_from_sat_u64, signed_from_sat, amount_from_sat. change AMOUNT_MAX with 2100000000000000%Z. change SIGNED_MIN with (-2100000000000000)%Z.
    destruct (N.ltb_spec 9223372036854775807 n); destruct (Z.ltb_spec 2100000000000000 (Z.of_N n)); destruct (Z.ltb_spec (Z.of_N n) (-2100000000000000));
      try lia; split; intro E; first [discriminate|exact E]. }
  assert (NN : forall t z, int_text digit16 16 false t z -> exists n, z = Z.of_N n) by (intros t z H; inv H; eauto; discriminate).
  assert (BD : forall z n, z = Z.of_N n -> valid_amount z -> n < 2 ^ 64).
  { intros z n -> V. unfold valid_amount, SUPPLY in V. change (2 ^ 64) with 18446744073709551616. lia. }
  split; [|split; [|split]].
  - unfold amount_from_sat_hex. split.
    + destruct (hex_prefixed 64 s) as [n|e] eqn:E; [|discriminate]. intro H. apply A in H as [-> V]; [|discriminate].
      apply C37_hex in E as (p & t & P & -> & T & _). split; eauto.
    + intros [(p & t & P & -> & T) V]. destruct (NN t a T) as (n & EN).
      assert (E : hex_prefixed 64 (p ++ t) = Ok n) by (apply C37_hex; exists p, t; subst a; eauto).
      rewrite E, (A' n EN V). reflexivity.
  - unfold signed_from_sat_hex, amount_from_sat_hex. destruct (hex_prefixed 64 s); [apply SG|split; discriminate].
  - unfold amount_from_sat_unprefixed_hex. split.
    + destruct (hex_unprefixed 64 s) as [n|e] eqn:E; [|discriminate]. intro H. apply A in H as [-> V]; [|discriminate].
      apply C37_hex in E as (P & T & _). auto.
    + intros (P & T & V). destruct (NN s a T) as (n & EN).
      assert (E : hex_unprefixed 64 s = Ok n) by (apply C37_hex; subst a; eauto).
      rewrite E, (A' n EN V). reflexivity.
  - unfold signed_from_sat_unprefixed_hex, amount_from_sat_unprefixed_hex. destruct (hex_unprefixed 64 s); [apply SG|split; discriminate].
Qed.

(** Concrete cases: a tenth of a bitcoin, a third of the supply, one satoshi, the supply in satoshi. *)
Example C62_ex : amount_to_float_in 10000000 Bitcoin = Ret (Fin false 7205759403792794 1018) /\
  signed_to_float_in (-700000000000000) Bitcoin = Ret (Fin true 7516192768000000 1044) /\
  amount_to_float_in 1 Bitcoin = Ret (Fin false 6044629098073146 995) /\
  amount_to_float_in 2100000000000000 Satoshi = Ret (Fin false 8400000000000000 1072) /\
  (exists t, prints (Fin false 7205759403792794 1018) t) /\
  signed_from_float_in (fun _ => lit "0.1") (Fin false 7205759403792794 1018) Bitcoin = Ret (Ok 10000000%Z).
Proof.
  split; [vm_compute; reflexivity|]. split; [vm_compute; reflexivity|]. split; [vm_compute; reflexivity|]. split; [vm_compute; reflexivity|].
  split; [|vm_compute; reflexivity].
  destruct (C62_prints 10000000 Bitcoin (Fin false 7205759403792794 1018)) as (t & _ & H); [unfold valid_signed, SUPPLY; lia|vm_compute; reflexivity|].
  exists t. now apply H.
Qed.
Example C62_ex_hex : amount_from_sat_hex (lit "0x5F5e100") = Ok 100000000%Z /\ signed_from_sat_unprefixed_hex (lit "+ff") = Ok 255%Z /\
  amount_from_sat_hex (lit "ff") = Err (HaPrefixed (MissingPrefix (lit "ff"))).
Proof. vm_compute. auto. Qed.
Print Assumptions C62_to_float.
Print Assumptions C62_closest_unique.
Print Assumptions C62_to_btc.
Print Assumptions C62_from_float_signed.
Print Assumptions C62_from_float.
Print Assumptions C62_round_trip.
Print Assumptions C62_prints.
Print Assumptions C62_ordered.
Print Assumptions C62_total.
Print Assumptions C62_minus_zero_refuted.
Print Assumptions C62_serde.
Print Assumptions C62_serde_vec.
Print Assumptions C62_serde_vec_accepts.
Print Assumptions C62_hex.
