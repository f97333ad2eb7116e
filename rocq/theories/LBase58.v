(** Lemmas on base conversion. *)
From Verif Require Import Base MDec LDec MText MBase58 SBase58.
Local Open Scope N_scope.

Fixpoint dval (b : N) (l : list N) : N := match l with [] => 0 | d :: l' => d + b * dval b l' end.
Definition small (b : N) (l : list N) : Prop := Forall (fun d => d < b) l.
(** the shortest digit list of a number *)
Definition canon (b : N) (l : list N) (v : N) : Prop := small b l /\ dval b l = v /\ (l = [] \/ b ^ (lenN l - 1) <= v).
Definition fits (cap : option N) (l : list N) : bool := match cap with None => true | Some c => lenN l <=? c end.

Lemma dval_app : forall b l m, dval b (l ++ m) = dval b l + b ^ lenN l * dval b m.
Proof.
  intros b l m. induction l as [|d l IH]; cbn [dval app]; [rewrite lenN_nil, N.pow_0_r; lia|].
  rewrite IH, lenN_cons, N.pow_add_r, N.pow_1_r. ring.
Qed.
Lemma dval_lt : forall b l, small b l -> dval b l < b ^ lenN l.
Proof.
  intros b l H. induction H as [|d l D H IH]; cbn [dval]; [rewrite lenN_nil, N.pow_0_r; lia|].
  rewrite lenN_cons, N.pow_add_r, N.pow_1_r. set (p := b ^ lenN l) in *. set (x := dval b l) in *. clearbody p x.
  apply N.lt_le_trans with (b + b * x); [lia|]. replace (b + b * x) with (b * (x + 1)) by ring. apply N.mul_le_mono_l. lia.
Qed.
Lemma dval_inj : forall b l m, length l = length m -> small b l -> small b m -> dval b l = dval b m -> l = m.
Proof.
  intros b. induction l as [|x l IH]; intros [|y m] L SL SM E; try discriminate; [reflexivity|].
  inversion SL as [|? ? X SL']; subst. inversion SM as [|? ? Y SM']; subst. cbn [dval] in E.
  assert (x = y /\ dval b l = dval b m) as [-> E'].
  { set (p := dval b l) in *. set (q := dval b m) in *. clearbody p q. assert (b <> 0) by lia.
    assert (X1 : (x + b * p) mod b = x) by (rewrite N.mul_comm, N.mod_add by auto; now apply N.mod_small).
    assert (Y1 : (y + b * q) mod b = y) by (rewrite N.mul_comm, N.mod_add by auto; now apply N.mod_small).
    assert (x = y) by (rewrite <- X1, <- Y1, E; reflexivity). split; auto. subst y. apply N.add_cancel_l, N.mul_cancel_l in E; auto. }
  f_equal. apply IH; auto.
Qed.
Lemma canon_len_mono : forall b l m v w, 1 < b -> canon b l v -> canon b m w -> v <= w -> lenN l <= lenN m.
Proof.
  intros b l m v w B (SL & VL & ML) (SM & VM & MM) LE. destruct ML as [-> |ML]; [rewrite lenN_nil; lia|].
  pose proof (dval_lt b m SM) as LM. rewrite VM in LM. apply N.nlt_ge. intro X.
  assert (b ^ lenN m <= b ^ (lenN l - 1)) by (apply N.pow_le_mono_r; lia). apply (N.lt_irrefl v).
  apply N.le_lt_trans with w; auto. apply N.lt_le_trans with (b ^ lenN m); auto. now apply N.le_trans with (b ^ (lenN l - 1)).
Qed.
Lemma canon_unique : forall b l m v, 1 < b -> canon b l v -> canon b m v -> l = m.
Proof.
  intros b l m v B L M. assert (lenN l = lenN m).
  { apply N.le_antisymm; [apply (canon_len_mono b l m v v)|apply (canon_len_mono b m l v v)]; auto; lia. }
  destruct L as (SL & VL & _), M as (SM & VM & _). apply (dval_inj b); auto; [unfold lenN in H; lia|congruence].
Qed.
Lemma canon_nil : forall b, canon b [] 0.
Proof. intro b. split; [constructor|]. split; [reflexivity|auto]. Qed.

(** extending by the digits of the carry *)
Lemma push_carry_spec : forall f b cap buf carry, 1 < b -> carry < 2 ^ N.of_nat f -> fits cap buf = true ->
  exists ds, canon b ds carry /\
    push_carry (S f) b cap buf carry = Ret (if fits cap (buf ++ ds) then Some (buf ++ ds) else None).
Proof.
  induction f as [|f IH]; intros b cap buf carry B C F.
  - change (2 ^ N.of_nat 0) with 1 in C. assert (carry = 0) as -> by lia. exists []. split; [apply canon_nil|]. cbn [push_carry N.eqb]. now rewrite app_nil_r, F.
  - remember (S f) as f1. cbn [push_carry]. subst f1. destruct (N.eqb_spec carry 0) as [-> |NZ].
    { exists []. split; [apply canon_nil|]. now rewrite app_nil_r, F. }
    assert (BZ : b <> 0) by lia. assert (CL : carry / b < 2 ^ N.of_nat f).
    { apply N.div_lt_upper_bound; auto. apply N.lt_le_trans with (2 ^ N.of_nat (S f)); auto. rewrite Nat2N.inj_succ, N.pow_succ_r'. apply N.mul_le_mono_r. lia. }
    assert (DM : carry mod b < b) by (now apply N.mod_lt). pose proof (N.div_mod carry b BZ) as D.
    assert (CN : forall ds, canon b ds (carry / b) -> canon b (carry mod b :: ds) carry).
    { intros ds (S & V & M). split; [constructor; auto|]. split; [cbn [dval]; rewrite V, N.add_comm; auto|]. right.
      rewrite lenN_cons. replace (1 + lenN ds - 1) with (lenN ds) by lia. destruct M as [-> |M]; [rewrite lenN_nil, N.pow_0_r; lia|].
      destruct ds as [|d0 ds0]; [rewrite lenN_nil, N.pow_0_r; lia|]. rewrite lenN_cons in *. replace (1 + lenN ds0 - 1) with (lenN ds0) in M by lia. rewrite N.pow_add_r, N.pow_1_r.
      apply N.le_trans with (b * (carry / b)); [now apply N.mul_le_mono_l|]. now apply N.mul_div_le. }
    unfold try_push. destruct cap as [c|].
    + cbn [fits] in F. apply N.leb_le in F. destruct (N.ltb_spec (lenN buf) c) as [L|L].
      * destruct (IH b (Some c) (buf ++ [carry mod b]) (carry / b) B CL) as (ds & CD & E).
        { cbn [fits]. apply N.leb_le. rewrite lenN_app, lenN_cons, lenN_nil. lia. }
        exists (carry mod b :: ds). split; [now apply CN|]. rewrite E. rewrite <- app_assoc. reflexivity.
      * destruct (IH b None [] (carry / b) B CL eq_refl) as (ds & CD & _).
        exists (carry mod b :: ds). split; [now apply CN|]. cbn [fits]. rewrite lenN_app, lenN_cons. destruct (N.leb_spec (lenN buf + (1 + lenN ds)) c); [lia|reflexivity].
    + destruct (IH b None (buf ++ [carry mod b]) (carry / b) B CL eq_refl) as (ds & CD & E).
      exists (carry mod b :: ds). split; [now apply CN|]. rewrite E. rewrite <- app_assoc. reflexivity.
Qed.
Lemma canon_app : forall b r ds v m c, 1 < b -> 1 <= m -> small b r -> canon b ds c ->
  (r = [] \/ b ^ (lenN r - 1) <= v) -> dval b r + b ^ lenN r * c = v * m + 0 -> canon b (r ++ ds) (v * m).
Proof.
  intros b r ds v m c B M SR (SD & VD & MD) MR E. rewrite N.add_0_r in E. split; [apply Forall_app; auto|]. split; [rewrite dval_app, VD; auto|].
  destruct MD as [-> |MD].
  - rewrite app_nil_r. destruct MR as [-> |MR]; [auto|]. right. apply N.le_trans with v; auto. replace v with (v * 1) at 1 by lia. now apply N.mul_le_mono_l.
  - destruct ds as [|d ds]; [cbn [dval] in VD; subst c; rewrite app_nil_r; destruct MR as [-> |MR]; [auto|]; right; apply N.le_trans with v; auto; replace v with (v * 1) at 1 by lia; now apply N.mul_le_mono_l|].
    right. rewrite lenN_app, lenN_cons in *. rewrite <- E. replace (lenN r + (1 + lenN ds) - 1) with (lenN r + (1 + lenN ds - 1)) by lia. rewrite N.pow_add_r.
    apply N.le_trans with (b ^ lenN r * c); [now apply N.mul_le_mono_l|lia].
Qed.
Lemma canon_step : forall b r ds v m d c, 1 < b -> 1 <= m -> small b r -> canon b ds c ->
  (r = [] \/ b ^ (lenN r - 1) <= v) -> dval b r + b ^ lenN r * c = v * m + d -> canon b (r ++ ds) (v * m + d).
Proof.
  intros b r ds v m d c B M SR (SD & VD & MD) MR E. split; [apply Forall_app; auto|]. split; [rewrite dval_app, VD; auto|].
  assert (VM : v <= v * m) by (replace v with (v * 1) at 1 by lia; now apply N.mul_le_mono_l).
  destruct ds as [|x ds].
  - rewrite app_nil_r. destruct MR as [-> |MR]; [auto|]. right. apply N.le_trans with v; auto. lia.
  - destruct MD as [X|MD]; [discriminate|].
    right. rewrite lenN_app, lenN_cons in *. rewrite <- E. replace (lenN r + (1 + lenN ds) - 1) with (lenN r + (1 + lenN ds - 1)) by lia. rewrite N.pow_add_r.
    apply N.le_trans with (b ^ lenN r * c); [now apply N.mul_le_mono_l|lia].
Qed.

(** the inner loops *)
Lemma enc_digits_spec : forall buf carry, small 58 buf -> carry <= 255 ->
  exists r c, enc_digits buf carry = Ret (r, c) /\ small 58 r /\ length r = length buf /\ c <= 255 /\
    dval 58 r + 58 ^ lenN r * c = dval 58 buf * 256 + carry.
Proof.
  induction buf as [|ch buf IH]; intros carry S C; cbn [enc_digits].
  - exists [], carry. split; [reflexivity|]. split; [constructor|]. split; [reflexivity|]. split; [auto|]. cbn [dval]. rewrite lenN_nil, N.pow_0_r. lia.
  - inversion S as [|? ? X S']; subst. unfold u32_ck. destruct (N.ltb_spec (ch * 256 + carry) (2 ^ 32)) as [_|Y]; [|change (2 ^ 32) with 4294967296 in Y; lia]. cbn [rbind].
    pose proof (N.div_mod (ch * 256 + carry) 58 ltac:(discriminate)) as D. pose proof (N.mod_lt (ch * 256 + carry) 58 ltac:(discriminate)) as M.
    set (q := (ch * 256 + carry) / 58) in *. set (x := (ch * 256 + carry) mod 58) in *. clearbody q x.
    destruct (IH q S' ltac:(lia)) as (r & c & E & SR & LR & CB & V). rewrite E. cbn [rbind]. exists (x :: r), c.
    split; [reflexivity|]. split; [constructor; auto|]. split; [cbn [length]; lia|]. split; [auto|]. cbn [dval]. rewrite lenN_cons, N.pow_add_r, N.pow_1_r.
    transitivity (x + 58 * (dval 58 r + 58 ^ lenN r * c)); [ring|]. rewrite V. lia.
Qed.
Lemma dec_digits_spec : forall buf carry, small 256 buf -> carry <= 57 ->
  exists r c, dec_digits buf carry = Ret (r, c) /\ small 256 r /\ length r = length buf /\ c <= 57 /\
    dval 256 r + 256 ^ lenN r * c = dval 256 buf * 58 + carry.
Proof.
  induction buf as [|ch buf IH]; intros carry S C; cbn [dec_digits].
  - exists [], carry. split; [reflexivity|]. split; [constructor|]. split; [reflexivity|]. split; [auto|]. cbn [dval]. rewrite lenN_nil, N.pow_0_r. lia.
  - inversion S as [|? ? X S']; subst. unfold u32_ck. destruct (N.ltb_spec (carry + ch * 58) (2 ^ 32)) as [_|Y]; [|change (2 ^ 32) with 4294967296 in Y; lia]. cbn [rbind].
    pose proof (N.div_mod (carry + ch * 58) 256 ltac:(discriminate)) as D. pose proof (N.mod_lt (carry + ch * 58) 256 ltac:(discriminate)) as M.
    set (q := (carry + ch * 58) / 256) in *. set (x := (carry + ch * 58) mod 256) in *. clearbody q x.
    destruct (IH q S' ltac:(lia)) as (r & c & E & SR & LR & CB & V). rewrite E. cbn [rbind]. exists (x :: r), c.
    split; [reflexivity|]. split; [constructor; auto|]. split; [cbn [length]; lia|]. split; [auto|]. cbn [dval]. rewrite lenN_cons, N.pow_add_r, N.pow_1_r.
    transitivity (x + 256 * (dval 256 r + 256 ^ lenN r * c)); [ring|]. rewrite V. lia.
Qed.
Lemma fits_app : forall cap a b, fits cap (a ++ b) = true -> fits cap a = true.
Proof. intros [c|] a b; cbn [fits]; auto. intro H. apply N.leb_le in H. apply N.leb_le. rewrite lenN_app in H. lia. Qed.
Lemma fits_len : forall cap a b, lenN a <= lenN b -> fits cap b = true -> fits cap a = true.
Proof. intros [c|] a b L; cbn [fits]; auto. intro H. apply N.leb_le in H. apply N.leb_le. lia. Qed.
Lemma same_len : forall A B (a : list A) (b : list B), length a = length b -> lenN a = lenN b.
Proof. intros. unfold lenN. congruence. Qed.
Lemma enc_step : forall cap buf v d, canon 58 buf v -> d <= 255 -> fits cap buf = true ->
  exists buf', canon 58 buf' (v * 256 + d) /\
    rbind (enc_digits buf d) (fun '(b, c) => push_carry 33 58 cap b c) = Ret (if fits cap buf' then Some buf' else None).
Proof.
  intros cap buf v d (S & V & M) D F. destruct (enc_digits_spec buf d S D) as (r & c & E & SR & LR & CB & VR). rewrite E. cbn [rbind].
  assert (C32 : c < 2 ^ N.of_nat 32) by (change (2 ^ N.of_nat 32) with 4294967296; lia).
  assert (FR : fits cap r = true) by (apply (fits_len cap r buf); auto; rewrite (same_len _ _ r buf LR); lia).
  destruct (push_carry_spec 32 58 cap r c ltac:(lia) C32 FR) as (ds & CD & P). exists (r ++ ds). split; [|exact P].
  apply (canon_step 58 r ds v 256 d c); auto; try lia.
  - destruct M as [-> |M]; [left; now apply length_zero_iff_nil|right]. now rewrite (same_len _ _ r buf LR).
Qed.
Lemma dec_step : forall cap buf v d, canon 256 buf v -> d <= 57 -> fits cap buf = true ->
  exists buf', canon 256 buf' (v * 58 + d) /\
    rbind (dec_digits buf d) (fun '(b, c) => push_carry 33 256 cap b c) = Ret (if fits cap buf' then Some buf' else None).
Proof.
  intros cap buf v d (S & V & M) D F. destruct (dec_digits_spec buf d S D) as (r & c & E & SR & LR & CB & VR). rewrite E. cbn [rbind].
  assert (C32 : c < 2 ^ N.of_nat 32) by (change (2 ^ N.of_nat 32) with 4294967296; lia).
  assert (FR : fits cap r = true) by (apply (fits_len cap r buf); auto; rewrite (same_len _ _ r buf LR); lia).
  destruct (push_carry_spec 32 256 cap r c ltac:(lia) C32 FR) as (ds & CD & P). exists (r ++ ds). split; [|exact P].
  apply (canon_step 256 r ds v 58 d c); auto; try lia.
  - destruct M as [-> |M]; [left; now apply length_zero_iff_nil|right]. now rewrite (same_len _ _ r buf LR).
Qed.

(** the loops *)
Definition horner (b : N) (l : list N) (v : N) : N := fold_left (fun n d => n * b + d) l v.
Lemma horner_ge : forall b l v, 1 <= b -> v <= horner b l v.
Proof.
  intros b l. induction l as [|d l IH]; intros v B; cbn [horner fold_left]; [unfold horner; cbn; lia|].
  apply N.le_trans with (v * b + d); [|now apply IH]. apply N.le_trans with (v * 1); [lia|]. apply N.le_trans with (v * b); [now apply N.mul_le_mono_l|lia].
Qed.
Fixpoint zeros_of (l : list N) : nat := match l with d :: l' => if d =? 0 then S (zeros_of l') else O | [] => O end.
Lemma canon_ex_enc : forall data v buf, bytes_ok data -> canon 58 buf v -> exists buf', canon 58 buf' (horner 256 data v).
Proof.
  induction data as [|d data IH]; intros v buf OK C; [exists buf; exact C|]. apply bytes_ok_cons in OK as [D OK].
  destruct (enc_step None buf v d C ltac:(unfold byte_ok in D; lia) eq_refl) as (buf' & C' & _). exact (IH _ _ OK C').
Qed.
Lemma enc_loop_spec : forall cap data ld z buf v, bytes_ok data -> canon 58 buf v -> fits cap buf = true ->
  exists buf', canon 58 buf' (horner 256 data v) /\
    enc_loop cap data ld z buf = Ret (if fits cap buf' then Some ((if ld then z + zeros_of data else z)%nat, buf') else None).
Proof.
  intros cap. induction data as [|d data IH]; intros ld z buf v OK C F.
  - exists buf. split; [exact C|]. cbn [enc_loop zeros_of]. rewrite F. destruct ld; [rewrite Nat.add_0_r|]; reflexivity.
  - apply bytes_ok_cons in OK as [D OK]. cbn [enc_loop]. destruct (enc_step cap buf v d C ltac:(unfold byte_ok in D; lia) F) as (b1 & C1 & E1).
    assert (LOOP : forall ld' z', exists buf', canon 58 buf' (horner 256 data (v * 256 + d)) /\
      rbind (enc_digits buf d) (fun '(b, carry) => rbind (push_carry 33 58 cap b carry) (fun o =>
        match o with None => Ret None | Some b' => enc_loop cap data ld' z' b' end)) =
      Ret (if fits cap buf' then Some ((if ld' then z' + zeros_of data else z')%nat, buf') else None)).
    { intros ld' z'. destruct (enc_digits buf d) as [[b c]|]; [|discriminate]. cbn [rbind] in *. rewrite E1. cbn [rbind].
      destruct (fits cap b1) eqn:F1; [exact (IH ld' z' b1 _ OK C1 F1)|].
      destruct (canon_ex_enc data _ b1 OK C1) as [b2 C2]. exists b2. split; [exact C2|].
      destruct (fits cap b2) eqn:F2; [|reflexivity]. exfalso. rewrite (fits_len cap b1 b2) in F1; auto; try discriminate.
      apply (canon_len_mono 58 b1 b2 _ _ ltac:(lia) C1 C2). apply horner_ge; lia. }
    destruct ld; cbn [andb zeros_of].
    + destruct (N.eqb_spec d 0) as [-> |NZ].
      * destruct (LOOP true (S z)) as (b' & C' & E'). exists b'. split; [exact C'|]. rewrite E'. now replace (S z + zeros_of data)%nat with (z + S (zeros_of data))%nat by lia.
      * destruct (LOOP false z) as (b' & C' & E'). exists b'. split; [exact C'|]. rewrite E'. now rewrite Nat.add_0_r.
    + destruct (LOOP false z) as (b' & C' & E'). exists b'. split; [exact C'|]. exact E'.
Qed.
Lemma push_zeros_spec : forall cap n buf, fits cap buf = true ->
  push_zeros cap n buf = if fits cap (buf ++ repeat 0 n) then Some (buf ++ repeat 0 n) else None.
Proof.
  intros cap. induction n as [|n IH]; intros buf F; cbn [push_zeros repeat]; [now rewrite app_nil_r, F|].
  unfold try_push. destruct cap as [c|].
  - cbn [fits] in F. apply N.leb_le in F. destruct (N.ltb_spec (lenN buf) c) as [L|L].
    + rewrite IH by (cbn [fits]; apply N.leb_le; rewrite lenN_app, lenN_cons, lenN_nil; lia). rewrite <- app_assoc. reflexivity.
    + cbn [fits]. rewrite lenN_app, lenN_cons. destruct (N.leb_spec (lenN buf + (1 + lenN (repeat 0 n))) c); [lia|reflexivity].
  - rewrite IH by reflexivity. rewrite <- app_assoc. reflexivity.
Qed.

(** characters *)
Lemma chars_alphabet : BASE58_CHARS = alphabet.
Proof. reflexivity. Qed.
Lemma digit58_lt : forall c d, digit58 c d -> d < 58.
Proof.
  intros c d H. unfold digit58 in H. assert (N.to_nat d < length alphabet)%nat by (apply nth_error_Some; congruence).
  change (length alphabet) with 58%nat in H0. lia.
Qed.
Lemma digit58_ex : forall d, d < 58 -> exists c, digit58 c d.
Proof.
  intros d H. unfold digit58. destruct (nth_error alphabet (N.to_nat d)) eqn:E; [eauto|]. apply nth_error_None in E. change (length alphabet) with 58%nat in E. lia.
Qed.
Lemma nodup_alphabet : NoDup alphabet.
Proof.
  assert (D : forall l : list N, (fix go l := match l with [] => true | x :: l' => negb (existsb (N.eqb x) l') && go l' end) l = true -> NoDup l).
  { induction l as [|x l IH]; intro H; [constructor|]. apply andb_true_iff in H as [A B]. constructor; [|auto].
    intro X. apply negb_true_iff in A. assert (existsb (N.eqb x) l = true) by (apply existsb_exists; exists x; split; auto; apply N.eqb_refl). congruence. }
  apply D. reflexivity.
Qed.
Lemma digit58_fun : forall c d d', digit58 c d -> digit58 c d' -> d = d'.
Proof.
  intros c d d' A B. pose proof (digit58_lt _ _ A). pose proof (digit58_lt _ _ B). unfold digit58 in *.
  assert (N.to_nat d = N.to_nat d') by (apply (proj1 (NoDup_nth_error alphabet) nodup_alphabet); [change (length alphabet) with 58%nat; lia|congruence]). lia.
Qed.
Lemma digits_table : forall c d, nth (N.to_nat c) BASE58_DIGITS None = Some d <-> digit58 c d.
Proof.
  intros c d. assert (T1 : forallb (fun k => match nth k BASE58_DIGITS None with None => true | Some x =>
      match nth_error alphabet (N.to_nat x) with Some y => y =? N.of_nat k | None => false end end) (seq 0 128) = true) by reflexivity.
  assert (T2 : forallb (fun x => match nth_error alphabet x with Some y => match nth (N.to_nat y) BASE58_DIGITS None with Some z => z =? N.of_nat x | None => false end | None => false end) (seq 0 58) = true) by reflexivity.
  rewrite forallb_forall in T1, T2. split; intro H.
  - assert (L : (N.to_nat c < 128)%nat).
    { destruct (Nat.lt_ge_cases (N.to_nat c) 128) as [|G]; auto. rewrite nth_overflow in H by exact G. discriminate. }
    specialize (T1 (N.to_nat c) ltac:(apply in_seq; lia)). rewrite H in T1. unfold digit58. destruct (nth_error alphabet (N.to_nat d)) as [y|]; [|discriminate].
    apply N.eqb_eq in T1. rewrite N2Nat.id in T1. now subst.
  - pose proof (digit58_lt _ _ H). specialize (T2 (N.to_nat d) ltac:(apply in_seq; lia)). unfold digit58 in H. rewrite H in T2.
    destruct (nth (N.to_nat c) BASE58_DIGITS None) as [z|]; [|discriminate]. apply N.eqb_eq in T2. rewrite N2Nat.id in T2. now subst.
Qed.
Lemma to_chars_spec : forall l, small 58 l -> exists s, to_chars l = Ret s /\ Forall2 digit58 s l.
Proof.
  induction 1 as [|d l D H IH]; cbn [to_chars]; [exists []; split; constructor|]. destruct IH as (s & E & F).
  destruct (digit58_ex d D) as [c C]. rewrite chars_alphabet. unfold digit58 in C. rewrite C, E. cbn [rbind]. exists (c :: s). split; [reflexivity|constructor; auto].
Qed.
Lemma to_chars_app : forall a b s t, to_chars a = Ret s -> to_chars b = Ret t -> to_chars (a ++ b) = Ret (s ++ t).
Proof.
  induction a as [|d a IH]; intros b s t A B; cbn [to_chars app] in *; [inv A; auto|].
  destruct (nth_error BASE58_CHARS (N.to_nat d)); [|discriminate]. destruct (to_chars a) as [s'|]; [|discriminate]. cbn [rbind] in *. inv A. now rewrite (IH b s' t).
Qed.
Lemma to_chars_zeros : forall n, to_chars (repeat 0 n) = Ret (repeat 49 n).
Proof. induction n as [|n IH]; [reflexivity|]. cbn [repeat to_chars N.to_nat]. rewrite IH. reflexivity. Qed.

(** digit lists most significant first *)
Lemma number_rev : forall b l, number b (rev l) = dval b l.
Proof.
  intros b l. unfold number. rewrite <- fold_left_rev_right, rev_involutive. induction l as [|d l IH]; cbn [fold_right dval]; [reflexivity|]. rewrite IH. ring.
Qed.
Lemma number_dval : forall b l, number b l = dval b (rev l).
Proof. intros. rewrite <- number_rev. now rewrite rev_involutive. Qed.
Lemma small_rev : forall b l, small b l -> small b (rev l).
Proof. intros. now apply Forall_rev. Qed.
Lemma hd_rev : forall b l v, 1 < b -> canon b l v -> no_leading_zero (rev l).
Proof.
  intros b l v B (S & V & M). unfold no_leading_zero. destruct (rev l) as [|d t] eqn:E; cbn [hd]; [discriminate|]. intros ->.
  assert (L : l = rev t ++ [0]) by (rewrite <- (rev_involutive l), E; reflexivity). destruct M as [-> |M]; [destruct t; discriminate|].
  subst l. rewrite dval_app in V. cbn [dval] in V. apply Forall_app in S as [S _]. pose proof (dval_lt b (rev t) S) as LT.
  rewrite lenN_app, lenN_cons, lenN_nil in M. replace (lenN (rev t) + (1 + 0) - 1) with (lenN (rev t)) in M by lia. apply (N.lt_irrefl v).
  apply N.lt_le_trans with (b ^ lenN (rev t)); auto. subst v. replace (dval b (rev t) + b ^ lenN (rev t) * (0 + b * 0)) with (dval b (rev t)) by ring. exact LT.
Qed.
Lemma canon_of : forall b l, 1 < b -> small b l -> no_leading_zero l -> canon b (rev l) (number b l).
Proof.
  intros b l B S H. split; [now apply small_rev|]. split; [symmetry; apply number_dval|]. destruct l as [|d t]; [left; reflexivity|right].
  cbn [no_leading_zero hd] in H. rewrite number_dval. cbn [rev]. rewrite dval_app, lenN_app, lenN_cons, lenN_nil.
  replace (lenN (rev t) + (1 + 0) - 1) with (lenN (rev t)) by lia. cbn [dval]. unfold no_leading_zero in H. cbn [hd] in H. rewrite N.mul_0_r, N.add_0_r.
  apply N.le_trans with (b ^ lenN (rev t) * d); [|lia]. replace (b ^ lenN (rev t)) with (b ^ lenN (rev t) * 1) at 1 by lia. apply N.mul_le_mono_l. lia.
Qed.
Lemma small_bytes : forall l, bytes_ok l <-> small 256 l.
Proof. intro. reflexivity. Qed.
Lemma zeros_split : forall l, exists rest, l = repeat 0 (zeros_of l) ++ rest /\ no_leading_zero rest.
Proof.
  induction l as [|d l IH]; cbn [zeros_of]; [exists []; split; [reflexivity|discriminate]|]. destruct (N.eqb_spec d 0) as [-> |NZ].
  - destruct IH as (rest & E & H). exists rest. split; [cbn [repeat app]; now f_equal|auto].
  - exists (d :: l). split; [reflexivity|exact NZ].
Qed.
Lemma zeros_unique : forall z rest, no_leading_zero rest -> zeros_of (repeat 0 z ++ rest) = z.
Proof.
  induction z as [|z IH]; intros rest H; cbn [repeat app zeros_of].
  - destruct rest as [|d r]; [reflexivity|]. unfold no_leading_zero in H. cbn [hd] in H. cbn [zeros_of]. now rewrite (proj2 (N.eqb_neq _ _) H).
  - cbn [N.eqb]. now rewrite IH.
Qed.
Lemma number_zeros : forall b z rest, number b (repeat 0 z ++ rest) = number b rest.
Proof.
  intros b z rest. unfold number. rewrite fold_left_app. f_equal. induction z as [|z IH]; [reflexivity|]. cbn [repeat fold_left]. exact IH.
Qed.
Lemma ones_split : forall s, exists chars, s = repeat 49 (leading_ones s) ++ chars /\ hd 0 chars <> 49.
Proof.
  induction s as [|c s IH]; cbn [leading_ones]; [exists []; split; [reflexivity|discriminate]|]. destruct (N.eqb_spec c 49) as [-> |NZ].
  - destruct IH as (t & E & H). exists t. split; [cbn [repeat app]; now f_equal|auto].
  - exists (c :: s). split; [reflexivity|exact NZ].
Qed.
Lemma digit58_zero : forall c d, digit58 c d -> (c = 49 <-> d = 0).
Proof.
  intros c d H. split; intros ->.
  - apply (digit58_fun 49); auto. reflexivity.
  - unfold digit58 in H. cbn in H. congruence.
Qed.

Lemma forall2_len : forall A B (R : A -> B -> Prop) a b, Forall2 R a b -> length a = length b.
Proof. induction 1; cbn [length]; congruence. Qed.
(** encoding *)
Lemma encode_buffer_spec : forall cap data, bytes_ok data -> exists s, base58 data s /\
  encode_to_buffer cap data = Ret (if fits cap s then Some s else None).
Proof.
  intros cap data OK. unfold encode_to_buffer.
  assert (F0 : fits cap [] = true) by (destruct cap; cbn [fits]; auto; apply N.leb_le; rewrite lenN_nil; lia).
  destruct (enc_loop_spec cap data true 0 [] 0 OK (canon_nil 58) F0) as (buf & C & E). rewrite E. cbn [rbind]. rewrite Nat.add_0_l.
  destruct (zeros_split data) as (rest & DE & NL). set (z := zeros_of data) in *.
  assert (SB : small 58 (rev buf)) by (apply small_rev, C). destruct (to_chars_spec (rev buf) SB) as (chars & TC & F2).
  exists (repeat 49 z ++ chars). assert (LC : lenN (repeat 49 z ++ chars) = lenN (buf ++ repeat 0 z)).
  { rewrite !lenN_app. assert (lenN chars = lenN buf) by (apply same_len; rewrite <- (rev_length buf); now apply forall2_len in F2). unfold lenN at 1 4. rewrite !repeat_length. lia. }
  split.
  - exists z, rest, (rev buf), chars. assert (OR : bytes_ok rest) by (rewrite DE in OK; apply bytes_ok_app in OK; tauto).
    split; [exact DE|]. split; [exact OR|]. split; [exact NL|]. split; [reflexivity|]. split; [exact F2|]. split; [now apply (hd_rev 58 buf _ ltac:(lia) C)|].
    rewrite number_rev. destruct C as (_ & V & _). rewrite V. unfold horner. rewrite <- (number_zeros 256 z rest), <- DE. reflexivity.
  - assert (FE : fits cap (repeat 49 z ++ chars) = fits cap (buf ++ repeat 0 z)) by (destruct cap; cbn [fits]; [now rewrite LC|reflexivity]). rewrite FE.
    destruct (fits cap buf) eqn:F; [|destruct (fits cap (buf ++ repeat 0 z)) eqn:F'; [apply fits_app in F'; congruence|reflexivity]].
    rewrite push_zeros_spec by auto. destruct (fits cap (buf ++ repeat 0 z)); [|reflexivity].
    assert (R : forall k, rev (repeat 0 k) = repeat 0 k).
    { induction k as [|k IHk]; [reflexivity|]. cbn [repeat rev]. rewrite IHk. clear. induction k as [|k IH]; [reflexivity|]. cbn [repeat app]. now rewrite IH. }
    rewrite rev_app_distr, R. now rewrite (to_chars_app _ _ _ _ (to_chars_zeros z) TC).
Qed.

(** decoding *)
Fixpoint first_bad (s : bytes) : option N :=
  match s with [] => None | c :: s' => match nth (N.to_nat c) BASE58_DIGITS None with None => Some c | Some _ => first_bad s' end end.
Fixpoint digits_of (s : bytes) : list N :=
  match s with [] => [] | c :: s' => match nth (N.to_nat c) BASE58_DIGITS None with None => [] | Some d => d :: digits_of s' end end.
Lemma digits_of_spec : forall s, first_bad s = None -> Forall2 digit58 s (digits_of s).
Proof.
  induction s as [|c s IH]; cbn [first_bad digits_of]; intro H; [constructor|]. destruct (nth (N.to_nat c) BASE58_DIGITS None) as [d|] eqn:E; [|discriminate].
  constructor; auto. now apply digits_table.
Qed.
Lemma build_bad : forall s buf v c, canon 256 buf v -> first_bad s = Some c -> build_base256 None s buf = Ret (Err (InvalidChar c)).
Proof.
  induction s as [|x s IH]; intros buf v c C H; [discriminate|]. cbn [first_bad build_base256] in *. destruct (nth (N.to_nat x) BASE58_DIGITS None) as [d|] eqn:E.
  - apply digits_table in E. apply digit58_lt in E. destruct (dec_step None buf v d C ltac:(lia) eq_refl) as (b' & C' & E').
    destruct (dec_digits buf d) as [[b c0]|]; [|discriminate]. cbn [rbind fits] in *. rewrite E'. cbn [rbind]. exact (IH _ _ _ C' H).
  - congruence.
Qed.
Lemma canon_ex_dec : forall ds v buf, small 58 ds -> canon 256 buf v -> exists buf', canon 256 buf' (horner 58 ds v).
Proof.
  induction ds as [|d data IH]; intros v buf OK C; [exists buf; exact C|]. inversion OK; subst.
  destruct (dec_step None buf v d C ltac:(lia) eq_refl) as (buf' & C' & _). exact (IH _ _ H2 C').
Qed.
Lemma build_good : forall cap s buf v, canon 256 buf v -> fits cap buf = true -> first_bad s = None ->
  exists buf', canon 256 buf' (horner 58 (digits_of s) v) /\
    build_base256 cap s buf = Ret (if fits cap buf' then Ok buf' else Err BufferFull).
Proof.
  intros cap. induction s as [|x s IH]; intros buf v C F H.
  - exists buf. split; [exact C|]. cbn [build_base256]. now rewrite F.
  - cbn [first_bad build_base256 digits_of] in *. destruct (nth (N.to_nat x) BASE58_DIGITS None) as [d|] eqn:E; [|discriminate].
    apply digits_table in E. apply digit58_lt in E. destruct (dec_step cap buf v d C ltac:(lia) F) as (b1 & C1 & E1).
    destruct (dec_digits buf d) as [[b c0]|]; [|discriminate]. cbn [rbind] in *. rewrite E1. cbn [rbind].
    destruct (fits cap b1) eqn:F1; [exact (IH b1 _ C1 F1 H)|].
    assert (SD : small 58 (digits_of s)).
    { pose proof (digits_of_spec s H) as F2. clear -F2. induction F2; constructor; auto. now apply digit58_lt in H. }
    destruct (canon_ex_dec (digits_of s) _ b1 SD C1) as [b2 C2]. exists b2. split; [exact C2|].
    destruct (fits cap b2) eqn:F2; [|reflexivity]. exfalso. rewrite (fits_len cap b1 b2) in F1; auto; try discriminate.
    apply (canon_len_mono 256 b1 b2 _ _ ltac:(lia) C1 C2). apply horner_ge; lia.
Qed.
Lemma forall2_app_inv : forall A B (R : A -> B -> Prop) a b l, Forall2 R (a ++ b) l -> exists l1 l2, l = l1 ++ l2 /\ Forall2 R a l1 /\ Forall2 R b l2.
Proof. intros. apply Forall2_app_inv_l in H as (l1 & l2 & A1 & A2 & A3). eauto. Qed.
Lemma forall2_ones : forall n l, Forall2 digit58 (repeat 49 n) l -> l = repeat 0 n.
Proof.
  induction n as [|n IH]; intros l H; inv H; [reflexivity|]. cbn [repeat]. f_equal; [|now apply IH]. now apply (digit58_zero 49).
Qed.
Lemma decode_spec : forall s, first_bad s = None -> exists scratch,
  base58 (repeat 0 (leading_ones s) ++ rev scratch) s /\
  (forall cap, build_base256 cap s [] = Ret (if fits cap scratch then Ok scratch else Err BufferFull)).
Proof.
  intros s H. destruct (build_good None s [] 0 (canon_nil 256) eq_refl H) as (buf & C & _). exists buf. split.
  - destruct (ones_split s) as (chars & E & HD). set (z := leading_ones s) in *. pose proof (digits_of_spec s H) as F2.
    rewrite E in F2 at 1. apply forall2_app_inv in F2 as (l1 & l2 & DE & F1 & F2). apply forall2_ones in F1. subst l1.
    exists z, (rev buf), l2, chars. split; [reflexivity|]. split; [apply small_bytes, small_rev, C|]. split; [now apply (hd_rev 256 buf _ ltac:(lia) C)|].
    split; [exact E|]. split; [exact F2|]. split.
    + unfold no_leading_zero. destruct F2 as [|c d cs ds CD F2]; cbn [hd] in *; [discriminate|]. intros ->. apply HD. now apply (digit58_zero c 0).
    + rewrite number_rev. destruct C as (_ & V & _). rewrite V, DE. unfold horner. apply (number_zeros 58 z l2).
  - intro cap. assert (F0 : fits cap [] = true) by (destruct cap; cbn [fits]; auto; apply N.leb_le; rewrite lenN_nil; lia).
    destruct (build_good cap s [] 0 (canon_nil 256) F0 H) as (buf' & C' & E'). now rewrite (canon_unique 256 buf buf' _ ltac:(lia) C C').
Qed.

(** uniqueness *)
Lemma forall2_digit_fun : forall s l l', Forall2 digit58 s l -> Forall2 digit58 s l' -> l = l'.
Proof. induction s as [|c s IH]; intros l l' A B; inv A; inv B; [reflexivity|]. f_equal; [now apply (digit58_fun c)|now apply IH]. Qed.
Lemma forall2_char_fun : forall l s s', Forall2 digit58 s l -> Forall2 digit58 s' l -> s = s'.
Proof. induction l as [|d l IH]; intros s s' A B; inv A; inv B; [reflexivity|]. f_equal; [unfold digit58 in *; congruence|now apply IH]. Qed.
Lemma forall2_small : forall s l, Forall2 digit58 s l -> small 58 l.
Proof. induction 1; constructor; auto. now apply digit58_lt in H. Qed.
Lemma base58_fun : forall d s s', base58 d s -> base58 d s' -> s = s'.
Proof.
  intros d s s' (z & r & ds & cs & D & OR & NR & S & F & ND & V) (z' & r' & ds' & cs' & D' & OR' & NR' & S' & F' & ND' & V').
  assert (z = z') by (rewrite <- (zeros_unique z r NR), <- (zeros_unique z' r' NR'); congruence). subst z'.
  assert (r = r') by (apply (app_inv_head (repeat 0 z)); congruence). subst r'.
  assert (rev ds = rev ds').
  { apply (canon_unique 58 _ _ (number 58 ds)); [lia|apply canon_of; auto; [lia|now apply forall2_small in F]|].
    replace (number 58 ds) with (number 58 ds') by congruence. apply canon_of; auto; [lia|now apply forall2_small in F']. }
  assert (ds = ds') by (rewrite <- (rev_involutive ds), <- (rev_involutive ds'); congruence). subst ds'. rewrite (forall2_char_fun ds cs cs' F F') in S. congruence.
Qed.
Lemma ones_unique : forall z chars ds, Forall2 digit58 chars ds -> no_leading_zero ds -> leading_ones (repeat 49 z ++ chars) = z.
Proof.
  induction z as [|z IH]; intros chars ds F H; cbn [repeat app leading_ones].
  - destruct F as [|c d cs ds' CD F]; [reflexivity|]. unfold no_leading_zero in H. cbn [hd] in H. cbn [leading_ones].
    destruct (N.eqb_spec c 49) as [-> |]; [|reflexivity]. exfalso. apply H. now apply (digit58_zero 49).
  - cbn [N.eqb Pos.eqb]. now rewrite (IH _ _ F H).
Qed.
Lemma base58_inj : forall d d' s, base58 d s -> base58 d' s -> d = d'.
Proof.
  intros d d' s (z & r & ds & cs & D & OR & NR & S & F & ND & V) (z' & r' & ds' & cs' & D' & OR' & NR' & S' & F' & ND' & V').
  assert (z = z') by (rewrite <- (ones_unique z cs ds F ND), <- (ones_unique z' cs' ds' F' ND'); congruence). subst z'.
  assert (cs = cs') by (apply (app_inv_head (repeat 49 z)); congruence). subst cs'.
  assert (ds = ds') by (now apply (forall2_digit_fun cs)). subst ds'.
  assert (rev r = rev r').
  { apply (canon_unique 256 _ _ (number 256 r)); [lia|apply canon_of; auto; lia|].
    replace (number 256 r) with (number 256 r') by congruence. apply canon_of; auto; lia. }
  assert (r = r') by (rewrite <- (rev_involutive r), <- (rev_involutive r'); congruence). congruence.
Qed.
Lemma base58_good : forall d s, base58 d s -> first_bad s = None.
Proof.
  intros d s (z & r & ds & cs & D & OR & NR & S & F & _). assert (G : forall (c : N) s', Forall (fun c => exists d, digit58 c d) s' -> first_bad s' = None).
  { intros _ s'. induction 1 as [|c s' [x X] H IH]; [reflexivity|]. cbn [first_bad]. apply digits_table in X. now rewrite X. }
  apply (G 0). subst s. apply Forall_app. split.
  - apply Forall_forall. intros x X. apply repeat_spec in X. subst. exists 0. reflexivity.
  - clear -F. induction F; constructor; eauto.
Qed.
Lemma base58_bytes : forall d s, base58 d s -> bytes_ok d.
Proof.
  intros d s (z & r & ds & cs & -> & OR & _). apply bytes_ok_app. split; auto. apply Forall_forall. intros x X. apply repeat_spec in X. subst. reflexivity.
Qed.

(** lengths *)
Lemma pow_table : forall n z, z <= n -> n <= 93 -> 256 ^ (n - z) <= 58 ^ (128 - z).
Proof.
  assert (T : forallb (fun k => 256 ^ (93 - N.of_nat k) <=? 58 ^ (128 - N.of_nat k)) (seq 0 94) = true) by (vm_compute; reflexivity).
  rewrite forallb_forall in T. intros n z Z H. specialize (T (N.to_nat z) ltac:(apply in_seq; lia)). rewrite N2Nat.id in T. apply N.leb_le in T.
  apply N.le_trans with (256 ^ (93 - z)); auto. apply N.pow_le_mono_r; lia.
Qed.
Lemma base58_len : forall d s, base58 d s -> lenN d <= 93 -> lenN s <= 128.
Proof.
  intros d s (z & r & ds & cs & -> & OR & NR & -> & F & ND & V) L. rewrite lenN_app in *. unfold lenN at 1 in L. unfold lenN at 1. rewrite repeat_length in *.
  pose proof (canon_of 58 ds ltac:(lia) (forall2_small _ _ F) ND) as C. apply forall2_len in F. assert (FL : lenN cs = lenN ds) by (now apply same_len). rewrite FL.
  destruct C as (_ & _ & [M|M]); [assert (ds = []) as -> by (rewrite <- (rev_involutive ds), M; reflexivity); rewrite lenN_nil; lia|].
  assert (LR : lenN (rev ds) = lenN ds) by (apply same_len, rev_length). rewrite LR in M. rewrite <- V in M.
  assert (VL : number 256 r < 256 ^ lenN r).
  { rewrite number_dval. assert (lenN (rev r) = lenN r) as <- by (apply same_len, rev_length). apply dval_lt, small_rev, OR. }
  apply N.nlt_ge. intro X. pose proof (pow_table (N.of_nat z + lenN r) (N.of_nat z) ltac:(lia) L) as T. replace (N.of_nat z + lenN r - N.of_nat z) with (lenN r) in T by lia.
  assert (58 ^ (128 - N.of_nat z) <= 58 ^ (lenN ds - 1)) by (apply N.pow_le_mono_r; lia).
  apply (N.lt_irrefl (number 256 r)). apply N.lt_le_trans with (256 ^ lenN r); auto. apply N.le_trans with (58 ^ (128 - N.of_nat z)); auto. now apply N.le_trans with (58 ^ (lenN ds - 1)).
Qed.
Lemma base58_total : forall data, bytes_ok data -> exists s, base58 data s.
Proof. intros data OK. destruct (encode_buffer_spec None data OK) as (s & B & _). eauto. Qed.
Lemma base58_big : forall x d s, x <> 0 -> base58 (x :: d) s -> x * 256 ^ lenN d < 58 ^ lenN s.
Proof.
  intros x d s NZ (z & r & ds & cs & E & OR & NR & -> & F & ND & V). destruct z as [|z]; [|cbn [repeat app] in E; congruence].
  cbn [repeat app] in *. subst r. apply forall2_small in F as SD. apply forall2_len in F. assert (lenN cs = lenN ds) as -> by (now apply same_len).
  apply N.le_lt_trans with (number 256 (x :: d)).
  - rewrite number_dval. cbn [rev]. rewrite dval_app. assert (lenN (rev d) = lenN d) as -> by (apply same_len, rev_length). cbn [dval]. rewrite N.mul_0_r, N.add_0_r. lia.
  - rewrite V, number_dval. assert (lenN ds = lenN (rev ds)) as -> by (symmetry; apply same_len, rev_length). apply dval_lt, small_rev, SD.
Qed.
Lemma first_bad_split : forall s c, first_bad s = Some c -> exists pre post, s = pre ++ c :: post /\
  Forall (fun x => In x alphabet) pre /\ ~ In c alphabet.
Proof.
  induction s as [|x s IH]; intros c H; [discriminate|]. cbn [first_bad] in H. destruct (nth (N.to_nat x) BASE58_DIGITS None) as [d|] eqn:E.
  - destruct (IH c H) as (pre & post & -> & F & NI). exists (x :: pre), post. split; [reflexivity|]. split; auto. constructor; auto.
    apply digits_table in E. now apply nth_error_In in E.
  - assert (x = c) as -> by congruence. exists [], s. split; [reflexivity|]. split; [constructor|]. intro I. apply In_nth_error in I as (n & I).
    assert (D : digit58 c (N.of_nat n)) by (unfold digit58; now rewrite Nat2N.id). apply digits_table in D. congruence.
Qed.
Lemma first_bad_none : forall s, Forall (fun c => In c alphabet) s -> first_bad s = None.
Proof.
  induction 1 as [|c s I H IH]; [reflexivity|]. cbn [first_bad]. apply In_nth_error in I as (n & I).
  assert (D : digit58 c (N.of_nat n)) by (unfold digit58; now rewrite Nat2N.id). apply digits_table in D. now rewrite D.
Qed.
Lemma first_bad_none_inv : forall s, first_bad s = None -> Forall (fun c => In c alphabet) s.
Proof.
  induction s as [|c s IH]; intro H; [constructor|]. cbn [first_bad] in H. destruct (nth (N.to_nat c) BASE58_DIGITS None) as [d|] eqn:E; [|discriminate].
  constructor; auto. apply digits_table in E. now apply nth_error_In in E.
Qed.

  Lemma check_split : forall (d : bytes), 4 <= lenN d -> exists p ck, d = p ++ ck /\ lenN ck = 4 /\ p = takeN (lenN d - 4) d /\ ck = dropN (lenN d - 4) d.
  Proof. intros d L. exists (takeN (lenN d - 4) d), (dropN (lenN d - 4) d). split; [now rewrite takeN_dropN|]. split; [rewrite lenN_dropN; lia|auto]. Qed.
  Lemma le4_inj : forall a b, bytes_ok a -> bytes_ok b -> lenN a = 4 -> lenN b = 4 -> le_val a = le_val b -> a = b.
  Proof.
    intros a b A B LA LB E. rewrite <- (le_bytes_val a A), <- (le_bytes_val b B), E. f_equal. unfold lenN in *. lia.
  Qed.
  Lemma build_bad_cap : forall cap s buf v c, canon 256 buf v -> fits cap buf = true -> first_bad s = Some c ->
    build_base256 cap s buf = Ret (Err (InvalidChar c)) \/ build_base256 cap s buf = Ret (Err BufferFull).
  Proof.
    intro cap. induction s as [|x s IH]; intros buf v c C F H; [discriminate|]. cbn [first_bad build_base256] in *. destruct (nth (N.to_nat x) BASE58_DIGITS None) as [d|] eqn:E.
    - apply digits_table in E. apply digit58_lt in E. destruct (dec_step cap buf v d C ltac:(lia) F) as (b' & C' & E').
      destruct (dec_digits buf d) as [[b c0]|]; [|discriminate]. cbn [rbind] in *. rewrite E'. cbn [rbind]. destruct (fits cap b') eqn:F'; [exact (IH _ _ _ C' F' H)|auto].
    - left. congruence.
  Qed.
Section Sha.
  Variable sha256d : bytes -> bytes.
  Hypothesis SHA : forall m, lenN (sha256d m) = 32 /\ bytes_ok (sha256d m).
  Lemma ck_len : forall m, lenN (checksum sha256d m) = 4.
  Proof. intro m. destruct (SHA m) as [L _]. unfold checksum, lenN in *. rewrite firstn_length. lia. Qed.
  Lemma ck_ok : forall m, bytes_ok (checksum sha256d m).
  Proof. intro m. destruct (SHA m) as [_ B]. unfold checksum. rewrite <- (firstn_skipn 4) in B. apply bytes_ok_app in B. tauto. Qed.
  Lemma encode_spec : forall p s, bytes_ok p -> lenN p < 2 ^ 56 -> base58 (p ++ checksum sha256d p) s ->
    encode sha256d p = if (lenN p =? 90) && (128 <? lenN s) then Panic else Ret s.
  Proof.
    intros p s OK L B. unfold encode, encoded_check_reserve_len. change (2 ^ 56) with 72057594037927936 in L.
    destruct (N.ltb_spec ((lenN p + 4) * 137) (2 ^ 64)) as [_|X]; [|change (2 ^ 64) with 18446744073709551616 in X; lia]. cbn [rbind].
    set (cap := if (lenN p + 4) * 137 / 100 <=? SHORT_OPT_BUFFER_LEN then Some SHORT_OPT_BUFFER_LEN else None).
    assert (OK' : bytes_ok (p ++ checksum sha256d p)) by (apply bytes_ok_app; split; auto; apply ck_ok).
    destruct (encode_buffer_spec cap _ OK') as (s' & B' & E). rewrite (base58_fun _ _ _ B' B) in E. rewrite E. cbn [rbind].
    assert (LT : lenN (p ++ checksum sha256d p) = lenN p + 4) by (now rewrite lenN_app, ck_len). pose proof (base58_len _ _ B) as LS. rewrite LT in LS.
    unfold cap, SHORT_OPT_BUFFER_LEN. clear E cap OK' B' LT B OK. destruct (N.leb_spec ((lenN p + 4) * 137 / 100) 128) as [R|R].
    - assert (lenN p <= 90) by lia. cbn [fits]. clear R. destruct (N.leb_spec (lenN s) 128) as [X|X]; destruct (N.ltb_spec 128 (lenN s)); try lia.
      + now rewrite andb_false_r.
      + destruct (N.eqb_spec (lenN p) 90); [reflexivity|lia].
    - cbn [fits]. assert (lenN p <> 90) by lia. destruct (N.eqb_spec (lenN p) 90); [lia|reflexivity].
  Qed.
  Lemma check_spec : forall d, bytes_ok d ->
    check sha256d d =
      if lenN d <? 4 then Err (TooShort (lenN d))
      else let p := takeN (lenN d - 4) d in let ck := dropN (lenN d - 4) d in
           if le_val ck =? le_val (checksum sha256d p) then Ok p else Err (IncorrectChecksum (le_val ck) (le_val (checksum sha256d p))).
  Proof. intros d OK. unfold check. destruct (lenN d <? 4); [reflexivity|]. cbv zeta. now destruct (le_val (dropN (lenN d - 4) d) =? le_val (checksum sha256d (takeN (lenN d - 4) d))). Qed.
  Lemma check_ok : forall d p, bytes_ok d -> (check sha256d d = Ok p <-> d = p ++ checksum sha256d p).
  Proof.
    intros d p OK. unfold check. split.
    - destruct (N.ltb_spec (lenN d) 4) as [L|L]; [discriminate|]. destruct (check_split d L) as (q & ck & DE & LC & QE & CE). rewrite <- QE, <- CE.
      destruct (N.eqb_spec (le_val ck) (le_val (checksum sha256d q))) as [E|NE]; cbn [negb]; [|discriminate]. intro H. assert (q = p) as -> by congruence.
      rewrite DE. f_equal. apply le4_inj; auto using ck_ok, ck_len. rewrite DE in OK. apply bytes_ok_app in OK. tauto.
    - intros ->. assert (lenN (p ++ checksum sha256d p) = lenN p + 4) as -> by (now rewrite lenN_app, ck_len).
      destruct (N.ltb_spec (lenN p + 4) 4); [lia|]. replace (lenN p + 4 - 4) with (lenN p) by lia.
      rewrite takeN_app_le, dropN_app_ge by lia. rewrite takeN_all by lia. rewrite N.sub_diag, dropN_0, N.eqb_refl. reflexivity.
  Qed.
  Lemma decode_check_good : forall d s, base58 d s -> decode_check sha256d s = Ret (check sha256d d).
  Proof.
    intros d s B. destruct (decode_spec s (base58_good _ _ B)) as (scratch & B' & E). unfold decode_check. rewrite (E None). cbn [fits rbind].
    now rewrite (base58_inj _ _ _ B' B).
  Qed.
  Lemma decode_check_bad : forall s c, first_bad s = Some c -> decode_check sha256d s = Ret (Err (Decode c)).
  Proof. intros s c H. unfold decode_check. rewrite (build_bad s [] 0 c (canon_nil 256) H). reflexivity. Qed.
  Lemma array_good : forall n d s, base58 d s -> decode_check_to_array sha256d n s =
    Ret (if 128 <? lenN d then Err (UnexpectedLength n (lenN s * 11 / 15))
         else if lenN d <? 4 then Err (DecodeErr (TooShort (lenN d)))
         else if negb (lenN d - 4 =? n) then Err (UnexpectedLength n (lenN d - 4))
         else match check sha256d d with Ok p => Ok p | Err e => Err (DecodeErr e) end).
  Proof.
    intros n d s B. pose proof (base58_bytes _ _ B) as OK. destruct (decode_spec s (base58_good _ _ B)) as (scratch & B' & E). unfold decode_check_to_array. rewrite (E (Some SHORT_OPT_BUFFER_LEN)).
    assert (DE : repeat 0 (leading_ones s) ++ rev scratch = d) by (now apply (base58_inj _ _ s)).
    assert (LD : N.of_nat (leading_ones s) + lenN scratch = lenN d).
    { rewrite <- DE, lenN_app. unfold lenN. rewrite repeat_length, rev_length. reflexivity. }
    unfold SHORT_OPT_BUFFER_LEN in *. cbn [fits rbind]. destruct (N.leb_spec (lenN scratch) 128) as [F|F]; cbn [rbind].
    - cbv zeta. rewrite LD, DE. destruct (N.ltb_spec 128 (lenN d)) as [X|X]; [reflexivity|]. unfold check.
      destruct (N.ltb_spec (lenN d) 4) as [L|L]; [reflexivity|].
      assert (lenN (takeN (lenN d - 4) d) = lenN d - 4) as -> by (rewrite lenN_takeN; lia). destruct (lenN d - 4 =? n); cbn [negb]; [|reflexivity].
      now destruct (negb (le_val (dropN (lenN d - 4) d) =? le_val (checksum sha256d (takeN (lenN d - 4) d)))).
    - destruct (N.ltb_spec 128 (lenN d)); [reflexivity|lia].
  Qed.
End Sha.
