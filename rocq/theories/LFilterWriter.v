(** Lemmas: compact block filters written to any writer. *)
From Verif Require Import Base MDec MWitness MTx MBip152 MEnc SEnc LEnc MBip158 SBip158 LBip158 LBip158b MIo SIo LIo MIoDrive SIoDrive LIoDrive LSigWriter MFilterWriter.
Local Open Scope N_scope.

(** ** The counts *)
Definition counted (w w' : bit_writer) (k : N) : Prop := lenN (bw_out w') = lenN (bw_out w) + k.
Lemma flush_counted : forall w, counted w (fst (bw_flush w)) (snd (bw_flush w)).
Proof. intro w. unfold bw_flush, counted. destruct (0 <? bw_off w); cbn [fst snd bw_out]; [rewrite lenN_app; reflexivity|lia]. Qed.
Lemma loop_counted : forall fuel w data nbits wrote, exists k, snd (write_loop fuel w data nbits wrote) = wrote + k /\ counted w (fst (write_loop fuel w data nbits wrote)) k.
Proof.
  unfold counted. induction fuel as [|fuel IH]; intros w data nbits wrote; cbn [write_loop]; (destruct (nbits =? 0); [exists 0; cbn [fst snd]; lia|]); [exists 0; cbn [fst snd]; lia|].
  set (w1 := mk_bw _ _ (bw_out w)). destruct (bw_off w1 =? 8).
  - pose proof (flush_counted w1) as F. unfold counted in F. destruct (bw_flush w1) as [w2 n]. cbn [fst snd] in F. destruct (IH w2 data (nbits - N.min (8 - bw_off w) nbits) (wrote + n)) as (k & A & B). exists (n + k). unfold w1 in F. cbn [bw_out] in F. lia.
  - destruct (IH w1 data (nbits - N.min (8 - bw_off w) nbits) wrote) as (k & A & B). exists k. split; [exact A|]. exact B.
Qed.
Lemma write_counted : forall w data nbits w' k, bw_write w data nbits = Ok (w', k) -> counted w w' k.
Proof.
  intros w data nbits w' k E. unfold bw_write in E. destruct (64 <? nbits); [discriminate|]. injection E as E. destruct (loop_counted (N.to_nat nbits) w data nbits 0) as (k' & A & B). rewrite E in A, B. cbn [fst snd] in A, B. rewrite N.add_0_l in A. now subst k'.
Qed.
Lemma ones_counted : forall fuel w q wrote w' n, write_ones fuel w q wrote = Ok (w', n) -> exists k, n = wrote + k /\ counted w w' k.
Proof.
  unfold counted. induction fuel as [|fuel IH]; intros w q wrote w' n E; cbn [write_ones] in E; (destruct (q =? 0); [injection E as <- <-; exists 0; lia|]); [injection E as <- <-; exists 0; lia|].
  destruct (bw_write w (U64 - 1) (N.min q 64)) as [[w1 k]|] eqn:E1; [|discriminate]. apply write_counted in E1. unfold counted in E1. destruct (IH _ _ _ _ _ E) as (k2 & A & B). exists (k + k2). lia.
Qed.
Lemma golomb_counted : forall p w n w' k, golomb_rice_encode p w n = Ret (Ok (w', k)) -> counted w w' k.
Proof.
  intros p w n w' k E. unfold golomb_rice_encode in E. destruct (64 <=? p); [discriminate|].
  destruct (write_ones (N.to_nat (N.shiftr n p)) w (N.shiftr n p) 0) as [[w1 a]|] eqn:E1; [|discriminate]. destruct (bw_write w1 0 1) as [[w2 b]|] eqn:E2; [|discriminate]. destruct (bw_write w2 n p) as [[w3 c]|] eqn:E3; [|discriminate]. injection E as <- <-.
  apply write_counted in E2, E3. apply ones_counted in E1 as (k1 & -> & E1). unfold counted in *. lia.
Qed.
Lemma deltas_counted : forall p l w last wrote w' n, encode_deltas p w last l wrote = Ret (Ok (w', n)) -> exists k, n = wrote + k /\ counted w w' k.
Proof.
  intros p. unfold counted. induction l as [|d l IH]; intros w last wrote w' n E; cbn [encode_deltas] in E; [injection E as <- <-; exists 0; lia|].
  destruct (d <? last); [discriminate|]. destruct (golomb_rice_encode p w (d - last)) as [[[w1 k]|]|] eqn:E1; cbn [rbind] in E; [|discriminate|discriminate].
  apply golomb_counted in E1. unfold counted in E1. destruct (IH _ _ _ _ _ E) as (k2 & A & B). exists (k + k2). lia.
Qed.
Lemma finish_counted : forall g els content n, gcs_finish g els [] = Ret (Ok (content, n)) -> n = lenN content.
Proof.
  intros g els content n E. unfold gcs_finish in E. destruct (U64 <=? lenN els * g_m g); [discriminate|]. destruct (map_elements g (lenN els * g_m g) els) as [mapped|]; [|discriminate]. cbn [rbind app] in E.
  destruct (encode_deltas (g_p g) (writer_new (cs_encode (lenN mapped))) 0 (sort_n mapped) (lenN (cs_encode (lenN mapped)))) as [[[w1 k1]|]|] eqn:E1; cbn [rbind] in E; [|discriminate|discriminate].
  apply deltas_counted in E1 as (k & -> & C). pose proof (flush_counted w1) as F. destruct (bw_flush w1) as [w2 k2]. cbn [fst snd] in F. unfold counted in *. cbn [writer_new bw_out] in C. injection E as <- <-. lia.
Qed.

Section W.
  Context (W : writer) (out : wstate W -> bytes) (Law : writes_to W out).
  (** the stream [b] is where the one in memory, [w], is; [base] was there before *)
  Definition rel (base : bytes) (b : bits_to W) (w : bit_writer) : Prop :=
    bt_buf b = bw_buf w /\ bt_off b = bw_off w /\ out (bt_w b) = base ++ bw_out w.
  Definition track {A} (x : nat -> bits_to W -> outcome W A) (w w' : bit_writer) (a : A) : Prop :=
    (exists t, bw_out w' = bw_out w ++ t) /\
    (forall f b base r, rel base b w -> x f b = Some r -> exists res b', r = Ret (res, b') /\
       match res with
       | Ok a' => a' = a /\ rel base b' w'
       | Err (FwIo k) => k <> Interrupted /\ exists p q, bw_out w' = p ++ q /\ q <> [] /\ out (bt_w b') = base ++ p
       | Err FwTooManyBits => False
       end) /\
    (forall m, settles_w W m -> forall f b base, rel base b w -> (m (bt_w b) + 1 < f)%nat -> exists res b', x f b = Some (Ret (res, b')) /\ (m (bt_w b') <= m (bt_w b))%nat /\
       forall inv, willing W inv -> inv (bt_w b) -> inv (bt_w b') /\ forall k, res <> Err (FwIo k)).

  Lemma tr_ret : forall A (a : A) w, track (fun _ b => Some (Ret (Ok a, b))) w w a.
  Proof.
    intros A a w. split; [exists []; now rewrite app_nil_r|]. split.
    - intros f b base r R Q. injection Q as <-. exists (Ok a), b. auto.
    - intros m Sm f b base R F. exists (Ok a), b. split; [reflexivity|]. split; [lia|]. intros inv Wi I. split; [exact I|discriminate].
  Qed.
  Lemma tr_bind : forall A B (x : nat -> bits_to W -> outcome W A) (k : A -> nat -> bits_to W -> outcome W B) w w1 w2 a c,
    track x w w1 a -> track (k a) w1 w2 c -> track (fun f b => fbind W (x f b) (fun a b => k a f b)) w w2 c.
  Proof.
    intros A B x k w w1 w2 a c (X1 & X2 & X3) (Y1 & Y2 & Y3). destruct X1 as [t1 X1]. destruct Y1 as [t2 Y1]. split; [exists (t1 ++ t2); rewrite Y1, X1; now rewrite app_assoc|]. split.
    - intros f b base r R Q. destruct (x f b) as [r1|] eqn:E; [|discriminate]. destruct (X2 f b base r1 R E) as (res & b1 & -> & P). cbn [fbind] in Q. destruct res as [a'|e].
      + destruct P as [-> R1]. exact (Y2 f b1 base r R1 Q).
      + injection Q as <-. exists (Err e), b1. split; [reflexivity|]. destruct e as [kd|]; [|exact P]. destruct P as (NK & p & q & E1 & NQ & O). split; [exact NK|]. exists p, (q ++ t2). split; [rewrite Y1, E1; now rewrite app_assoc|]. split; [|exact O].
        intro Z. apply app_eq_nil in Z as [Z _]. contradiction.
    - intros m Sm f b base R F. destruct (X3 m Sm f b base R F) as (res & b1 & E1 & M1 & I1). rewrite E1. cbn [fbind]. destruct res as [a'|e].
      2: { exists (Err e), b1. split; [reflexivity|]. split; [exact M1|]. intros inv Wi I. destruct (I1 inv Wi I) as [I' N']. split; [exact I'|]. intros k0 Z. injection Z as ->. exact (N' k0 eq_refl). }
      destruct (X2 f b base _ R E1) as (res & b1' & Z & P). injection Z as <- <-. destruct P as [-> R1].
      destruct (Y3 m Sm f b1 base R1 ltac:(lia)) as (res & b2 & E2 & M2 & I2). exists res, b2. split; [exact E2|]. split; [lia|]. intros inv Wi I. apply I2; [exact Wi|]. now apply I1.
  Qed.
  Lemma tr_flush : forall w, track (fun f => flush_to W f) w (fst (bw_flush w)) (snd (bw_flush w)).
  Proof using Law.
    intro w. unfold bw_flush. destruct (0 <? bw_off w) eqn:Z; cbn [fst snd]; [|].
    - split; [exists [bw_buf w]; reflexivity|]. split.
      + intros f b base r (B & O & U) Q. unfold flush_to in Q. rewrite O, Z in Q. destruct (MIo.write_all W f (bt_w b) [bt_buf b]) as [x|] eqn:E; [|discriminate].
        destruct (LIo.write_all_spec W out Law f (bt_w b) _ x E) as (res & w' & p & q & -> & D & O' & P). destruct res as [u|k]; injection Q as <-.
        * subst q. rewrite app_nil_r in D. subst p. eexists (Ok 1), _. split; [reflexivity|]. split; [reflexivity|]. split; [reflexivity|]. split; [reflexivity|]. cbn [bt_w bw_out]. rewrite O', U, B. now rewrite app_assoc.
        * destruct P as [NQ NK]. eexists (Err (FwIo k)), _. split; [reflexivity|]. split; [exact NK|]. exists (bw_out w ++ p), q. cbn [bt_w bw_out]. split; [rewrite <- app_assoc, <- D, B; reflexivity|]. split; [exact NQ|]. rewrite O', U. now rewrite app_assoc.
      + intros m Sm f b base (B & O & U) F. unfold flush_to. rewrite O, Z. destruct (write_all_ends W out Law m Sm f (bt_w b) [bt_buf b]) as (res & w' & E & M); [cbn [length]; lia|]. rewrite E.
        destruct res as [u|k]; eexists _, _; (split; [reflexivity|]); (split; [exact M|]); intros inv Wi I; cbn [bt_w]; destruct (write_all_willing W out Law inv Wi f _ _ _ w' I E) as [Y I']; (split; [exact I'|]); [discriminate|discriminate Y].
    - split; [exists []; now rewrite app_nil_r|]. split.
      + intros f b base r R Q. unfold flush_to in Q. replace (bt_off b) with (bw_off w) in Q by (symmetry; apply R). rewrite Z in Q. injection Q as <-. exists (Ok 0), b. auto.
      + intros m Sm f b base R F. unfold flush_to. replace (bt_off b) with (bw_off w) by (symmetry; apply R). rewrite Z. exists (Ok 0), b. split; [reflexivity|]. split; [lia|]. intros inv Wi I. split; [exact I|discriminate].
  Qed.
  (** equal on related streams *)
  Lemma tr_ext : forall A (x y : nat -> bits_to W -> outcome W A) w w' a, (forall f b base, rel base b w -> x f b = y f b) -> track y w w' a -> track x w w' a.
  Proof.
    intros A x y w w' a X (Y1 & Y2 & Y3). split; [exact Y1|]. split.
    - intros f b base r R Q. rewrite (X f b base R) in Q. exact (Y2 f b base r R Q).
    - intros m Sm f b base R F. rewrite (X f b base R). exact (Y3 m Sm f b base R F).
  Qed.
  (** filling the buffer *)
  Lemma tr_fill : forall A (x : nat -> bits_to W -> outcome W A) w buf off w' a, track x (mk_bw buf off (bw_out w)) w' a ->
    track (fun f b => x f (mk_bt buf off (bt_w b))) w w' a.
  Proof.
    intros A x w buf off w' a (Y1 & Y2 & Y3). split; [exact Y1|]. split.
    - intros f b base r R Q. refine (Y2 f _ base r _ Q). split; [reflexivity|]. split; [reflexivity|]. apply R.
    - intros m Sm f b base R F. refine (Y3 m Sm f (mk_bt buf off (bt_w b)) base _ F). split; [reflexivity|]. split; [reflexivity|]. apply R.
  Qed.
  Lemma tr_write_loop : forall fuel w data nbits wrote, bw_off w < 8 -> nbits <= N.of_nat fuel ->
    track (fun f b => write_loop_to W f fuel b data nbits wrote) w (fst (write_loop fuel w data nbits wrote)) (snd (write_loop fuel w data nbits wrote)) /\ bw_off (fst (write_loop fuel w data nbits wrote)) < 8.
  Proof using Law.
    induction fuel as [|fuel IH]; intros w data nbits wrote O F.
    - assert (nbits = 0) as -> by lia. cbn [write_loop write_loop_to N.eqb fst snd]. split; [apply tr_ret|exact O].
    - destruct (N.eqb_spec nbits 0) as [->|Nz]; [cbn [write_loop write_loop_to N.eqb fst snd]; split; [apply tr_ret|exact O]|].
      set (bits := N.min (8 - bw_off w) nbits). set (buf := N.lor (bw_buf w) (N.shiftr (N.shiftl data (64 - nbits) mod U64) (56 + bw_off w) mod 256)).
      assert (Eq : write_loop (S fuel) w data nbits wrote = (if bw_off w + bits =? 8 then let '(w1, n) := bw_flush (mk_bw buf (bw_off w + bits) (bw_out w)) in write_loop fuel w1 data (nbits - bits) (wrote + n)
        else write_loop fuel (mk_bw buf (bw_off w + bits) (bw_out w)) data (nbits - bits) wrote)).
      { cbn [write_loop]. replace (nbits =? 0) with false by lia. reflexivity. }
      set (w1 := mk_bw buf (bw_off w + bits) (bw_out w)) in *. rewrite Eq. clear Eq.
      destruct (N.eqb_spec (bw_off w + bits) 8) as [E8|N8].
      + pose proof (tr_flush w1) as TF. unfold bw_flush in *. change (bw_off w1) with (bw_off w + bits) in *. replace (0 <? bw_off w + bits) with true in * by lia. cbn [fst snd] in TF. set (w2 := mk_bw 0 0 (bw_out w1 ++ [bw_buf w1])) in *.
        destruct (IH w2 data (nbits - bits) (wrote + 1)) as [T Ob]; [unfold w2; cbn [bw_off]; lia|lia|]. split; [|exact Ob].
        apply (tr_ext _ _ (fun f b => fbind W (flush_to W f (mk_bt buf (bw_off w + bits) (bt_w b))) (fun n b => write_loop_to W f fuel b data (nbits - bits) (wrote + n)))).
        { intros f b base (B & Of & _). cbn [write_loop_to]. replace (nbits =? 0) with false by lia. rewrite B, Of. replace (64 <=? 56 + bw_off w) with false by lia. cbn [bt_off]. fold bits buf. replace (bw_off w + bits =? 8) with true by lia. reflexivity. }
        apply (tr_fill _ (fun f b => fbind W (flush_to W f b) (fun n b => write_loop_to W f fuel b data (nbits - bits) (wrote + n))) w buf (bw_off w + bits)). fold w1.
        exact (tr_bind _ _ (fun f => flush_to W f) (fun n f b => write_loop_to W f fuel b data (nbits - bits) (wrote + n)) w1 w2 _ 1 _ TF T).
      + destruct (IH w1 data (nbits - bits) wrote) as [T Ob]; [unfold w1; cbn [bw_off]; lia|lia|]. split; [|exact Ob].
        apply (tr_ext _ _ (fun f b => write_loop_to W f fuel (mk_bt buf (bw_off w + bits) (bt_w b)) data (nbits - bits) wrote)).
        { intros f b base (B & Of & _). cbn [write_loop_to]. replace (nbits =? 0) with false by lia. rewrite B, Of. replace (64 <=? 56 + bw_off w) with false by lia. cbn [bt_off]. fold bits buf. replace (bw_off w + bits =? 8) with false by lia. reflexivity. }
        exact (tr_fill _ (fun f b => write_loop_to W f fuel b data (nbits - bits) wrote) w buf (bw_off w + bits) _ _ T).
  Qed.
  Lemma tr_write : forall w data nbits w' n, bw_off w < 8 -> bw_write w data nbits = Ok (w', n) -> track (fun f b => write_to W f b data nbits) w w' n /\ bw_off w' < 8.
  Proof using Law.
    intros w data nbits w' n O E. unfold bw_write in E. unfold write_to. destruct (64 <? nbits); [discriminate|]. injection E as E. destruct (tr_write_loop (N.to_nat nbits) w data nbits 0 O ltac:(lia)) as [T Ob]. rewrite E in T, Ob. auto.
  Qed.
  Lemma tr_ones : forall fuel w q wrote w' n, bw_off w < 8 -> q <= N.of_nat fuel -> write_ones fuel w q wrote = Ok (w', n) -> track (fun f b => ones_to W f fuel b q wrote) w w' n /\ bw_off w' < 8.
  Proof using Law.
    induction fuel as [|fuel IH]; intros w q wrote w' n O F E.
    - assert (q = 0) as -> by lia. cbn [write_ones ones_to N.eqb] in *. injection E as <- <-. split; [apply tr_ret|exact O].
    - cbn [write_ones ones_to] in *. destruct (N.eqb_spec q 0) as [->|Nz]; [injection E as <- <-; split; [apply tr_ret|exact O]|].
      destruct (bw_write w (U64 - 1) (N.min q 64)) as [[w1 k]|] eqn:E1; [|discriminate]. destruct (tr_write _ _ _ _ _ O E1) as [T1 O1]. destruct (IH w1 (q - N.min q 64) (wrote + k) w' n O1 ltac:(lia) E) as [T2 O2]. split; [|exact O2].
      exact (tr_bind _ _ (fun f b => write_to W f b (U64 - 1) (N.min q 64)) (fun n f b => ones_to W f fuel b (q - N.min q 64) (wrote + n)) _ _ _ _ _ T1 T2).
  Qed.
  Lemma tr_golomb : forall p w n w' k, bw_off w < 8 -> golomb_rice_encode p w n = Ret (Ok (w', k)) -> track (fun f b => golomb_to W f p b n) w w' k /\ bw_off w' < 8.
  Proof using Law.
    intros p w n w' k O E. unfold golomb_rice_encode in E. unfold golomb_to. destruct (64 <=? p); [discriminate|].
    destruct (write_ones (N.to_nat (N.shiftr n p)) w (N.shiftr n p) 0) as [[w1 a]|] eqn:E1; [|discriminate]. destruct (bw_write w1 0 1) as [[w2 b]|] eqn:E2; [|discriminate]. destruct (bw_write w2 n p) as [[w3 c]|] eqn:E3; [|discriminate]. injection E as <- <-.
    destruct (tr_ones (N.to_nat (N.shiftr n p)) w (N.shiftr n p) 0 w1 a O ltac:(lia) E1) as [T1 O1]. destruct (tr_write _ _ _ _ _ O1 E2) as [T2 O2]. destruct (tr_write _ _ _ _ _ O2 E3) as [T3 O3]. split; [|exact O3].
    refine (tr_bind _ _ (fun f b => ones_to W f (N.to_nat (N.shiftr n p)) b (N.shiftr n p) 0) (fun x f b => fbind W (write_to W f b 0 1) (fun y b => fbind W (write_to W f b n p) (fun z b => Some (Ret (Ok (x + y + z), b))))) _ _ _ _ _ T1 _).
    refine (tr_bind _ _ (fun f b => write_to W f b 0 1) (fun y f b => fbind W (write_to W f b n p) (fun z b => Some (Ret (Ok (a + y + z), b)))) _ _ _ _ _ T2 _).
    refine (tr_bind _ _ (fun f b => write_to W f b n p) (fun z f b1 => Some (Ret (Ok (a + b + z), b1))) _ _ _ _ _ T3 _). apply tr_ret.
  Qed.
  Lemma tr_deltas : forall p l w last wrote w' k, bw_off w < 8 -> encode_deltas p w last l wrote = Ret (Ok (w', k)) -> track (fun f b => deltas_to W f p b last l wrote) w w' k /\ bw_off w' < 8.
  Proof using Law.
    intros p. induction l as [|d l IH]; intros w last wrote w' k O E; cbn [encode_deltas deltas_to] in *; [injection E as <- <-; split; [apply tr_ret|exact O]|].
    destruct (d <? last); [discriminate|]. destruct (golomb_rice_encode p w (d - last)) as [[[w1 n]|]|] eqn:E1; cbn [rbind] in E; [|discriminate|discriminate].
    destruct (tr_golomb _ _ _ _ _ O E1) as [T1 O1]. destruct (IH _ _ _ _ _ O1 E) as [T2 O2]. split; [|exact O2].
    exact (tr_bind _ _ (fun f b => golomb_to W f p b (d - last)) (fun n f b => deltas_to W f p b d l (wrote + n)) _ _ _ _ _ T1 T2).
  Qed.
  (** the coded part with the last flush *)
  Lemma tr_body : forall p l w last wrote w' k, bw_off w < 8 -> encode_deltas p w last l wrote = Ret (Ok (w', k)) ->
    track (fun f b => fbind W (deltas_to W f p b last l wrote) (fun a b => fbind W (flush_to W f b) (fun k b => Some (Ret (Ok (a + k), b))))) w (fst (bw_flush w')) (k + snd (bw_flush w')).
  Proof using Law.
    intros p l w last wrote w' k O E. destruct (tr_deltas _ _ _ _ _ _ _ O E) as [T _].
    refine (tr_bind _ _ (fun f b => deltas_to W f p b last l wrote) (fun a f b => fbind W (flush_to W f b) (fun k b => Some (Ret (Ok (a + k), b)))) _ _ _ _ _ T _).
    refine (tr_bind _ _ (fun f b => flush_to W f b) (fun k' f b => Some (Ret (Ok (k + k'), b))) _ _ _ _ _ (tr_flush w') _). apply tr_ret.
  Qed.

  Lemma finish_written : forall g els content n, gcs_finish g els [] = Ret (Ok (content, n)) ->
    (forall f w r, finish_to W f g els w = Some r -> exists res w', r = Ret (res, w') /\
       match res with
       | Ok n' => n' = n /\ out w' = out w ++ content
       | Err (FwIo k) => k <> Interrupted /\ exists p q, content = p ++ q /\ q <> [] /\ out w' = out w ++ p
       | Err FwTooManyBits => False
       end) /\
    (forall m, settles_w W m -> forall w, exists n0, forall f, (n0 <= f)%nat -> exists res w', finish_to W f g els w = Some (Ret (res, w')) /\
       forall inv, willing W inv -> inv w -> forall k, res <> Err (FwIo k)).
  Proof using Law.
    intros g els content n E. unfold gcs_finish in E. unfold finish_to. destruct (U64 <=? lenN els * g_m g); [discriminate|]. destruct (map_elements g (lenN els * g_m g) els) as [mapped|]; [|discriminate]. cbn [rbind app] in E.
    destruct (encode_deltas (g_p g) (writer_new (cs_encode (lenN mapped))) 0 (sort_n mapped) (lenN (cs_encode (lenN mapped)))) as [[[w1 k1]|]|] eqn:E1; cbn [rbind] in E; [|discriminate|discriminate].
    assert (O0 : bw_off (writer_new (cs_encode (lenN mapped))) < 8) by (cbn [writer_new bw_off]; lia). pose proof (tr_body (g_p g) _ _ _ _ _ _ O0 E1) as (T1 & T2 & T3). destruct (bw_flush w1) as [w2 k2] eqn:E2. cbn [fst snd] in *. apply (f_equal (fun x => match x with Ret (Ok y) => y | _ => ([], 0) end)) in E. cbv beta iota in E.
    injection E as <- <-. set (cs := cs_encode (lenN mapped)) in *. assert (Sd : sound (EBytes cs)) by exact I. split.
    - intros f w r Q. destruct (drain_to_writer W f f (EBytes cs) w) as [x|] eqn:Ed; [|discriminate]. destruct (drain_spec W out Law f f _ w x Sd Ed) as (res & w3 & p & q & -> & D & O & P). destruct res as [u|k].
      + subst q. rewrite app_nil_r in D. cbn [SEnc.content] in D. subst p.
        destruct (fbind W _ _) as [x|] eqn:Eb in Q; [|discriminate]. destruct (T2 f (bits_new W w3) (out w) x) as (res & b' & -> & R); [split; [reflexivity|]; split; [reflexivity|exact O]|exact Eb|].
        injection Q as <-. exists res, (bt_w b'). split; [reflexivity|]. destruct res as [n|[k|]]; [|exact R|exact R]. destruct R as (-> & _ & _ & R). auto.
      + injection Q as <-. destruct P as [NQ NK]. exists (Err (FwIo k)), w3. split; [reflexivity|]. split; [exact NK|]. destruct T1 as [t T1]. cbn [writer_new bw_out] in T1. cbn [SEnc.content] in D. exists p, (q ++ t). split; [rewrite T1, D; now rewrite app_assoc|]. split; [|exact O].
        intro Z. apply app_eq_nil in Z as [Z _]. contradiction.
    - intros m Sm w. exists (m w + steps (EBytes cs) + length cs + 2)%nat. intros f F. destruct (drain_less (fun x => x) W out Law m Sm f f (EBytes cs) w Sd) as (res & w3 & Ed & M3); [lia|cbn [SEnc.content]; lia|]. rewrite Ed. destruct res as [u|k].
      + destruct (drain_spec W out Law f f _ w _ Sd Ed) as (res & w3' & p & q & Z & D & O & P). injection Z as <- <-. subst q. rewrite app_nil_r in D. cbn [SEnc.content] in D. subst p.
        destruct (T3 m Sm f (bits_new W w3) (out w)) as (res & b' & Eb & M4 & I4); [split; [reflexivity|]; split; [reflexivity|exact O]|cbn [bits_new bt_w]; lia|]. rewrite Eb. exists res, (bt_w b'). split; [reflexivity|]. intros inv Wi I. apply (I4 inv Wi).
        cbn [bits_new bt_w]. now destruct (drain_willing W out Law inv Wi f f _ w _ w3 I Sd Ed).
      + exists (Err (FwIo k)), w3. split; [reflexivity|]. intros inv Wi I. destruct (drain_willing W out Law inv Wi f f _ w _ w3 I Sd Ed) as [Z _]. discriminate Z.
  Qed.
End W.
