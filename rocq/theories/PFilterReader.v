(** C30: compact block filters matched from any reader. *)
From Verif Require Import Base MDec MWitness MTx MSip MScript MBip152 SWire SSip LDec LDrive LBuilt SDec MBip158 SBip158 LBip158 LBip158b LBip158c LBip158d PBip158 MIo SIo LIo MIoDrive SIoDrive LIoDrive PIoDrive MFilterReader LFilterReader.
Local Open Scope N_scope.

(** An answer from a reader, and the one for the same bytes in memory: the same answer, the same error, the end of the data in the
    same case; or an error of the reader, never an interruption. *)
Definition same_answer (R : reader) (at_ : rstate R -> bytes -> Prop) (x : rust (result bool match_err)) (mem : rust (result bool filter_err)) : Prop :=
  match x with
  | Panic => mem = Panic
  | Ret (Ok a) => mem = Ret (Ok a)
  | Ret (Err (MfCount (RdDecode e))) => mem = Ret (Err (InvalidCompactSize e))
  | Ret (Err (MfCount (RdIo k))) => k <> Interrupted /\ exists before after, rfill R before = Ret (Err k, after)
  | Ret (Err (MfIo FrTooManyBits)) => mem = Ret (Err (FilterIo TooManyBits))
  | Ret (Err (MfIo (FrIo k))) => k <> Interrupted /\
      ((k = UnexpectedEof /\ mem = Ret (Err (FilterIo MBip158.UnexpectedEof))) \/ exists before d n after, at_ before d /\ rread R before n = Ret (Err k, after))
  end.
(** The in-memory answer as this one. *)
Definition as_read (mem : rust (result bool filter_err)) : rust (result bool match_err) :=
  match mem with
  | Panic => Panic
  | Ret (Ok a) => Ret (Ok a)
  | Ret (Err (InvalidCompactSize e)) => Ret (Err (MfCount (RdDecode e)))
  | Ret (Err (FilterIo MBip158.UnexpectedEof)) => Ret (Err (MfIo (FrIo UnexpectedEof)))
  | Ret (Err (FilterIo TooManyBits)) => Ret (Err (MfIo FrTooManyBits))
  end.

(** reading the count does not add failures *)
Lemma read_with_m : forall A E (D : decoder A E) R at_ m, reads_from R at_ -> settles R at_ m -> forall fuel s st d v st', at_ st d ->
  read_with R D fuel s st = Some (Ret (Ok v, st')) -> (m st' <= m st)%nat.
Proof.
  intros A E D R at_ m Law Sm. induction fuel as [|fuel IH]; intros s st d v st' K Q; [discriminate|]. cbn [read_with] in Q.
  destruct (proj1 (proj2 Law) st d K) as (x & st1 & Ex & K1 & H). pose proof (proj1 (proj2 Sm) st d K) as M1. rewrite Ex in *.
  assert (Fin : forall s0 st0, finish R D s0 st0 = Some (Ret (Ok v, st')) -> st' = st0).
  { intros s0 st0 Z. unfold finish in Z. destruct (fin D s0) as [[u|e]|]; try discriminate. now injection Z as _ <-. }
  destruct x as [bs|k].
  - destruct H as (_ & d' & Ed & Hc). destruct bs as [|c bs]; [apply Fin in Q; subst; exact M1|].
    destruct (push D s (c :: bs)) as [[s' left_] status]. destruct (Hc (lenN (c :: bs) - lenN left_) ltac:(lia)) as (st2 & E2 & K2). rewrite E2 in Q. pose proof (proj2 (proj2 Sm) _ _ _ E2) as M2.
    destruct status; try discriminate; [pose proof (IH _ _ _ _ _ K2 Q); lia|]. apply Fin in Q. subst. lia.
  - destruct (is_interrupted k); [|discriminate]. pose proof (IH _ _ _ _ _ K1 Q). lia.
Qed.

(** both searches *)
Lemma reader_answer : forall R at_ (m : rstate R -> nat) M f, reads_from R at_ ->
  forall (loop : N -> list N -> nat -> bits_from R -> N -> rd_outcome R bool) mloop B,
  (forall gp mapped rem b r data, rel R at_ m M B b r -> sim R at_ f m M B (plain R) (loop gp mapped rem b data) (mloop gp mapped rem r data)) ->
  forall g n mapped st src, at_ st src -> (8 * length src <= B)%nat -> (settles R at_ m -> m st <= M)%nat ->
  match start_from R f g loop n mapped st with
  | None => ~ fuelled R at_ f m M B
  | Some x => same_answer R at_ x (start_loop g mloop n mapped src)
  end.
Proof.
  intros R at_ m M f Law loop mloop B Hl g n mapped st src K HB HM. unfold start_from, start_loop.
  assert (Re : rel R at_ m M B (bits_of_reader R st) (reader_new src)).
  { unfold rel, bits_of_reader, reader_new, bits_left. cbn [bf_buf bf_off bf_r br_buf br_off br_src]. repeat split; auto; lia. }
  pose proof (golomb_sim R at_ Law f m M B (g_p g) _ _ Re) as S1.
  pose proof (sim_bind R at_ f m M B N bool (N * bit_reader) bool (same R at_ m M B) (plain R) _ _ (fun data b => loop (g_p g) mapped (N.to_nat (n - 1)) b data) (fun y => mloop (g_p g) mapped (N.to_nat (n - 1)) (snd y) (fst y)) S1) as X.
  assert (Y : sim R at_ f m M B (plain R) (rd_bind R (golomb_from R f (g_p g) (bits_of_reader R st)) (fun data b => loop (g_p g) mapped (N.to_nat (n - 1)) b data))
    (rbind (golomb_rice_decode (g_p g) (reader_new src)) (fun x => match x with Err e => Ret (Err e) | Ok (data, r) => mloop (g_p g) mapped (N.to_nat (n - 1)) r data end))).
  { replace (rbind _ _) with (rbind (golomb_rice_decode (g_p g) (reader_new src)) (fun z => match z with Err e => Ret (Err e) | Ok y => mloop (g_p g) mapped (N.to_nat (n - 1)) (snd y) (fst y) end)).
    - apply X. intros a b y [<- Q]. apply Hl. exact Q.
    - destruct (golomb_rice_decode (g_p g) (reader_new src)) as [[[d r]|e]|]; reflexivity. }
  clear X S1. destruct (rd_bind R (golomb_from R f (g_p g) (bits_of_reader R st)) _) as [[[[a|[k|]] b]|]|]; cbn [answer sim same_answer] in *.
  - destruct Y as (y' & -> & Q). cbn [io_result rbind]. unfold plain in Q. now subst.
  - destruct Y as [NK [[-> ->]|F]]; (split; [exact NK|]); auto.
  - rewrite Y. reflexivity.
  - rewrite Y. reflexivity.
  - exact Y.
Qed.
Lemma with_answer : forall R at_, reads_from R at_ -> forall f m g query st d (k : N -> list N -> rstate R -> option (rust (result bool match_err))) km, at_ st d ->
  (forall n mapped st' src, at_ st' src -> (length src <= length d)%nat -> (settles R at_ m -> m st' <= m st)%nat ->
     match k n mapped st' with None => ~ fuelled R at_ f m (m st) (8 * length d)%nat | Some x => same_answer R at_ x (km n mapped src) end) ->
  match with_reader R f g query st k with None => ~ fuelled R at_ f m (m st) (8 * length d)%nat | Some x => same_answer R at_ x (with_filter g d query km) end.
Proof.
  intros R at_ Law f m g query st d k km K Hk. unfold with_reader, with_filter.
  destruct (decode_from_read R cs_u64_dec f st) as [out|] eqn:Eo.
  2: { intros [Sm F]. apply (C58_read_ends _ _ _ cs_u64_dec B_compact_u64 R at_ m Law Sm f st d K); [lia|exact Eo]. }
  pose proof (C58_read _ _ _ cs_u64_dec B_compact_u64 R at_ Law f st d out K Eo) as H. destruct (built_lawful _ _ _ _ B_compact_u64) as (gg & den & L & _). pose proof (slice_unbounded_whole cs_u64_dec gg den L d) as Wh. fold (whole cs_u64_dec d) in Wh.
  destruct out as [[[n|e] st']|].
  - destruct H as (taken & rest & Ed & K' & H). rewrite H in Wh. rewrite Wh. cbn [rbind]. destruct (U64 <=? n * g_m g); [reflexivity|]. destruct (map_elements g (n * g_m g) query) as [mapped|]; [|reflexivity]. cbn [rbind]. apply Hk; [exact K'|rewrite Ed, app_length; lia|].
    intro Sm. exact (read_with_m _ _ cs_u64_dec R at_ m Law Sm f _ _ _ _ _ K Eo).
  - destruct H as (taken & rest & Ed & K' & H). destruct e as [kd|e]; cbn [same_answer].
    + destruct H as [NK [before Hb]]. split; [exact NK|]. eauto.
    + rewrite H in Wh. destruct Wh as [r ->]. reflexivity.
  - rewrite H in Wh. rewrite Wh. reflexivity.
Qed.
Lemma any_answer : forall R at_, reads_from R at_ -> forall f m g query st d, at_ st d ->
  match match_any_from R f g query st with None => ~ fuelled R at_ f m (m st) (8 * length d)%nat | Some x => same_answer R at_ x (gcs_match_any g d query) end.
Proof.
  intros R at_ Law f m g query st d K. unfold match_any_from, gcs_match_any. apply (with_answer R at_ Law f m g query st d _ _ K). intros n mapped st' src K' Ls Ms. destruct mapped as [|a l]; [reflexivity|]. destruct (n =? 0); [reflexivity|].
  apply (reader_answer R at_ m (m st) f Law (any_from R f) any_loop); auto; [|lia]. intros. now apply any_sim.
Qed.
Lemma all_answer : forall R at_, reads_from R at_ -> forall f m g query st d, at_ st d ->
  match match_all_from R f g query st with None => ~ fuelled R at_ f m (m st) (8 * length d)%nat | Some x => same_answer R at_ x (gcs_match_all g d query) end.
Proof.
  intros R at_ Law f m g query st d K. unfold match_all_from, gcs_match_all. apply (with_answer R at_ Law f m g query st d _ _ K). intros n mapped st' src K' Ls Ms. destruct (dedup mapped) as [|a l]; [reflexivity|]. destruct (n =? 0); [reflexivity|].
  apply (reader_answer R at_ m (m st) f Law (all_from R f) all_loop); auto; [|lia]. intros. now apply all_sim.
Qed.

(** Whatever the reader does, matching gives the answer, the error or the panic that the bytes in memory give, or the reader's own error. *)
Theorem C30_reader : forall R at_, reads_from R at_ -> forall f g query st d x, at_ st d ->
  (match_any_from R f g query st = Some x -> same_answer R at_ x (gcs_match_any g d query)) /\
  (match_all_from R f g query st = Some x -> same_answer R at_ x (gcs_match_all g d query)).
Proof.
  intros R at_ Law f g query st d x K. split; intro E; [pose proof (any_answer R at_ Law f (fun _ => 0%nat) g query st d K) as H|pose proof (all_answer R at_ Law f (fun _ => 0%nat) g query st d K) as H]; rewrite E in H; exact H.
Qed.
Lemma kind_dec : forall a b : kind, {a = b} + {a <> b}.
Proof. decide equality. apply N.eq_dec. Qed.
(** When the reader is at worst interrupted, and not for ever, the answer is the one for the bytes in memory. *)
Lemma patient_answer : forall R at_, patient R at_ -> forall x mem, same_answer R at_ x mem -> (forall k, x <> Ret (Err (MfCount (RdIo k)))) -> x = as_read mem.
Proof.
  intros R at_ P x mem H NC. destruct x as [[a|[[k|e]|[k|]]]|]; cbn [same_answer] in H; try (rewrite H; reflexivity).
  - destruct (NC k eq_refl).
  - destruct H as [NK [[-> ->]|(before & d & n & after & K & F)]]; [reflexivity|]. destruct NK. exact (P before d n k after K F).
Qed.
Theorem C30_reader_iff : forall R at_ m, reads_from R at_ -> settles R at_ m -> patient R at_ -> patient_fill R at_ -> forall g query st d, at_ st d ->
  exists n, forall f, (n <= f)%nat -> match_any_from R f g query st = Some (as_read (gcs_match_any g d query)) /\ match_all_from R f g query st = Some (as_read (gcs_match_all g d query)).
Proof.
  intros R at_ m Law Sm P PF g query st d K. exists (m st + 8 * length d + 3)%nat. intros f F. assert (Fu : fuelled R at_ f m (m st) (8 * length d)%nat) by (split; [exact Sm|lia]).
  assert (NC : forall k kk, with_reader R f g query st kk <> Some (Ret (Err (MfCount (RdIo k)))) \/ exists n mapped st', kk n mapped st' = Some (Ret (Err (MfCount (RdIo k))))).
  { intros k kk. unfold with_reader. pose proof (C58_read_iff _ _ _ cs_u64_dec B_compact_u64 R at_ m Law Sm PF f st d K ltac:(lia)) as H. destruct (whole cs_u64_dec d) as [n rest|e|].
    - destruct H as (st' & -> & _). destruct (U64 <=? n * g_m g); [left; discriminate|]. destruct (map_elements g (n * g_m g) query) as [mapped|]; [|left; discriminate].
      destruct (kk n (sort_n mapped) st') as [[[a|[[k'|e]|e]]|]|] eqn:Ek; try (left; discriminate). destruct (kind_dec k k') as [<-|Nk]; [right; eauto|left; congruence].
    - destruct H as (st' & taken & rest & -> & _). left. discriminate.
    - rewrite H. left. discriminate. }
  assert (NA : forall (y : rd_outcome R bool) k, answer R y <> Some (Ret (Err (MfCount (RdIo k))))) by (intros [[[[a|e] b]|]|] k; discriminate).
  split.
  - pose proof (any_answer R at_ Law f m g query st d K) as H. destruct (match_any_from R f g query st) as [x|] eqn:E; [|contradiction]. f_equal. apply (patient_answer R at_ P); [exact H|]. intros k ->. unfold match_any_from in E.
    destruct (NC k (fun n mapped st0 => match mapped with [] => Some (Ret (Ok false)) | _ => if n =? 0 then Some (Ret (Ok false)) else start_from R f g (any_from R f) n mapped st0 end)) as [Z|(n & mapped & st' & Z)]; [exact (Z E)|].
    destruct mapped; [discriminate|]. destruct (n =? 0); [discriminate|]. exact (NA _ _ Z).
  - pose proof (all_answer R at_ Law f m g query st d K) as H. destruct (match_all_from R f g query st) as [x|] eqn:E; [|contradiction]. f_equal. apply (patient_answer R at_ P); [exact H|]. intros k ->. unfold match_all_from in E.
    destruct (NC k (fun n mapped st0 => match dedup mapped with [] => Some (Ret (Ok true)) | _ => if n =? 0 then Some (Ret (Ok false)) else start_from R f g (all_from R f) n (dedup mapped) st0 end)) as [Z|(n & mapped & st' & Z)]; [exact (Z E)|].
    destruct (dedup mapped); [discriminate|]. destruct (n =? 0); [discriminate|]. exact (NA _ _ Z).
Qed.

(** So a filter streamed from such a reader, with anything after it, has no false negatives. *)
Theorem C30_reader_no_false_negative : forall k0 k1 p0 p els content rest query, k0 < 2 ^ 64 -> k1 < 2 ^ 64 -> p < 64 -> is_filter k0 k1 p0 p els content -> bytes_ok rest ->
  lenN els < 2 ^ 64 -> lenN els * p0 < 2 ^ 64 -> Forall element_ok query ->
  forall R at_ m, reads_from R at_ -> settles R at_ m -> patient R at_ -> patient_fill R at_ -> forall st, at_ st (content ++ rest) ->
  exists n, forall f, (n <= f)%nat ->
    ((exists e, In e els /\ In e query) -> match_any_from R f (mk_gcs k0 k1 p0 p) query st = Some (Ret (Ok true))) /\
    ((forall q, In q query -> In q els) -> match_all_from R f (mk_gcs k0 k1 p0 p) query st = Some (Ret (Ok true))).
Proof.
  intros k0 k1 p0 p els content rest query K0 K1 P (vs & pad & Pm & _ & St & Fv & body & Ec & Bo & Bb) Or L Nm Q R at_ m Law Sm Pa PF st K.
  assert (LV : lenN vs = lenN els) by (unfold lenN; now rewrite (Permutation.Permutation_length Pm), map_length).
  assert (Hh : holds p vs (repeat false pad ++ bits_of_bytes rest) (content ++ rest)).
  { split; [exact St|]. split; [exact Fv|]. exists (body ++ rest). split; [rewrite Ec; now rewrite app_assoc|]. split; [apply bytes_ok_app; auto|]. unfold bits_of_bytes in *. rewrite flat_map_app, Bb. now rewrite app_assoc. }
  assert (IV : forall e, In e els -> In (slot k0 k1 (lenN vs * p0) e) vs) by (intros e I; rewrite LV; apply (Permutation.Permutation_in _ (Permutation.Permutation_sym Pm)), in_map; exact I).
  destruct (C30_match k0 k1 p0 p vs _ (content ++ rest) query K0 K1 P Hh ltac:(lia) ltac:(rewrite LV; lia) Q) as [(a & A1 & A2) (b & B1 & B2)].
  destruct (C30_reader_iff R at_ m Law Sm Pa PF (mk_gcs k0 k1 p0 p) query st _ K) as [n Hn]. exists n. intros f F. destruct (Hn f F) as [-> ->]. rewrite A1, B1. cbn [as_read]. split.
  - intros (e & I & J). do 3 f_equal. apply A2. exists e. auto.
  - intro S1. do 3 f_equal. apply B2. auto.
Qed.

(** The genesis block's filter and some more bytes from a reader that is interrupted and gives a byte at a time, and from one that
    fails, and one that ends, after two. *)
Example C30_reader_ex :
  match_any_from world_reader 60 (block_gcs genesis_hash) [[1; 2; 3]; genesis_script] (mk_world [] [1; 157; 252; 168; 77] [Fail Interrupted; Give 1; Fail Interrupted; Give 1]) = Some (Ret (Ok true)) /\
  match_all_from world_reader 60 (block_gcs genesis_hash) [[1; 2; 3]; genesis_script] (mk_world [] [1; 157; 252; 168; 77] [Fail Interrupted; Give 1; Fail Interrupted; Give 1]) = Some (Ret (Ok false)) /\
  match_any_from world_reader 60 (block_gcs genesis_hash) [genesis_script] (mk_world [] [1; 157; 252; 168] [Give 1; Give 1; Fail (OtherKind 4)]) = Some (Ret (Err (MfIo (FrIo (OtherKind 4))))) /\
  match_any_from world_reader 60 (block_gcs genesis_hash) [genesis_script] (mk_world [] [1; 157] []) = Some (Ret (Err (MfIo (FrIo UnexpectedEof)))) /\
  quiet_at (mk_world [] [1; 157; 252; 168; 77] [Fail Interrupted; Give 1; Fail Interrupted; Give 1]) ([1; 157; 252; 168] ++ [77]).
Proof. split; [vm_compute; reflexivity|]. split; [vm_compute; reflexivity|]. split; [vm_compute; reflexivity|]. split; [vm_compute; reflexivity|]. split; [reflexivity|repeat constructor]. Qed.
Print Assumptions C30_reader.
Print Assumptions C30_reader_iff.
Print Assumptions C30_reader_no_false_negative.
