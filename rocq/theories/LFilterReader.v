(** Lemmas: compact block filters matched from any reader. *)
From Verif Require Import Base MDec MWitness MTx MBip152 LDec LDrive LBuilt SDec MBip158 MIo SIo LIo MIoDrive SIoDrive LIoDrive PIoDrive MFilterReader.
Local Open Scope N_scope.

Section R.
  Context (R : reader) (at_ : rstate R -> bytes -> Prop) (Law : reads_from R at_).
  Context (f : nat) (m : rstate R -> nat) (M B : nat).
  (** a read that failed with [k] *)
  Definition failed (k : kind) : Prop := exists before d n after, at_ before d /\ rread R before n = Ret (Err k, after).
  (** there is fuel for a reader whose failures end *)
  Definition fuelled : Prop := settles R at_ m /\ (M + B + 2 < f)%nat.
  (** the stream [b] is where the one in memory, [r], is *)
  Definition rel (b : bits_from R) (r : bit_reader) : Prop :=
    bf_buf b = br_buf r /\ bf_off b = br_off r /\ br_off r <= 8 /\ at_ (bf_r b) (br_src r) /\ (bits_left r <= B)%nat /\ (settles R at_ m -> m (bf_r b) <= M)%nat.
  Definition sim {A Y} (Q : A -> bits_from R -> Y -> Prop) (x : rd_outcome R A) (y : rust (result Y io_err)) : Prop :=
    match x with
    | None => ~ fuelled
    | Some Panic => y = Panic
    | Some (Ret (Ok a, b)) => exists y', y = Ret (Ok y') /\ Q a b y'
    | Some (Ret (Err FrTooManyBits, _)) => y = Ret (Err TooManyBits)
    | Some (Ret (Err (FrIo k), _)) => k <> Interrupted /\ ((k = UnexpectedEof /\ y = Ret (Err MBip158.UnexpectedEof)) \/ failed k)
    end.
  Lemma sim_bind : forall A A2 Y Y2 (Q : A -> bits_from R -> Y -> Prop) (Q2 : A2 -> bits_from R -> Y2 -> Prop) x y k ky, sim Q x y ->
    (forall a b y', Q a b y' -> sim Q2 (k a b) (ky y')) -> sim Q2 (rd_bind R x k) (rbind y (fun z => match z with Err e => Ret (Err e) | Ok y' => ky y' end)).
  Proof.
    intros A A2 Y Y2 Q Q2 x y k ky X K. destruct x as [[[[a|[kd|]] b]|]|]; cbn [rd_bind sim] in *.
    - destruct X as (y' & -> & X). exact (K _ _ _ X).
    - destruct X as [NK [[-> ->]|F]]; (split; [exact NK|]); auto.
    - now rewrite X.
    - now rewrite X.
    - exact X.
  Qed.
  Definition same (a : N) (b : bits_from R) (y : N * bit_reader) : Prop := fst y = a /\ rel b (snd y).

  (** one byte *)
  Lemma read_byte : forall fuel st d, at_ st d ->
    match read_exact R fuel st 1 [] with
    | None => forall M', settles R at_ m -> (m st <= M' -> M' + 1 < fuel -> False)%nat
    | Some Panic => False
    | Some (Ret (Ok _, got, st')) => exists c d', d = c :: d' /\ got = [c] /\ at_ st' d' /\ (settles R at_ m -> m st' <= m st)%nat
    | Some (Ret (Err k, _, st')) => k <> Interrupted /\ ((k = UnexpectedEof /\ d = []) \/ failed k)
    end.
  Proof using Law.
    induction fuel as [|fuel IH]; intros st d K; cbn [read_exact]; replace (1 =? 0) with false by reflexivity; [intros; lia|].
    destruct (proj1 Law st d 1 K) as (x & st1 & Ex & H). pose proof (fun S : settles R at_ m => proj1 S st d 1 K) as Sm. rewrite Ex in *. destruct x as [bs|e].
    - destruct H as (d' & -> & L & Em & K1). destruct bs as [|c [|c2 bs]].
      + split; [discriminate|]. left. split; [reflexivity|]. destruct (Em eq_refl) as [Z|Z]; [discriminate|exact Z].
      + replace (1 <? lenN [c]) with false by reflexivity. replace (1 - lenN [c]) with 0 by reflexivity. destruct fuel; cbn [read_exact N.eqb app]; exists c, d'; auto.
      + rewrite !lenN_cons in L. lia.
    - destruct e as [| |k]; cbn [is_interrupted].
      + specialize (IH st1 d H). destruct (read_exact R fuel st1 1 []) as [[[[[u|k] got] st']|]|].
        * destruct IH as (c & d' & -> & -> & K' & M'). exists c, d'. repeat split; auto. intro S. specialize (M' S). specialize (Sm S). cbv beta iota in Sm. lia.
        * exact IH.
        * exact IH.
        * intros M' S Hm Hf. specialize (Sm S). cbv beta iota in Sm. apply (IH (M' - 1)%nat S); lia.
      + split; [discriminate|]. right. exists st, d, 1, st1. auto.
      + split; [discriminate|]. right. exists st, d, 1, st1. auto.
  Qed.
  Lemma read_loop_sim : forall fuel b r nbits data, rel b r -> nbits <= N.of_nat fuel -> sim same (read_loop_from R f fuel b nbits data) (Ret (read_loop fuel r nbits data)).
  Proof using Law.
    induction fuel as [|fuel IH]; intros b r nbits data Re F.
    - assert (nbits = 0) as -> by lia. cbn [read_loop_from read_loop N.eqb]. exists (data, r). split; [reflexivity|]. split; [reflexivity|exact Re].
    - cbn [read_loop_from read_loop]. destruct (N.eqb_spec nbits 0) as [->|Nz]; [exists (data, r); split; [reflexivity|]; split; [reflexivity|exact Re]|].
      assert (Step : forall b r, rel b r -> br_off r < 8 -> sim same (let bits := N.min (8 - bf_off b) nbits in
          let data := N.lor (N.shiftl data bits mod U64) (N.shiftr (N.shiftl (bf_buf b) (bf_off b) mod 256) (8 - bits)) in
          read_loop_from R f fuel (mk_bf (bf_buf b) (bf_off b + bits) (bf_r b)) (nbits - bits) data)
        (Ret (let bits := N.min (8 - br_off r) nbits in
          let data := N.lor (N.shiftl data bits mod U64) (N.shiftr (N.shiftl (br_buf r) (br_off r) mod 256) (8 - bits)) in
          read_loop fuel (mk_br (br_buf r) (br_off r + bits) (br_src r)) (nbits - bits) data))).
      { clear b r Re. intros b r (Eb & Eo & Ol & K & Bl & Mm) O. cbv zeta. rewrite Eb, Eo. apply IH; [|lia]. unfold rel. cbn [bf_buf bf_off bf_r br_buf br_off br_src]. repeat split; auto; [lia|]. unfold bits_left in *. cbn [br_off br_src]. lia. }
      destruct Re as (Eb & Eo & Ol & K & Bl & Mm). unfold next_byte. rewrite Eo. destruct (N.eqb_spec (br_off r) 8) as [E8|N8].
      + pose proof (read_byte f (bf_r b) (br_src r) K) as Rb. destruct (read_exact R f (bf_r b) 1 []) as [[[[[u|k] got] st']|]|]; cbn [rd_bind].
        * destruct Rb as (c & d' & E & -> & K' & Ms). rewrite E. cbn [nth]. apply (Step (mk_bf c 0 st') (mk_br c 0 d')); [|cbn [br_off]; lia]. unfold rel. cbn [bf_buf bf_off bf_r br_buf br_off br_src]. repeat split; auto; [lia| |].
          -- unfold bits_left in *. cbn [br_off br_src]. rewrite E, E8 in Bl. cbn [length] in Bl. lia.
          -- intro S. specialize (Mm S). specialize (Ms S). lia.
        * cbn [sim]. destruct Rb as [NK [[-> E]|Fl]]; (split; [exact NK|]); [left|right; exact Fl]. rewrite E. auto.
        * contradiction.
        * cbn [sim]. intros [S Hf]. specialize (Mm S). apply (Rb M S); lia.
      + cbn [rd_bind]. apply Step; [repeat split; auto|lia].
  Qed.
  Lemma read_sim : forall b r nbits, rel b r -> sim same (read_from R f b nbits) (Ret (br_read r nbits)).
  Proof using Law. intros b r nbits Re. unfold read_from, br_read. destruct (64 <? nbits); [reflexivity|]. apply read_loop_sim; [exact Re|lia]. Qed.
  Lemma read_one_left : forall r v r', br_off r <= 8 -> br_read r 1 = Ok (v, r') -> (bits_left r' < bits_left r)%nat.
  Proof.
    intros r v r' O E. unfold br_read in E. replace (64 <? 1) with false in E by reflexivity. change (N.to_nat 1) with 1%nat in E. cbn [read_loop] in E. replace (1 =? 0) with false in E by reflexivity. unfold bits_left.
    destruct (N.eqb_spec (br_off r) 8) as [E8|N8].
    - destruct (br_src r) as [|c src]; [discriminate|]. cbn [br_off br_buf br_src] in E. replace (1 - N.min (8 - 0) 1 =? 0) with true in E by reflexivity. injection E as _ <-. cbn [br_off br_src length]. rewrite E8. lia.
    - replace (N.min (8 - br_off r) 1) with 1 in E by lia. replace (1 - 1 =? 0) with true in E by reflexivity. apply (f_equal (fun x => match x with Ok (_, y) => y | Err _ => r end)) in E. cbv beta iota in E. subst r'. cbn [br_off br_src]. lia.
  Qed.
  Lemma ones_sim : forall fuel fy b r q, rel b r -> (bits_left r < fy)%nat -> (fuelled -> bits_left r < fuel)%nat -> sim same (ones_from R f fuel b q) (read_ones fy r q).
  Proof using Law.
    induction fuel as [|fuel IH]; intros fy b r q Re Fy Fx; [cbn [ones_from sim]; intro Z; specialize (Fx Z); lia|]. destruct fy as [|fy]; [lia|]. cbn [ones_from read_ones].
    pose proof (read_sim b r 1 Re) as S1. destruct (read_from R f b 1) as [[[[v|[kd|]] b1]|]|]; cbn [rd_bind sim] in *.
    - destruct S1 as ([v' r1] & E & <- & Re1). cbn [fst snd] in *. injection E as E. rewrite E. destruct (v' =? 1); [|exists (q, r1); split; [reflexivity|]; split; [reflexivity|exact Re1]]. destruct (U64 <=? q + 1); [reflexivity|].
      pose proof (read_one_left r v' r1 (proj1 (proj2 (proj2 Re))) E) as Lt. apply IH; [exact Re1|lia|]. intro Z. specialize (Fx Z). lia.
    - destruct S1 as [NK [[-> E]|Fl]]; (split; [exact NK|]); [left|right; exact Fl]. injection E as E. rewrite E. auto.
    - injection S1 as E. now rewrite E.
    - discriminate.
    - exact S1.
  Qed.
  Lemma golomb_sim : forall p b r, rel b r -> sim same (golomb_from R f p b) (golomb_rice_decode p r).
  Proof using Law.
    intros p b r Re. unfold golomb_from, golomb_rice_decode.
    assert (S1 : sim same (ones_from R f f b 0) (read_ones (S (bits_left r)) r 0)) by (apply ones_sim; [exact Re|lia|]; intros [_ Z]; destruct Re as (_ & _ & _ & _ & Bl & _); lia).
    destruct (ones_from R f f b 0) as [[[[q|[kd|]] b1]|]|]; cbn [rd_bind sim] in *; [|destruct S1 as [NK [[-> ->]|Fl]]; (split; [exact NK|]); auto|now rewrite S1|now rewrite S1|exact S1].
    destruct S1 as ([q' r1] & -> & <- & Re1). cbn [rbind fst snd] in *. pose proof (read_sim b1 r1 p Re1) as S2.
    destruct (read_from R f b1 p) as [[[[low|[kd|]] b2]|]|]; cbn [rd_bind sim] in *; [|destruct S2 as [NK [[-> E]|Fl]]; (split; [exact NK|]); [left; injection E as ->; auto|auto]|injection S2 as ->; reflexivity|discriminate|exact S2].
    destruct S2 as ([low' r2] & E & <- & Re2). cbn [fst snd] in *. injection E as ->. destruct (64 <=? p); [reflexivity|]. cbv zeta. destruct (U64 <=? _); [reflexivity|]. eexists. split; [reflexivity|]. split; [reflexivity|exact Re2].
  Qed.
  Definition moved (a : option (nat * N)) (b : bits_from R) (y : option (nat * bit_reader * N)) : Prop :=
    match a, y with
    | None, None => True
    | Some (rem, data), Some (rem', r, data') => rem = rem' /\ data = data' /\ rel b r
    | _, _ => False
    end.
  Lemma advance_sim : forall gp rem b r data p, rel b r -> sim moved (advance_from R f gp rem b data p) (advance gp rem r data p).
  Proof using Law.
    intro gp. induction rem as [|rem IH]; intros b r data p Re; cbn [advance_from advance]; (destruct (p <=? data); [eexists; split; [reflexivity|]; cbn [moved]; auto|]); [eexists; split; [reflexivity|exact I]|].
    pose proof (golomb_sim gp b r Re) as S1. destruct (golomb_from R f gp b) as [[[[d|[kd|]] b1]|]|]; cbn [rd_bind sim] in *; [|destruct S1 as [NK [[-> ->]|Fl]]; (split; [exact NK|]); auto|now rewrite S1|now rewrite S1|exact S1].
    destruct S1 as ([d' r1] & -> & <- & Re1). cbn [rbind fst snd] in *. destruct (U64 <=? data + d'); [reflexivity|]. apply IH. exact Re1.
  Qed.
  Definition plain (a : bool) (b : bits_from R) (y : bool) : Prop := y = a.
  Lemma any_sim : forall gp mapped rem b r data, rel b r -> sim plain (any_from R f gp mapped rem b data) (any_loop gp mapped rem r data).
  Proof using Law.
    intro gp. induction mapped as [|p mapped IH]; intros rem b r data Re; cbn [any_from any_loop]; [eexists; split; reflexivity|].
    pose proof (advance_sim gp rem b r data p Re) as S1. destruct (advance_from R f gp rem b data p) as [[[[a|[kd|]] b1]|]|]; cbn [rd_bind sim] in *; [|destruct S1 as [NK [[-> ->]|Fl]]; (split; [exact NK|]); auto|now rewrite S1|now rewrite S1|exact S1].
    destruct S1 as (y & -> & Q). cbn [rbind]. destruct a as [[rem' d']|], y as [[[rem2 r2] d2]|]; cbn [moved] in Q; try contradiction; [|eexists; split; reflexivity]. destruct Q as (<- & <- & Re2). destruct (d' =? p); [eexists; split; reflexivity|]. now apply IH.
  Qed.
  Lemma all_sim : forall gp mapped rem b r data, rel b r -> sim plain (all_from R f gp mapped rem b data) (all_loop gp mapped rem r data).
  Proof using Law.
    intro gp. induction mapped as [|p mapped IH]; intros rem b r data Re; cbn [all_from all_loop]; [eexists; split; reflexivity|].
    pose proof (advance_sim gp rem b r data p Re) as S1. destruct (advance_from R f gp rem b data p) as [[[[a|[kd|]] b1]|]|]; cbn [rd_bind sim] in *; [|destruct S1 as [NK [[-> ->]|Fl]]; (split; [exact NK|]); auto|now rewrite S1|now rewrite S1|exact S1].
    destruct S1 as (y & -> & Q). cbn [rbind]. destruct a as [[rem' d']|], y as [[[rem2 r2] d2]|]; cbn [moved] in Q; try contradiction; [|eexists; split; reflexivity]. destruct Q as (<- & <- & Re2). destruct (d' =? p); [now apply IH|eexists; split; reflexivity].
  Qed.
End R.
