(** Lemmas for C30. *)
From Coq Require Import Permutation Sorting.Sorted.
From Verif Require Import Base MDec MWitness MTx MSip MScript MBip152 MBip158 SWire SSip SBip158 LDec LBip152.
Local Open Scope N_scope.

(** ** Bits *)
Lemma bits_len : forall k v, length (bits_of k v) = k.
Proof. induction k; intro v; cbn [bits_of length]; auto. Qed.
Lemma bits_ext : forall k v w, (forall i, i < N.of_nat k -> N.testbit v i = N.testbit w i) -> bits_of k v = bits_of k w.
Proof. induction k; intros v w X; cbn [bits_of]; auto. rewrite X by lia. f_equal. apply IHk. intros i I. apply X. lia. Qed.
Lemma bits_inj : forall k v w, bits_of k v = bits_of k w -> forall i, i < N.of_nat k -> N.testbit v i = N.testbit w i.
Proof.
  induction k; intros v w E i I; [lia|]. cbn [bits_of] in E. injection E as E1 E2. destruct (N.eq_dec i (N.of_nat k)) as [->|Ne]; [exact E1|]. apply IHk; [exact E2|lia].
Qed.
Lemma bits_split : forall a b v, bits_of (a + b) v = bits_of a (N.shiftr v (N.of_nat b)) ++ bits_of b v.
Proof.
  induction a; intros b v; cbn [bits_of app Nat.add]; auto. rewrite IHa. f_equal. rewrite N.shiftr_spec'. f_equal. lia.
Qed.
Lemma testbit_lt : forall v k, (forall i, k <= i -> N.testbit v i = false) <-> v < 2 ^ k.
Proof.
  intros v k. split.
  - intro X. destruct (N.eq_dec v 0) as [->|Nz]; [apply N.neq_0_lt_0, N.pow_nonzero; lia|]. apply N.log2_lt_pow2; [lia|]. destruct (N.lt_ge_cases (N.log2 v) k) as [L|L]; [exact L|].
    specialize (X _ L). rewrite N.bit_log2 in X by auto. discriminate.
  - intros L i I. destruct (N.eq_dec v 0) as [->|Nz]; [apply N.bits_0|]. apply N.bits_above_log2. apply N.log2_lt_pow2 in L; lia.
Qed.
Lemma bits_unique : forall k v w, v < 2 ^ N.of_nat k -> w < 2 ^ N.of_nat k -> bits_of k v = bits_of k w -> v = w.
Proof.
  intros k v w V W E. apply N.bits_inj. intro i. destruct (N.lt_ge_cases i (N.of_nat k)) as [L|L]; [exact (bits_inj k v w E i L)|].
  rewrite (proj2 (testbit_lt v _) V), (proj2 (testbit_lt w _) W); auto.
Qed.
Lemma bits_zero : forall k, bits_of k 0 = repeat false k.
Proof. induction k; cbn [bits_of repeat]; rewrite ?N.bits_0, ?IHk; auto. Qed.
Lemma bits_ones : forall k, (k <= 64)%nat -> bits_of k (U64 - 1) = repeat true k.
Proof.
  intros k K. change (U64 - 1) with (N.ones 64). induction k; cbn [bits_of repeat]; auto. rewrite IHk by lia. rewrite N.ones_spec_low by lia. reflexivity.
Qed.
Lemma u64_mod : forall v i, N.testbit (v mod U64) i = N.testbit v i && (i <? 64).
Proof.
  intros v i. change U64 with (2 ^ 64). destruct (N.ltb_spec i 64); [rewrite N.mod_pow2_bits_low by lia; now rewrite andb_true_r|rewrite N.mod_pow2_bits_high by lia; now rewrite andb_false_r].
Qed.
Lemma byte_mod : forall v i, N.testbit (v mod 256) i = N.testbit v i && (i <? 8).
Proof.
  intros v i. change 256 with (2 ^ 8). destruct (N.ltb_spec i 8); [rewrite N.mod_pow2_bits_low by lia; now rewrite andb_true_r|rewrite N.mod_pow2_bits_high by lia; now rewrite andb_false_r].
Qed.
Lemma shl_bit : forall v k i, N.testbit (N.shiftl v k) i = (k <=? i) && N.testbit v (i - k).
Proof.
  intros v k i. destruct (N.leb_spec k i); [rewrite N.shiftl_spec_high' by lia|rewrite N.shiftl_spec_low by lia]; reflexivity.
Qed.

(** ** Writing bits *)
Definition wbits (w : bit_writer) : list bool := bits_of_bytes (bw_out w) ++ bits_of (N.to_nat (bw_off w)) (N.shiftr (bw_buf w) (8 - bw_off w)).
Definition w_ok (w : bit_writer) : Prop :=
  bw_off w < 8 /\ (forall i, 8 <= i -> N.testbit (bw_buf w) i = false) /\ (forall i, i < 8 - bw_off w -> N.testbit (bw_buf w) i = false) /\ bytes_ok (bw_out w).
Lemma writer_new_ok : forall out, bytes_ok out -> w_ok (writer_new out) /\ wbits (writer_new out) = bits_of_bytes out.
Proof.
  intros out O. split; [repeat split; cbn; auto; try lia; intros; apply N.bits_0|]. unfold wbits, writer_new. cbn [bw_out bw_off bw_buf]. change (N.to_nat 0) with 0%nat. cbn [bits_of]. apply app_nil_r.
Qed.
Lemma bits_of_bytes_app : forall a b, bits_of_bytes (a ++ b) = bits_of_bytes a ++ bits_of_bytes b.
Proof. intros. apply flat_map_app. Qed.
Lemma flush_spec : forall w, bw_off w <= 8 -> (forall i, 8 <= i -> N.testbit (bw_buf w) i = false) -> (forall i, i < 8 - bw_off w -> N.testbit (bw_buf w) i = false) -> bytes_ok (bw_out w) ->
  let '(w', n) := bw_flush w in w_ok w' /\ bw_off w' = 0 /\ wbits w' = wbits w ++ repeat false (if bw_off w =? 0 then 0 else N.to_nat (8 - bw_off w)) /\ lenN (bw_out w') = lenN (bw_out w) + n.
Proof.
  intros w O H L B. unfold bw_flush. destruct (N.ltb_spec 0 (bw_off w)) as [P|P].
  - replace (bw_off w =? 0) with false by lia. assert (BB : bw_buf w < 256) by (change 256 with (2 ^ 8); apply testbit_lt; exact H).
    split; [|split; [reflexivity|split]].
    + repeat split; cbn; try lia; try (intros; apply N.bits_0). apply Forall_app. split; [exact B|]. constructor; [exact BB|constructor].
    + unfold wbits. cbn [bw_out bw_off bw_buf]. change (N.to_nat 0) with 0%nat. cbn [bits_of]. rewrite app_nil_r, bits_of_bytes_app, <- app_assoc. f_equal. unfold bits_of_bytes. cbn [flat_map]. rewrite app_nil_r.
      replace 8%nat with (N.to_nat (bw_off w) + N.to_nat (8 - bw_off w))%nat at 1 by lia. rewrite bits_split. f_equal; [do 2 f_equal; lia|].
      rewrite <- bits_zero. apply bits_ext. intros i I. rewrite N.bits_0. apply L. lia.
    + cbn [bw_out]. rewrite lenN_app. reflexivity.
  - assert (bw_off w = 0) as Z by lia. rewrite Z. cbn [N.eqb repeat]. rewrite app_nil_r. repeat split; auto; try lia. 
Qed.
Lemma write_step : forall w data nbits, w_ok w -> nbits <= 64 -> 0 < nbits ->
  let bits := N.min (8 - bw_off w) nbits in
  let w1 := mk_bw (N.lor (bw_buf w) (N.shiftr (N.shiftl data (64 - nbits) mod U64) (56 + bw_off w) mod 256)) (bw_off w + bits) (bw_out w) in
  (forall i, 8 <= i -> N.testbit (bw_buf w1) i = false) /\ (forall i, i < 8 - bw_off w1 -> N.testbit (bw_buf w1) i = false) /\
  wbits w1 = wbits w ++ bits_of (N.to_nat bits) (N.shiftr data (nbits - bits)).
Proof.
  intros w data nbits (O & H & L & B) Nb P. cbn zeta. set (bits := N.min (8 - bw_off w) nbits). assert (BL : bits <= 8 - bw_off w /\ bits <= nbits /\ 0 < bits) by lia.
  assert (T : forall i, N.testbit (N.lor (bw_buf w) (N.shiftr (N.shiftl data (64 - nbits) mod U64) (56 + bw_off w) mod 256)) i =
    N.testbit (bw_buf w) i || (((64 - nbits <=? i + (56 + bw_off w)) && N.testbit data (i + (56 + bw_off w) - (64 - nbits))) && (i + (56 + bw_off w) <? 64) && (i <? 8))).
  { intro i. rewrite N.lor_spec, byte_mod, N.shiftr_spec', u64_mod, shl_bit. reflexivity. }
  cbn [bw_buf bw_off bw_out]. split; [|split].
  - intros i I. rewrite T, H by lia. replace (i <? 8) with false by lia. now rewrite andb_false_r.
  - intros i I. rewrite T, L by lia. replace (64 - nbits <=? i + (56 + bw_off w)) with false by lia. reflexivity.
  - unfold wbits. cbn [bw_buf bw_off bw_out]. rewrite <- app_assoc. f_equal. replace (N.to_nat (bw_off w + bits)) with (N.to_nat (bw_off w) + N.to_nat bits)%nat by lia. rewrite bits_split. f_equal.
    + apply bits_ext. intros i I. rewrite !N.shiftr_spec', T. replace (i + N.of_nat (N.to_nat bits) + (8 - (bw_off w + bits)) + (56 + bw_off w) <? 64) with false by lia.
      rewrite andb_false_r, andb_false_l, orb_false_r. f_equal. lia.
    + apply bits_ext. intros i I. rewrite !N.shiftr_spec', T. rewrite L by lia. replace (64 - nbits <=? i + (8 - (bw_off w + bits)) + (56 + bw_off w)) with true by lia.
      replace (i + (8 - (bw_off w + bits)) + (56 + bw_off w) <? 64) with true by lia. replace (i + (8 - (bw_off w + bits)) <? 8) with true by lia. rewrite !andb_true_r. cbn [orb andb]. f_equal. lia.
Qed.
Lemma write_loop_spec : forall fuel w data nbits wrote, w_ok w -> nbits <= 64 -> nbits <= N.of_nat fuel ->
  exists w' k, write_loop fuel w data nbits wrote = (w', wrote + k) /\ w_ok w' /\ wbits w' = wbits w ++ bits_of (N.to_nat nbits) data /\ lenN (bw_out w') = lenN (bw_out w) + k.
Proof.
  induction fuel; intros w data nbits wrote W Nb F.
  - assert (nbits = 0) as -> by lia. cbn [write_loop N.eqb]. exists w, 0. cbn [bits_of N.to_nat]. rewrite app_nil_r, !N.add_0_r. auto.
  - cbn [write_loop]. destruct (N.eqb_spec nbits 0) as [->|Nz]; [exists w, 0; cbn [bits_of N.to_nat]; rewrite app_nil_r, !N.add_0_r; auto|].
    destruct (write_step w data nbits W Nb ltac:(lia)) as (H & L & X). cbn zeta in *. set (bits := N.min (8 - bw_off w) nbits) in *. destruct W as (O & W2 & W3 & W4).
    assert (BL : bits <= 8 - bw_off w /\ bits <= nbits /\ 0 < bits) by lia.
    set (w1 := mk_bw _ _ _) in *. assert (bw_off w1 = bw_off w + bits) as O1 by reflexivity. assert (bw_out w1 = bw_out w) as Out1 by reflexivity. clearbody w1.
    assert (D : bits_of (N.to_nat nbits) data = bits_of (N.to_nat bits) (N.shiftr data (nbits - bits)) ++ bits_of (N.to_nat (nbits - bits)) data).
    { replace (N.to_nat nbits) with (N.to_nat bits + N.to_nat (nbits - bits))%nat by lia. rewrite bits_split. do 3 f_equal. lia. }
    destruct (N.eqb_spec (bw_off w1) 8) as [E8|N8].
    + pose proof (flush_spec w1 ltac:(lia) H L ltac:(congruence)) as FS. destruct (bw_flush w1) as [w2 n]. destruct FS as (W' & O' & X' & L'). rewrite E8 in X'. cbn [N.eqb repeat N.sub] in X'. change (N.to_nat (8 - 8)) with 0%nat in X'. cbn [repeat] in X'. rewrite app_nil_r in X'.
      destruct (IHfuel w2 data (nbits - bits) (wrote + n) W' ltac:(lia) ltac:(lia)) as (w3 & k & E3 & W3' & X3 & L3). exists w3, (n + k). rewrite E3, X3, X', X, D, L3, L', Out1, <- app_assoc.
      split; [f_equal; lia|]. split; [exact W3'|]. split; [reflexivity|lia].
    + assert (W1 : w_ok w1) by (split; [lia|split; [exact H|split; [exact L|congruence]]]).
      destruct (IHfuel w1 data (nbits - bits) wrote W1 ltac:(lia) ltac:(lia)) as (w3 & k & E3 & W3' & X3 & L3). exists w3, k. rewrite E3, X3, X, D, L3, Out1, <- app_assoc. auto.
Qed.
Lemma bw_write_spec : forall w data nbits, w_ok w -> nbits <= 64 ->
  exists w' k, bw_write w data nbits = Ok (w', k) /\ w_ok w' /\ wbits w' = wbits w ++ bits_of (N.to_nat nbits) data /\ lenN (bw_out w') = lenN (bw_out w) + k.
Proof.
  intros w data nbits W Nb. unfold bw_write. replace (64 <? nbits) with false by lia. destruct (write_loop_spec (N.to_nat nbits) w data nbits 0 W Nb ltac:(lia)) as (w' & k & E & R).
  rewrite E. exists w', k. split; [reflexivity|exact R].
Qed.

(** ** Reading bits *)
Definition rbits (r : bit_reader) : list bool := bits_of (N.to_nat (8 - br_off r)) (br_buf r) ++ bits_of_bytes (br_src r).
Definition r_ok (r : bit_reader) : Prop := br_off r <= 8 /\ bytes_ok (br_src r).
Lemma reader_new_ok : forall src, bytes_ok src -> r_ok (reader_new src) /\ rbits (reader_new src) = bits_of_bytes src.
Proof. intros src O. split; [split; [cbn; lia|exact O]|]. unfold rbits. cbn [reader_new br_off br_src]. change (N.to_nat (8 - 8)) with 0%nat. reflexivity. Qed.
Lemma rbits_len : forall r, length (rbits r) = bits_left r.
Proof.
  intro r. unfold rbits, bits_left. rewrite app_length, bits_len. f_equal. unfold bits_of_bytes. induction (br_src r) as [|b l IH]; [reflexivity|]. cbn [flat_map length]. rewrite app_length, bits_len. lia.
Qed.
Lemma read_step : forall r nbits k data, r_ok r -> br_off r < 8 -> 0 < nbits -> k + nbits <= 64 -> data < 2 ^ k ->
  let bits := N.min (8 - br_off r) nbits in
  let data1 := N.lor (N.shiftl data bits mod U64) (N.shiftr (N.shiftl (br_buf r) (br_off r) mod 256) (8 - bits)) in
  let r1 := mk_br (br_buf r) (br_off r + bits) (br_src r) in
  r_ok r1 /\ data1 < 2 ^ (k + bits) /\ exists x, length x = N.to_nat bits /\ rbits r = x ++ rbits r1 /\ bits_of (N.to_nat (k + bits)) data1 = bits_of (N.to_nat k) data ++ x.
Proof.
  intros r nbits k data (O & B) O8 P K D. cbn zeta. set (bits := N.min (8 - br_off r) nbits). assert (BL : bits <= 8 - br_off r /\ bits <= nbits /\ 0 < bits) by lia.
  assert (T : forall i, N.testbit (N.lor (N.shiftl data bits mod U64) (N.shiftr (N.shiftl (br_buf r) (br_off r) mod 256) (8 - bits))) i =
    ((bits <=? i) && N.testbit data (i - bits)) && (i <? 64) || ((br_off r <=? i + (8 - bits)) && N.testbit (br_buf r) (i + (8 - bits) - br_off r)) && (i + (8 - bits) <? 8)).
  { intro i. rewrite N.lor_spec, u64_mod, shl_bit, N.shiftr_spec', byte_mod, shl_bit. reflexivity. }
  assert (D' := proj2 (testbit_lt data k) D). split; [split; [cbn; lia|exact B]|]. split.
  - apply testbit_lt. intros i I. rewrite T. replace (i + (8 - bits) <? 8) with false by lia. rewrite andb_false_r, orb_false_r. rewrite D' by lia. now rewrite andb_false_r.
  - exists (bits_of (N.to_nat bits) (N.shiftr (br_buf r) (8 - br_off r - bits))). split; [apply bits_len|]. split.
    + unfold rbits. cbn [br_buf br_off br_src]. replace (N.to_nat (8 - br_off r)) with (N.to_nat bits + N.to_nat (8 - (br_off r + bits)))%nat by lia. rewrite bits_split, <- app_assoc. do 3 f_equal. lia.
    + replace (N.to_nat (k + bits)) with (N.to_nat k + N.to_nat bits)%nat by lia. rewrite bits_split. f_equal.
      * apply bits_ext. intros i I. rewrite N.shiftr_spec', T. replace (i + N.of_nat (N.to_nat bits) + (8 - bits) <? 8) with false by lia. rewrite andb_false_r, orb_false_r.
        replace (bits <=? i + N.of_nat (N.to_nat bits)) with true by lia. replace (i + N.of_nat (N.to_nat bits) <? 64) with true by lia. rewrite andb_true_r. cbn [andb]. f_equal. lia.
      * apply bits_ext. intros i I. rewrite N.shiftr_spec', T. replace (bits <=? i) with false by lia. replace (br_off r <=? i + (8 - bits)) with true by lia. replace (i + (8 - bits) <? 8) with true by lia.
        rewrite andb_true_r. cbn [andb orb]. f_equal. lia.
Qed.
Lemma read_loop_spec : forall fuel r nbits k data, r_ok r -> k + nbits <= 64 -> nbits <= N.of_nat fuel -> data < 2 ^ k ->
  ((N.to_nat nbits <= length (rbits r))%nat -> exists v r' x, read_loop fuel r nbits data = Ok (v, r') /\ r_ok r' /\ v < 2 ^ (k + nbits) /\
     length x = N.to_nat nbits /\ rbits r = x ++ rbits r' /\ bits_of (N.to_nat (k + nbits)) v = bits_of (N.to_nat k) data ++ x) /\
  ((length (rbits r) < N.to_nat nbits)%nat -> read_loop fuel r nbits data = Err UnexpectedEof).
Proof.
  induction fuel; intros r nbits k data R K F D.
  - assert (nbits = 0) as -> by lia. cbn [read_loop N.eqb]. split; [|intro; cbn in *; lia]. intros _. exists data, r, []. rewrite app_nil_r, N.add_0_r. split; [reflexivity|]; split; [exact R|]; split; [exact D|]; split; [reflexivity|]; split; reflexivity.
  - cbn [read_loop]. destruct (N.eqb_spec nbits 0) as [->|Nz]; [split; [|intro; cbn in *; lia]; intros _; exists data, r, []; rewrite app_nil_r, N.add_0_r; split; [reflexivity|]; split; [exact R|]; split; [exact D|]; split; [reflexivity|]; split; reflexivity|].
    assert (G : forall r, r_ok r -> br_off r < 8 -> 
      let bits := N.min (8 - br_off r) nbits in
      let data1 := N.lor (N.shiftl data bits mod U64) (N.shiftr (N.shiftl (br_buf r) (br_off r) mod 256) (8 - bits)) in
      let r1 := mk_br (br_buf r) (br_off r + bits) (br_src r) in
      ((N.to_nat nbits <= length (rbits r))%nat -> exists v r' x, read_loop fuel r1 (nbits - bits) data1 = Ok (v, r') /\ r_ok r' /\ v < 2 ^ (k + nbits) /\
        length x = N.to_nat nbits /\ rbits r = x ++ rbits r' /\ bits_of (N.to_nat (k + nbits)) v = bits_of (N.to_nat k) data ++ x) /\
      ((length (rbits r) < N.to_nat nbits)%nat -> read_loop fuel r1 (nbits - bits) data1 = Err UnexpectedEof)).
    { clear r R. intros r R O8. destruct (read_step r nbits k data R O8 ltac:(lia) K D) as (R1 & D1 & x1 & Lx & Ex & Ed). cbn zeta in *. set (bits := N.min (8 - br_off r) nbits) in *.
      assert (BL : bits <= nbits /\ 0 < bits) by lia. set (data1 := N.lor _ _) in *. set (r1 := mk_br _ _ _) in *. clearbody data1 r1 bits.
      destruct (IHfuel r1 (nbits - bits) (k + bits) data1 R1 ltac:(lia) ltac:(lia) D1) as [A1 A2]. assert (LL : length (rbits r) = (N.to_nat bits + length (rbits r1))%nat) by (rewrite Ex, app_length; lia).
      replace (k + bits + (nbits - bits)) with (k + nbits) in * by lia. split.
      - intro LE. destruct (A1 ltac:(lia)) as (v & r' & x & E & R' & V & Lx' & Ex' & Ev). exists v, r', (x1 ++ x). rewrite E, app_length, Ex, Ex', Ev, Ed, <- !app_assoc. repeat split; auto; try lia; apply R'.
      - intro LT. apply A2. lia. }
    destruct (N.eqb_spec (br_off r) 8) as [E8|N8].
    + destruct (br_src r) as [|b src] eqn:Es.
      * split; [|auto]. unfold rbits. rewrite E8, Es. intro LE. cbn in LE. lia.
      * assert (R2 : r_ok (mk_br b 0 src)). { split; [cbn; lia|]. destruct R as [_ R]. rewrite Es in R. cbn [br_src]. now apply Forall_inv_tail in R. }
        specialize (G (mk_br b 0 src) R2 ltac:(cbn; lia)). replace (rbits r) with (rbits (mk_br b 0 src)); [exact G|]. unfold rbits. rewrite E8, Es. cbn [br_off br_buf br_src]. change (N.to_nat (8 - 8)) with 0%nat. change (N.to_nat (8 - 0)) with 8%nat. reflexivity.
    + apply G; [exact R|destruct R; lia].
Qed.
Lemma br_read_spec : forall r n, r_ok r -> n <= 64 ->
  (forall x y, rbits r = x ++ y -> length x = N.to_nat n -> exists v r', br_read r n = Ok (v, r') /\ r_ok r' /\ v < 2 ^ n /\ bits_of (N.to_nat n) v = x /\ rbits r' = y) /\
  ((length (rbits r) < N.to_nat n)%nat -> br_read r n = Err UnexpectedEof).
Proof.
  intros r n R Nn. unfold br_read. replace (64 <? n) with false by lia. destruct (read_loop_spec (N.to_nat n) r n 0 0 R ltac:(lia) ltac:(lia) ltac:(reflexivity)) as [A B]. split; [|exact B].
  intros x y E Lx. destruct A as (v & r' & x' & E' & R' & V & Lx' & Ex & Ev); [rewrite E, app_length; lia|]. rewrite N.add_0_l in *. cbn [N.to_nat bits_of app] in Ev.
  assert (x' = x /\ rbits r' = y) as [-> <-]. { rewrite E in Ex. assert (length x = length x') by lia. assert (P := f_equal (firstn (length x)) Ex). assert (Q := f_equal (skipn (length x)) Ex).
    rewrite firstn_app, firstn_all, Nat.sub_diag, firstn_O, app_nil_r in P. rewrite skipn_app, skipn_all, Nat.sub_diag, skipn_O in Q. rewrite H in P, Q. rewrite firstn_app, firstn_all, Nat.sub_diag, firstn_O, app_nil_r in P. rewrite skipn_app, skipn_all, Nat.sub_diag, skipn_O in Q. cbn [app] in Q. auto. }
  exists v, r'. auto.
Qed.
