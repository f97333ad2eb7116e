(** C68: the slice and array helpers. *)
From Verif Require Import Base MDec LDec MView SView.
Local Open Scope N_scope.

Lemma raw_nth : forall k p n i, (i < k)%nat -> nth_error (raw_parts p n k) i = Some (mk_view (p + N.of_nat i * n) n).
Proof.
  induction k as [|k IH]; intros p n i H; [lia|]. destruct i as [|i]; cbn [raw_parts nth_error].
  - f_equal. f_equal. lia.
  - rewrite IH by lia. f_equal. f_equal. lia.
Qed.
Lemma raw_len : forall k p n, length (raw_parts p n k) = k.
Proof. induction k as [|k IH]; intros; cbn [raw_parts length]; auto. Qed.
Lemma skip_skip : forall A (l : list A) i j, skipn i (skipn j l) = skipn (j + i) l.
Proof. intros A l i j. revert l. induction j as [|j IH]; intro l; [reflexivity|]. destruct l; [now rewrite !skipn_nil|]. apply IH. Qed.
Lemma dropN_dropN : forall A (l : list A) i j, dropN i (dropN j l) = dropN (j + i) l.
Proof. intros. unfold dropN. rewrite skip_skip. f_equal. lia. Qed.
Lemma read_app : forall T (mem : list T) p a b, read mem (mk_view p a) ++ read mem (mk_view (p + a) b) = read mem (mk_view p (a + b)).
Proof.
  intros T mem p a b. unfold read. cbn [v_start v_len]. rewrite <- dropN_dropN. set (m := dropN p mem).
  destruct (N.le_gt_cases (lenN m) a) as [H|H].
  - rewrite !(takeN_all _ m) by lia. rewrite dropN_all by exact H. unfold takeN. now rewrite firstn_nil, app_nil_r.
  - rewrite <- (takeN_dropN a m) at 3. unfold takeN at 3. rewrite firstn_app.
    assert (LT : length (takeN a m) = N.to_nat a). { pose proof (lenN_takeN a m). unfold lenN in *. lia. }
    rewrite firstn_all2 by lia. f_equal. rewrite LT. unfold takeN. f_equal. lia.
Qed.
Lemma raw_read : forall T (mem : list T) n k p, concat (map (read mem) (raw_parts p n k)) = read mem (mk_view p (N.of_nat k * n)).
Proof.
  intros T mem n. induction k as [|k IH]; intro p; cbn [raw_parts map concat].
  - reflexivity.
  - rewrite IH, read_app. f_equal. f_equal. lia.
Qed.
Lemma read_len : forall T (mem : list T) v, valid (lenN mem) v -> lenN (read mem v) = v_len v.
Proof. intros T mem v [H _]. unfold read. rewrite lenN_takeN, lenN_dropN. lia. Qed.

(** ** Chunks *)
(** A slice cut into chunks of [n] items: every chunk has exactly [n], the remainder fewer; put together they are
    the slice; and they reach exactly its items, none of them twice.  The only size refused is 0, at compile time. *)
Theorem C68_chunks : forall T (mem : list T) n v, valid (lenN mem) v ->
  (n = 0 -> as_chunks n v = None) /\
  (0 < n -> exists cs r, as_chunks n v = Some (Ret (cs, r)) /\
     concat (map (read mem) cs) ++ read mem r = read mem v /\
     Forall (fun c => v_len c = n /\ lenN (read mem c) = n) cs /\ v_len r < n /\
     partition v (cs ++ [r])).
Proof.
  intros T mem n v V. destruct V as [V V64]. unfold as_chunks. split; [now intros ->|]. intro Hn. destruct (N.eqb_spec n 0) as [Z|_]; [lia|].
  pose proof (N.div_mod (v_len v) n ltac:(lia)) as DM. pose proof (N.mod_lt (v_len v) n ltac:(lia)) as ML.
  set (q := v_len v / n) in *. set (m := v_len v mod n) in *. clearbody q m. rewrite (N.mul_comm n q) in DM.
  destruct (N.ltb_spec (q * n) (2 ^ 64)) as [_|H]; [|lia]. unfold split_at. destruct (N.leb_spec (q * n) (v_len v)) as [_|H]; [|lia]. cbn [rbind v_start].
  eexists _, _. split; [reflexivity|]. split; [|split; [|split]].
  - rewrite raw_read, Nnat.N2Nat.id, read_app. f_equal. destruct v as [vs vl]. cbn [v_start v_len] in *. f_equal. lia.
  - rewrite Forall_forall. intros c Hc. apply In_nth_error in Hc as [i Hi].
    assert (I : (i < N.to_nat q)%nat) by (rewrite <- (raw_len (N.to_nat q) (v_start v) n); apply nth_error_Some; congruence).
    rewrite raw_nth in Hi by exact I. injection Hi as <-. cbn [v_len]. split; [reflexivity|]. apply read_len. split; [|exact V64]. cbn [v_start v_len].
    assert (N.of_nat i * n + n <= q * n) by nia. lia.
  - cbn [v_len]. lia.
  - assert (NT : forall i a, nth_error (raw_parts (v_start v) n (N.to_nat q) ++ [mk_view (v_start v + q * n) (v_len v - q * n)]) i = Some a ->
      v_start a = v_start v + N.of_nat i * n /\ (N.of_nat i < q /\ v_len a = n \/ N.of_nat i = q /\ v_len a = m)).
    { intros i a E. destruct (Nat.lt_ge_cases i (N.to_nat q)) as [I|I].
      - rewrite nth_error_app1 in E by (rewrite raw_len; exact I). rewrite raw_nth in E by exact I. injection E as <-. cbn [v_start v_len]. split; [reflexivity|]. left. lia.
      - rewrite nth_error_app2 in E by (rewrite raw_len; exact I). rewrite raw_len in E. destruct (i - N.to_nat q)%nat as [|k] eqn:K.
        + cbn [nth_error] in E. injection E as <-. cbn [v_start v_len]. assert (N.of_nat i = q) by lia. subst q. split; [reflexivity|]. right. lia.
        + cbn [nth_error] in E. destruct k; discriminate. }
    split.
    + intros i j a b p Ha Hb Ca Cb. apply NT in Ha as [Sa La]. apply NT in Hb as [Sb Lb]. unfold covers in *. rewrite Sa in Ca. rewrite Sb in Cb.
      assert (BA : p < v_start v + N.of_nat i * n + n) by lia. assert (BB : p < v_start v + N.of_nat j * n + n) by lia.
      destruct (Nat.lt_trichotomy i j) as [X|[X|X]]; [|exact X|].
      * assert (N.of_nat i * n + n <= N.of_nat j * n) by nia. lia.
      * assert (N.of_nat j * n + n <= N.of_nat i * n) by nia. lia.
    + intro p. split.
      * intros [C1 C2]. destruct (N.lt_ge_cases p (v_start v + q * n)) as [H|H].
        { set (i := (p - v_start v) / n). assert (I : i < q) by (apply N.div_lt_upper_bound; lia).
          exists (mk_view (v_start v + i * n) n). split.
          - apply in_or_app. left. apply nth_error_In with (N.to_nat i). rewrite raw_nth by lia. f_equal. f_equal. lia.
          - unfold covers. cbn [v_start v_len]. pose proof (N.div_mod (p - v_start v) n ltac:(lia)) as D. pose proof (N.mod_lt (p - v_start v) n ltac:(lia)). fold i in D. rewrite (N.mul_comm n i) in D. lia. }
        { eexists. split; [apply in_or_app; right; left; reflexivity|]. unfold covers. cbn [v_start v_len]. lia. }
      * intros (a & Ia & Ca). apply In_nth_error in Ia as [i Hi]. apply NT in Hi as [Sa La]. unfold covers in *. rewrite Sa in Ca.
        destruct La as [[I La]|[I La]].
        { assert (N.of_nat i * n + n <= q * n) by nia. lia. }
        { rewrite I in Ca. lia. }
Qed.
(** Writing through the j-th item of the i-th mutable chunk changes that one item of the slice. *)
Theorem C68_chunks_write : forall T (mem : list T) n v cs r i j c x, valid (lenN mem) v -> as_chunks n v = Some (Ret (cs, r)) ->
  nth_error cs i = Some c -> j < n ->
  exists before old after, read mem v = before ++ old :: after /\ lenN before = N.of_nat i * n + j /\
    read (write mem (v_start c + j) x) v = before ++ x :: after /\
    (forall k, k < v_start v \/ v_start v + v_len v <= k -> nth_error (write mem (v_start c + j) x) (N.to_nat k) = nth_error mem (N.to_nat k)).
Proof.
  intros T mem n v cs r i j c x V E Hc Hj. assert (Hn : 0 < n) by lia.
  unfold as_chunks in E. destruct (N.eqb_spec n 0) as [Z|_]; [lia|].
  pose proof (N.div_mod (v_len v) n ltac:(lia)) as DM. set (q := v_len v / n) in *. set (m := v_len v mod n) in *. clearbody q m. rewrite (N.mul_comm n q) in DM.
  destruct (N.ltb_spec (q * n) (2 ^ 64)) as [_|H]; [|discriminate]. unfold split_at in E. destruct (N.leb_spec (q * n) (v_len v)) as [LE|H]; [|discriminate]. cbn [rbind v_start] in E.
  injection E as <- <-. assert (I : (i < N.to_nat q)%nat) by (rewrite <- (raw_len (N.to_nat q) (v_start v) n); apply nth_error_Some; congruence).
  rewrite raw_nth in Hc by exact I. injection Hc as <-. cbn [v_start]. assert (N.of_nat i * n + n <= q * n) by nia.
  set (o := N.of_nat i * n + j). assert (O : o < v_len v) by lia. replace (v_start v + N.of_nat i * n + j) with (v_start v + o) by lia. clearbody o. clear DM LE.
  destruct V as [V V64]. destruct v as [s l]. cbn [v_start v_len] in *.
  assert (S1 : mem = takeN s mem ++ takeN o (dropN s mem) ++ dropN (s + o) mem). { rewrite <- dropN_dropN, takeN_dropN, takeN_dropN. reflexivity. }
  destruct (dropN (s + o) mem) as [|old rest] eqn:D. { pose proof (lenN_dropN (s + o) mem) as L. rewrite D in L. change (lenN (@nil T)) with 0 in L. lia. }
  set (A := takeN s mem) in *. set (B := takeN o (dropN s mem)) in *.
  assert (LA : lenN A = s) by (unfold A; rewrite lenN_takeN; lia). assert (LB : lenN B = o) by (unfold B; rewrite lenN_takeN, lenN_dropN; lia). clearbody A B.
  assert (RD : forall y t, read (A ++ B ++ y :: t) (mk_view s l) = B ++ y :: takeN (l - o - 1) t).
  { intros y t. unfold read. cbn [v_start v_len]. rewrite dropN_app_ge by lia. rewrite LA, N.sub_diag, dropN_0.
    unfold takeN. rewrite firstn_app. rewrite firstn_all2 by (unfold lenN in LB; lia). f_equal.
    replace (N.to_nat l - length B)%nat with (S (N.to_nat (l - o - 1))) by (unfold lenN in LB; lia). reflexivity. }
  assert (W : write mem (s + o) x = A ++ B ++ x :: rest).
  { unfold write. rewrite S1. rewrite app_assoc. rewrite takeN_app_le by (rewrite lenN_app; lia). rewrite takeN_all by (rewrite lenN_app; lia).
    rewrite dropN_app_ge by (rewrite lenN_app; lia). rewrite lenN_app, LA, LB. replace (s + o + 1 - (s + o)) with 1 by lia. cbn [dropN]. now rewrite <- app_assoc. }
  exists B, old, (takeN (l - o - 1) rest). split; [rewrite S1; apply RD|]. split; [exact LB|]. split; [rewrite W; apply RD|].
  intros k K. rewrite W. rewrite S1, !app_assoc. assert (LL : length (A ++ B) = N.to_nat (s + o)) by (pose proof (lenN_app _ A B); unfold lenN in *; lia).
  destruct K as [K|K].
  - rewrite (nth_error_app1 (A ++ B) (x :: rest)), (nth_error_app1 (A ++ B) (old :: rest)) by (rewrite LL; lia). reflexivity.
  - rewrite (nth_error_app2 (A ++ B) (x :: rest)), (nth_error_app2 (A ++ B) (old :: rest)) by (rewrite LL; lia). rewrite LL. destruct (N.to_nat k - N.to_nat (s + o))%nat as [|u] eqn:U; [lia|]. reflexivity.
Qed.

(** ** Arrays out of slices *)
(** [get_array]: the [n] items from [offset] on, or None when they are not there — provided offset + n fits. *)
Theorem C68_get_array : forall T (mem : list T) n v offset, valid (lenN mem) v -> offset + n < 2 ^ 64 ->
  (offset + n <= v_len v -> exists a before after, get_array n v offset = Ret (Some a) /\
     read mem v = before ++ read mem a ++ after /\ lenN before = offset /\ lenN (read mem a) = n) /\
  (v_len v < offset + n -> get_array n v offset = Ret None).
Proof.
  intros T mem n v offset [V V64] B. unfold get_array, usize_add. destruct (N.ltb_spec (offset + n) (2 ^ 64)) as [_|H]; [|lia]. cbn [rbind].
  destruct (N.leb_spec offset (offset + n)) as [_|H]; [|lia]. cbn [andb]. destruct v as [s l]. cbn [v_start v_len] in *. split; intro H.
  - destruct (N.leb_spec (offset + n) l) as [_|H']; [|lia]. unfold to_array. cbn [v_len]. replace (offset + n - offset) with n by lia. rewrite N.eqb_refl. cbn [expect_array rbind].
    exists (mk_view (s + offset) n), (read mem (mk_view s offset)), (read mem (mk_view (s + offset + n) (l - (offset + n)))). split; [reflexivity|].
    rewrite (read_app _ mem (s + offset)), read_app. split; [f_equal; f_equal; lia|]. split; apply read_len; unfold valid; cbn [v_start v_len]; lia.
  - destruct (N.leb_spec (offset + n) l) as [H'|_]; [lia|reflexivity].
Qed.
(** Beyond that the addition itself overflows: a panic where None is promised. *)
Theorem C68_get_array_refuted : forall n v offset, v_len v < 2 ^ 64 -> offset < 2 ^ 64 -> 2 ^ 64 <= offset + n -> get_array n v offset = Panic.
Proof. intros n v offset _ _ H. unfold get_array, usize_add. destruct (N.ltb_spec (offset + n) (2 ^ 64)); [lia|reflexivity]. Qed.
(** Cutting an array off either end: None exactly when the slice is too short. *)
Theorem C68_split_chunk : forall T (mem : list T) n v, valid (lenN mem) v ->
  (v_len v < n -> split_first_chunk n v = Ret None /\ split_last_chunk n v = Ret None) /\
  (n <= v_len v -> exists a r r' b, split_first_chunk n v = Ret (Some (a, r)) /\ read mem v = read mem a ++ read mem r /\ lenN (read mem a) = n /\
     split_last_chunk n v = Ret (Some (r', b)) /\ read mem v = read mem r' ++ read mem b /\ lenN (read mem b) = n).
Proof.
  intros T mem n [s l] [V V64]. unfold split_first_chunk, split_last_chunk, split_at, to_array. cbn [v_start v_len] in *. split; intro H.
  - destruct (N.ltb_spec l n); [auto|lia].
  - destruct (N.ltb_spec l n); [lia|]. destruct (N.leb_spec n l); [|lia]. destruct (N.leb_spec (l - n) l); [|lia]. cbn [rbind v_len v_start].
    replace (l - (l - n)) with n by lia. rewrite !N.eqb_refl. cbn [expect_array rbind]. eexists _, _, _, _. split; [reflexivity|].
    split; [rewrite read_app; f_equal; f_equal; lia|]. split; [apply read_len; unfold valid; cbn [v_start v_len]; lia|]. split; [reflexivity|].
    split; [rewrite read_app; f_equal; f_equal; lia|]. apply read_len; unfold valid; cbn [v_start v_len]; lia.
Qed.
(** ** Arrays out of arrays: what compiles never panics, and gives the items meant. *)
Lemma sub_array_eq : forall offset len v, v_len v < 2 ^ 64 -> sub_array offset len v = if offset + len <=? v_len v then Some (Ret (mk_view (v_start v + offset) len)) else None.
Proof.
  intros offset len v L. unfold sub_array, to_array. destruct (N.leb_spec (offset + len) (v_len v)) as [H|H].
  - destruct (N.ltb_spec (offset + len) (2 ^ 64)); [|lia]. cbn [andb v_len]. replace (offset + len - offset) with len by lia. now rewrite N.eqb_refl.
  - now rewrite Bool.andb_false_r.
Qed.
Theorem C68_sub_array : forall T (mem : list T) offset len v, valid (lenN mem) v ->
  (offset + len <= v_len v -> exists a before after, sub_array offset len v = Some (Ret a) /\
     read mem v = before ++ read mem a ++ after /\ lenN before = offset /\ lenN (read mem a) = len) /\
  (v_len v < offset + len -> sub_array offset len v = None).
Proof.
  intros T mem offset len [s l] [V V64]. cbn [v_start v_len] in *. rewrite sub_array_eq by (cbn [v_len]; lia). cbn [v_start v_len]. split; intro H.
  - destruct (N.leb_spec (offset + len) l); [|lia].
    exists (mk_view (s + offset) len), (read mem (mk_view s offset)), (read mem (mk_view (s + offset + len) (l - (offset + len)))). split; [reflexivity|].
    rewrite (read_app _ mem (s + offset)), read_app. split; [f_equal; f_equal; lia|]. split; apply read_len; unfold valid; cbn [v_start v_len]; lia.
  - destruct (N.leb_spec (offset + len) l); [lia|reflexivity].
Qed.
Theorem C68_split_array : forall T (mem : list T) left right v, valid (lenN mem) v ->
  (left + right = v_len v -> exists a b, split_array left right v = Some (Ret (a, b)) /\ read mem v = read mem a ++ read mem b /\ lenN (read mem a) = left /\ lenN (read mem b) = right) /\
  (left + right <> v_len v -> split_array left right v = None).
Proof.
  intros T mem x y [s l] [V V64]. cbn [v_start v_len] in *. unfold split_array. cbn [v_len]. rewrite !sub_array_eq by (cbn [v_len]; lia). cbn [v_start v_len]. split; intro H.
  - destruct (N.ltb_spec (x + y) (2 ^ 64)); [|lia]. destruct (N.eqb_spec (x + y) l); [|lia]. cbn [andb]. destruct (N.leb_spec (0 + x) l); [|lia]. destruct (N.leb_spec (x + y) l); [|lia]. cbn [rbind].
    eexists _, _. split; [reflexivity|]. rewrite N.add_0_r, read_app. split; [f_equal; f_equal; lia|]. split; apply read_len; unfold valid; cbn [v_start v_len]; lia.
  - destruct (N.eqb_spec (x + y) l); [lia|]. now rewrite Bool.andb_false_r.
Qed.
Lemma read_one : forall T (mem : list T) p, p < lenN mem -> exists x, nth_error mem (N.to_nat p) = Some x /\ read mem (mk_view p 1) = [x].
Proof.
  intros T mem p H. unfold read, takeN, dropN. cbn [v_start v_len]. unfold lenN in H. assert (L : (N.to_nat p < length mem)%nat) by lia. clear H. revert L. generalize (N.to_nat p) as k. clear p.
  induction mem as [|y mem IH]; intros k L; cbn [length] in L; [lia|]. destruct k as [|k]; [exists y; split; reflexivity|]. cbn [nth_error skipn]. apply IH. lia.
Qed.
(** Single items: the address returned holds the item meant. *)
Theorem C68_items : forall T (mem : list T) v, valid (lenN mem) v -> 0 < v_len v ->
  (forall i, i < v_len v -> exists p x, get_static i v = Some (Ret p) /\ nth_error mem (N.to_nat p) = Some x /\ nth_error (read mem v) (N.to_nat i) = Some x) /\
  (forall i, v_len v <= i -> get_static i v = None) /\
  (exists p q x y a b, array_first v = Some (Ret p) /\ split_first (v_len v - 1) v = Some (Ret (p, a)) /\ nth_error mem (N.to_nat p) = Some x /\ read mem v = x :: read mem a /\
     split_last (v_len v - 1) v = Some (Ret (q, b)) /\ nth_error mem (N.to_nat q) = Some y /\ read mem v = read mem b ++ [y]).
Proof.
  intros T mem [s l] [V V64] P. cbn [v_start v_len] in *. split; [|split].
  - intros i H. unfold get_static. rewrite sub_array_eq by (cbn [v_len]; lia). cbn [v_start v_len]. destruct (N.leb_spec (i + 1) l); [|lia]. cbn [rbind item0 v_len v_start N.ltb N.compare].
    destruct (read_one _ mem (s + i)) as (x & N1 & R1); [lia|]. exists (s + i), x. split; [reflexivity|]. split; [exact N1|].
    replace (mk_view s l) with (mk_view s (i + (1 + (l - i - 1)))) by (f_equal; lia). rewrite <- read_app, <- read_app, R1.
    assert (LI : lenN (read mem (mk_view s i)) = i) by (apply read_len; unfold valid; cbn [v_start v_len]; lia). unfold lenN in LI.
    rewrite nth_error_app2 by lia. replace (N.to_nat i - length (read mem (mk_view s i)))%nat with 0%nat by lia. reflexivity.
  - intros i H. unfold get_static. rewrite sub_array_eq by (cbn [v_len]; lia). cbn [v_start v_len]. destruct (N.leb_spec (i + 1) l); [lia|reflexivity].
  - unfold array_first, get_static, split_first, split_last, split_array. rewrite !sub_array_eq by (cbn [v_len]; lia). cbn [v_start v_len].
    destruct (N.ltb_spec (1 + (l - 1)) (2 ^ 64)); [|lia]. destruct (N.eqb_spec (1 + (l - 1)) l); [|lia]. destruct (N.ltb_spec (l - 1 + 1) (2 ^ 64)); [|lia]. destruct (N.eqb_spec (l - 1 + 1) l); [|lia].
    cbn [andb]. destruct (N.leb_spec (0 + 1) l); [|lia]. destruct (N.leb_spec (1 + (l - 1)) l); [|lia]. destruct (N.leb_spec (l - 1 + 1) l); [|lia]. destruct (N.leb_spec (0 + (l - 1)) l); [|lia].
    cbn [rbind item0 v_len v_start N.ltb N.compare].
    destruct (read_one _ mem (s + 0)) as (x & N1 & R1); [lia|]. destruct (read_one _ mem (s + (l - 1))) as (y & N2 & R2); [lia|].
    exists (s + 0), (s + (l - 1)), x, y, (mk_view (s + 1) (l - 1)), (mk_view (s + 0) (l - 1)). split; [reflexivity|]. split; [reflexivity|]. split; [exact N1|]. split.
    + change (x :: read mem (mk_view (s + 1) (l - 1))) with ([x] ++ read mem (mk_view (s + 1) (l - 1))). rewrite <- R1, N.add_0_r, read_app. f_equal. f_equal. lia.
    + split; [reflexivity|]. split; [exact N2|]. rewrite <- R2, N.add_0_r, read_app. f_equal. f_equal. lia.
Qed.

(** ** Examples *)
Definition ex_mem : list N := [9; 1; 2; 3; 4; 5; 6; 7; 9].
Definition ex_v : view := mk_view 1 7.
Example C68_ex_chunks : valid (lenN ex_mem) ex_v /\ as_chunks 3 ex_v = Some (Ret ([mk_view 1 3; mk_view 4 3], mk_view 7 1)) /\
  map (read ex_mem) [mk_view 1 3; mk_view 4 3; mk_view 7 1] = [[1; 2; 3]; [4; 5; 6]; [7]] /\ read (write ex_mem (4 + 1) 0) ex_v = [1; 2; 3; 4; 0; 6; 7].
Proof. repeat split; vm_compute; try reflexivity; discriminate. Qed.
Example C68_ex_get : get_array 4 ex_v 3 = Ret (Some (mk_view 4 4)) /\ get_array 4 ex_v 4 = Ret None /\ get_array 4 ex_v (2 ^ 64 - 1) = Panic.
Proof. repeat split. Qed.
Example C68_ex_array : sub_array 2 3 ex_v = Some (Ret (mk_view 3 3)) /\ split_array 3 4 ex_v = Some (Ret (mk_view 1 3, mk_view 4 4)) /\ split_array 3 3 ex_v = None /\
  split_last 6 ex_v = Some (Ret (7, mk_view 1 6)).
Proof. repeat split. Qed.
Print Assumptions C68_chunks.
Print Assumptions C68_chunks_write.
Print Assumptions C68_get_array.
Print Assumptions C68_get_array_refuted.
Print Assumptions C68_split_chunk.
Print Assumptions C68_sub_array.
Print Assumptions C68_split_array.
Print Assumptions C68_items.
