(** Lemmas: the lane programs of sse41.rs and avx2.rs compute SHA256d in every lane. *)
From Coq Require Import String.
From Verif Require Import Base MDec LDec LU256 MHash SHash LHash MSha2 SSha2 LSha2 SHashApi LSha2b LSha2c LSha2d LHmac LBip32b MSimd LSimd LSimd2 LSimd3 LSimd4 LSimd5.
Local Open Scope N_scope.
#[local] Opaque compress sha256_comp.
(** * The programs on graph numbers *)
Definition oget (w : list (option N)) (i : nat) : option N := nth i w None.
(** the terms of a sum *)
Inductive lterm := TmR (off : N) | TmW (i : nat) | TmK (c : N) | TmS0 (i : nat) | TmS1 (i : nat).
Fixpoint terms (e : lx) : option (list lterm) :=
  let ap a b := match a, b with Some x, Some y => Some (x ++ y) | _, _ => None end in
  match e with
  | LRead off => Some [TmR off]
  | LW i => Some [TmW i]
  | LK c => Some [TmK c]
  | LS0 (LW i) => Some [TmS0 i]
  | LS1 (LW i) => Some [TmS1 i]
  | LAdd a b => ap (terms a) (terms b)
  | LAdd3 a b c => ap (ap (terms a) (terms b)) (terms c)
  | LAdd4 a b c d => ap (ap (terms a) (terms b)) (ap (terms c) (terms d))
  | _ => None
  end.
Definition cls (t : lterm) : N := match t with TmR _ => 2 | TmW _ => 2 | TmK _ => 1 | TmS0 _ => 0 | TmS1 _ => 3 end.
Definition is_head (t : lterm) : bool := (cls t =? 1) || (cls t =? 2).
(** the order in which the standard's symbolic sum adds *)
Fixpoint take_head (ts : list lterm) : option (lterm * list lterm) :=
  match ts with
  | [] => None
  | t :: ts' => if is_head t then Some (t, ts') else match take_head ts' with Some (h, r) => Some (h, t :: r) | None => None end
  end.
Definition arrange (ts : list lterm) : option (list lterm) :=
  match take_head ts with
  | Some (h, r) => Some (h :: filter (fun t => cls t =? 0) r ++ filter (fun t => cls t =? 1) r ++ filter (fun t => cls t =? 2) r ++ filter (fun t => cls t =? 3) r)
  | None => None
  end.
Definition s_term1 (w : list (option N)) (t : lterm) : sm (option N) :=
  match t with
  | TmR off => if (off mod 4 =? 0) && (off / 4 <? 16) then bind (s_word (off / 4)) (fun i => ret (Some i)) else ret None
  | TmW i => ret (oget w i)
  | TmK c => if c <? W32 then bind (s_const c) (fun i => ret (Some i)) else ret None
  | _ => ret None
  end.
Definition s_plus (w : list (option N)) (a : N) (t : lterm) : sm (option N) :=
  match t with
  | TmS0 i => match oget w i with Some x => bind (s_m1 a x) (fun k => ret (Some k)) | None => ret None end
  | TmS1 i => match oget w i with Some x => bind (s_m2 a x) (fun k => ret (Some k)) | None => ret None end
  | _ => bind (s_term1 w t) (fun o => match o with Some x => bind (s_add a x) (fun k => ret (Some k)) | None => ret None end)
  end.
Fixpoint s_sum (w : list (option N)) (a : N) (ts : list lterm) : sm (option N) :=
  match ts with [] => ret (Some a) | t :: ts' => bind (s_plus w a t) (fun o => match o with Some b => s_sum w b ts' | None => ret None end) end.
Definition s_lx (w : list (option N)) (e : lx) : sm (option N) :=
  match terms e with
  | Some ts => match arrange ts with
    | Some (h :: r) => bind (s_term1 w h) (fun o => match o with Some a => s_sum w a r | None => ret None end)
    | _ => ret None
    end
  | None => ret None
  end.
Definition s_kw (w : list (option N)) (x : lkw) : sm (option (N * list (option N))) :=
  match x with
  | KwK k => if k <? W32 then bind (s_const k) (fun i => ret (Some (i, w))) else ret None
  | KwW k i => match oget w i with Some x => bind (s_const k) (fun c => bind (s_add c x) (fun j => ret (Some (j, w)))) | None => ret None end
  | KwSet k i e => bind (s_lx w e) (fun o => match o with Some v => bind (s_const k) (fun c => bind (s_add c v) (fun j => ret (Some (j, upd_nth i (Some v) w)))) | None => ret None end)
  end.
Definition s_lround (ord : list nat) (kw : N) (r : list N) : sm (option (list N)) :=
  match ord with
  | [a; b; c; d; e; f; g; h] =>
      if forallb (fun i => (i <? 8)%nat) ord && negb (d =? h)%nat then
      let R i := nth i r 0 in
      bind (s_rnd2 (R a) (R b) (R c) (R d) (R e) (R f) (R g) (R h) kw) (fun p => ret (Some (upd_nth h (fst p) (upd_nth d (snd p) r))))
      else ret None
  | _ => ret None
  end.
Fixpoint s_lrun (is : list lins) (r : list N) (w : list (option N)) : sm (option (list N * list (option N))) :=
  match is with
  | [] => ret (Some (r, w))
  | LIns ord x :: is' =>
      bind (s_kw w x) (fun o => match o with
        | Some (kw, w') => bind (s_lround ord kw r) (fun o => match o with Some r' => s_lrun is' r' w' | None => ret None end)
        | None => ret None
        end)
  end.
Definition s_lanes (init add1 init3 out : list N) (rounds1 rounds2 rounds3 : list lins) : sm (option (list N)) :=
  bind (s_list (map s_const init)) (fun i1 => bind (s_lrun rounds1 i1 (repeat None 16)) (fun o => match o with None => ret None | Some (r1, w1) =>
  bind (s_list (map s_const add1)) (fun a1 => bind (s_adds r1 a1) (fun s => bind (s_lrun rounds2 s w1) (fun o => match o with None => ret None | Some (r2, w2) =>
  bind (s_adds s r2) (fun h => bind (s_list (map s_const init3)) (fun i3 => bind (s_lrun rounds3 i3 (map Some h ++ skipn 8 w2)) (fun o => match o with None => ret None | Some (r3, w3) =>
  bind (s_list (map s_const out)) (fun ou => bind (s_adds r3 ou) (fun z => ret (Some z)))
  end))) end))) end)).
Fixpoint nlist_eqb (a b : list N) : bool := match a, b with [], [] => true | x :: a', y :: b' => (x =? y) && nlist_eqb a' b' | _, _ => false end.
(** the standard, without the final byte swap *)
Definition s_dw (k : nat) : sm (list N) :=
  bind (s_list (map s_const iv256)) (fun iv => bind (s_list (map s_word (iy k 16))) (fun w => bind (s_cword iv w) (fun h1 =>
  bind (s_list (map s_const pad64)) (fun pd => bind (s_cword h1 pd) (fun h2 =>
  bind (s_list (map s_const tail32)) (fun tl => s_cword iv (h2 ++ tl))))))).
Definition small_all (l : list N) : bool := forallb (fun x => x <? W32) l && (List.length l =? 8)%nat.
Definition lanes_check (init add1 init3 out : list N) (rounds1 rounds2 rounds3 : list lins) : sm bool :=
  bind (s_lanes init add1 init3 out rounds1 rounds2 rounds3) (fun o => bind (s_dw 0) (fun h =>
  ret (match o with Some z => nlist_eqb z h | None => false end && small_all init && small_all add1 && small_all init3 && small_all out))).
Lemma sse_check : fst (lanes_check sse_init sse_add1 sse_init3 sse_out sse_rounds1 sse_rounds2 sse_rounds3 g_empty) = true.
Proof. vm_compute. reflexivity. Qed.
Lemma avx_check : fst (lanes_check avx_init avx_add1 avx_init3 avx_out avx_rounds1 avx_rounds2 avx_rounds3 g_empty) = true.
Proof. vm_compute. reflexivity. Qed.

(** * The lanes of the vector operations *)
Lemma vmap2_len : forall f a b, List.length a = List.length b -> List.length (vmap2 f a b) = List.length a.
Proof. intros f. induction a as [|x a IH]; intros [|y b] L; cbn [vmap2 List.length] in *; try lia. rewrite IH; lia. Qed.
Lemma vmap2_nth : forall f a b j, List.length a = List.length b -> (j < List.length a)%nat -> nth j (vmap2 f a b) 0 = f (nth j a 0) (nth j b 0).
Proof. intros f. induction a as [|x a IH]; intros [|y b] j L J; cbn [vmap2 List.length] in *; try lia. destruct j; [reflexivity|]. cbn [nth]. apply IH; lia. Qed.
Lemma map_nth_in : forall (f : N -> N) a j, (j < List.length a)%nat -> nth j (map f a) 0 = f (nth j a 0).
Proof. intros f a j J. rewrite (nth_indep _ 0 (f 0)) by (now rewrite map_length). apply map_nth. Qed.
Section Vec.
  Variable n : nat.
  Variable j : nat.
  Hypothesis J : (j < n)%nat.
  Definition isv (v : wvec) (x : N) : Prop := List.length v = n /\ nth j v 0 = x.
  Lemma isv_map2 : forall f a b x y, isv a x -> isv b y -> isv (vmap2 f a b) (f x y).
  Proof. intros f a b x y [LA A] [LB B]. split; [rewrite vmap2_len; lia|]. rewrite vmap2_nth by lia. now rewrite A, B. Qed.
  Lemma isv_map : forall f a x, isv a x -> isv (map f a) (f x).
  Proof. intros f a x [LA A]. split; [now rewrite map_length|]. rewrite map_nth_in by lia. now rewrite A. Qed.
  Lemma isv_K : forall c, isv (vK n c) c.
  Proof. intro c. unfold vK. split; [apply repeat_length|]. clear -J. revert j J. induction n as [|m IH]; intros i I; [lia|]. destruct i; [reflexivity|]. cbn [repeat nth]. apply IH. lia. Qed.
  Lemma isv_add : forall a b x y, isv a x -> isv b y -> isv (vAdd a b) (add32 x y).
  Proof. intros. now apply isv_map2. Qed.
  Lemma isv_rot : forall k a x, isv a x -> isv (vOr (vShR k a) (vShL (32 - k) a)) (ror32 k x).
  Proof. intros k a x H. unfold ror32. apply isv_map2; [exact (isv_map (fun v => N.shiftr v k) a x H)|exact (isv_map (fun v => N.shiftl v (32 - k) mod 2 ^ 32) a x H)]. Qed.
  Lemma isv_s0 : forall a x, isv a x -> isv (vsigma0 a) (s0 ops256 x).
  Proof. intros a x H. rewrite <- hw_s0_eq. unfold vsigma0, hw_s0. apply isv_map2; [apply isv_map2; [exact (isv_rot 7 a x H)|exact (isv_rot 18 a x H)]|exact (isv_map (fun v => N.shiftr v 3) a x H)]. Qed.
  Lemma isv_s1 : forall a x, isv a x -> isv (vsigma1 a) (s1 ops256 x).
  Proof. intros a x H. rewrite <- hw_s1_eq. unfold vsigma1, hw_s1. apply isv_map2; [apply isv_map2; [exact (isv_rot 17 a x H)|exact (isv_rot 19 a x H)]|exact (isv_map (fun v => N.shiftr v 10) a x H)]. Qed.
  Lemma isv_S0 : forall a x, isv a x -> isv (vSigma0 a) (S0 ops256 x).
  Proof. intros a x H. rewrite <- hw_S0_eq. unfold vSigma0, hw_S0. apply isv_map2; [apply isv_map2; [exact (isv_rot 2 a x H)|exact (isv_rot 13 a x H)]|exact (isv_rot 22 a x H)]. Qed.
  Lemma isv_S1 : forall a x, isv a x -> isv (vSigma1 a) (S1 ops256 x).
  Proof. intros a x H. rewrite <- hw_S1_eq. unfold vSigma1, hw_S1. apply isv_map2; [apply isv_map2; [exact (isv_rot 6 a x H)|exact (isv_rot 11 a x H)]|exact (isv_rot 25 a x H)]. Qed.
  Lemma isv_Ch : forall a b c x y z, isv a x -> isv b y -> isv c z -> isv (vCh a b c) (Ch x y z).
  Proof. intros. unfold vCh, Ch. apply isv_map2; [assumption|]. apply isv_map2; [assumption|]. now apply isv_map2. Qed.
  Lemma isv_Maj : forall a b c x y z, isv a x -> isv b y -> isv c z -> isv (vMaj a b c) (Maj x y z).
  Proof. intros. unfold vMaj, Maj. apply isv_map2; [now apply isv_map2|]. apply isv_map2; [assumption|]. now apply isv_map2. Qed.
  (** a round *)
  Lemma isv_round : forall (R : nat -> wvec) (v : nat -> N) kw kv a b c d e f g h, (forall i, In i [a; b; c; d; e; f; g; h] -> isv (R i) (v i)) -> isv kw kv ->
    let t1 := vAdd4 (R h) (vSigma1 (R e)) (vCh (R e) (R f) (R g)) kw in let t2 := vAdd (vSigma0 (R a)) (vMaj (R a) (R b) (R c)) in
    isv (vAdd t1 t2) (rndA (v a) (v b) (v c) (v d) (v e) (v f) (v g) (v h) kv) /\ isv (vAdd (R d) t1) (rndE (v a) (v b) (v c) (v d) (v e) (v f) (v g) (v h) kv).
  Proof.
    intros R v kw kv a b c d e f g h H HK t1 t2.
    assert (T1 : isv t1 (add32 (add32 (v h) (S1 ops256 (v e))) (add32 (Ch (v e) (v f) (v g)) kv))).
    { unfold t1, vAdd4. apply isv_add; apply isv_add; [apply H; cbn; tauto|apply isv_S1, H; cbn; tauto|apply isv_Ch; apply H; cbn; tauto|exact HK]. }
    assert (T2 : isv t2 (add32 (S0 ops256 (v a)) (Maj (v a) (v b) (v c)))).
    { unfold t2. apply isv_add; [apply isv_S0, H; cbn; tauto|apply isv_Maj; apply H; cbn; tauto]. }
    pose proof (isv_add _ _ _ _ T1 T2) as A. pose proof (isv_add _ _ _ _ (H d ltac:(cbn; tauto)) T1) as B. unfold rndA, rndE, mstep. cbn [nth]. change (wd ops256) with 32.
    set (p := S1 ops256 (v e)) in *. set (q := Ch (v e) (v f) (v g)) in *. set (r := S0 ops256 (v a)) in *. set (s := Maj (v a) (v b) (v c)) in *. clearbody p q r s. clear T1 T2. unfold wadd.
    split; [replace ((_ + _) mod W32) with (add32 (add32 (add32 (v h) p) (add32 q kv)) (add32 r s)) by (unfold add32; mods); exact A|].
    replace ((v d + _) mod W32) with (add32 (v d) (add32 (add32 (v h) p) (add32 q kv))) by (unfold add32; mods). exact B.
  Qed.
End Vec.
Lemma word_at_lt : forall b i, bytes_ok b -> word_at b i < W32.
Proof.
  intros b i OK. unfold word_at, be_val. assert (O : bytes_ok (rev (takeN 4 (dropN (4 * i) b)))) by (unfold bytes_ok; apply Forall_rev; apply takeN_ok', dropN_ok', OK).
  apply le_val_lt in O. eapply N.lt_le_trans; [exact O|]. change W32 with (256 ^ 4). apply N.pow_le_mono_r; [lia|]. unfold lenN. rewrite rev_length. change (lenN (takeN 4 (dropN (4 * i) b)) <= 4). rewrite lenN_takeN. lia.
Qed.
(** byte swaps of groups of four *)
Lemma shuffle_swap : forall k a, List.length a = (4 * k)%nat -> shuffle8 a (concat (repeat (rev [0x0C0D0E0F; 0x08090A0B; 0x04050607; 0x00010203]) k)) = map bswap32 a.
Proof.
  induction k as [|k IH]; intros a L; [destruct a; [reflexivity|discriminate]|]. destruct a as [|a0 [|a1 [|a2 [|a3 a]]]]; cbn [List.length] in L; try lia. cbn [repeat concat].
  change (rev [0x0C0D0E0F; 0x08090A0B; 0x04050607; 0x00010203]) with [0x00010203; 0x04050607; 0x08090A0B; 0x0C0D0E0F] at 1. cbn [app shuffle8]. change (V 0x00010203 0x04050607 0x08090A0B 0x0C0D0E0F) with mask.
  rewrite shuf8_mask, IH by lia. reflexivity.
Qed.
Lemma swap4 : forall n k a, n = (4 * k)%nat -> List.length a = n -> shuffle8 a (vmask n) = map bswap32 a.
Proof. intros n k a E L. unfold vmask. replace (n / 4)%nat with k by (subst; rewrite Nat.mul_comm, Nat.div_mul; lia). apply shuffle_swap. lia. Qed.
Lemma upd_nth_len : forall A i (x : A) l, List.length (upd_nth i x l) = List.length l.
Proof. intros A. induction i as [|i IH]; intros x [|y l]; cbn [upd_nth List.length]; auto. Qed.
Lemma upd_nth_same : forall A i (x d : A) l, (i < List.length l)%nat -> nth i (upd_nth i x l) d = x.
Proof. intros A. induction i as [|i IH]; intros x d [|y l] L; cbn [List.length] in L; try lia; [reflexivity|]. cbn [upd_nth nth]. apply IH. lia. Qed.
Lemma upd_nth_other : forall A i k (x d : A) l, i <> k -> nth k (upd_nth i x l) d = nth k l d.
Proof. intros A. induction i as [|i IH]; intros [|k] x d [|y l] NE; cbn [upd_nth nth]; try reflexivity; try congruence. apply IH. congruence. Qed.
(** sums of terms *)
Definition sum_l (l : list N) : N := fold_right N.add 0 l.
Lemma sum_app : forall a b, sum_l (a ++ b) = sum_l a + sum_l b.
Proof. induction a as [|x a IH]; intro b; cbn [app sum_l fold_right]; [reflexivity|]. fold (sum_l (a ++ b)) (sum_l a). rewrite IH. lia. Qed.
Lemma take_head_sum : forall ts h r (f : lterm -> N) (P : lterm -> Prop), take_head ts = Some (h, r) ->
  sum_l (map f ts) = f h + sum_l (map f r) /\ is_head h = true /\ (P h -> Forall P r -> Forall P ts).
Proof.
  induction ts as [|t ts IH]; intros h r f P E; cbn [take_head] in E; [discriminate|]. destruct (is_head t) eqn:H.
  - injection E as <- <-. split; [reflexivity|]. split; [exact H|]. auto.
  - destruct (take_head ts) as [[h' r']|] eqn:E'; [|discriminate]. injection E as <- <-. destruct (IH h' r' f P eq_refl) as (A & B & C). cbn [map sum_l fold_right]. fold (sum_l (map f ts)) (sum_l (map f r')).
    rewrite A. split; [lia|]. split; [exact B|]. intros PH PR. apply Forall_cons_iff in PR as [PT PR]. constructor; auto.
Qed.
Lemma classes_sum : forall r (f : lterm -> N) (P : lterm -> Prop),
  let l := filter (fun t => cls t =? 0) r ++ filter (fun t => cls t =? 1) r ++ filter (fun t => cls t =? 2) r ++ filter (fun t => cls t =? 3) r in
  sum_l (map f l) = sum_l (map f r) /\ (Forall P l -> Forall P r).
Proof.
  intros r f P. cbv zeta. split.
  - rewrite !map_app, !sum_app. induction r as [|t r IH]; [reflexivity|]. cbn [filter map sum_l fold_right]. fold (sum_l (map f r)). destruct t; cbn [cls]; 
      repeat (match goal with |- context [?a =? ?b] => let v := eval vm_compute in (a =? b) in change (a =? b) with v end); cbn [map sum_l fold_right];
      repeat (match goal with |- context [fold_right N.add 0 ?l] => change (fold_right N.add 0 l) with (sum_l l) end); lia.
  - rewrite !Forall_app. induction r as [|t r IH]; [constructor|]. cbn [filter]. destruct t; cbn [cls];
      repeat (match goal with |- context [?a =? ?b] => let v := eval vm_compute in (a =? b) in change (a =? b) with v end); cbv iota; rewrite ?Forall_cons_iff; tauto.
Qed.
Lemma arrange_sum : forall ts h r (f : lterm -> N) (P : lterm -> Prop), arrange ts = Some (h :: r) ->
  sum_l (map f ts) = f h + sum_l (map f r) /\ is_head h = true /\ (P h -> Forall P r -> Forall P ts).
Proof.
  intros ts h r f P E. unfold arrange in E. destruct (take_head ts) as [[h' r']|] eqn:T; [|discriminate]. injection E as <- <-. destruct (take_head_sum ts h' r' f P T) as (A & B & C). destruct (classes_sum r' f P) as [D G]. cbv zeta in *.
  rewrite D. split; [exact A|]. split; [exact B|]. auto.
Qed.
Section LaneSound.
  Variable n : nat.
  Variable k4 : nat.
  Hypothesis N4 : n = (4 * k4)%nat.
  Variable inputs : list bytes.
  Hypothesis LI : List.length inputs = n.
  Variable j : nat.
  Hypothesis J : (j < n)%nat.
  Variable b : bytes.
  Hypothesis NB : nth (n - 1 - j) inputs [] = b.
  Hypothesis OB : bytes_ok b.
  Hypothesis LB : lenN b = 64.
  Definition lrho : N -> N := vars [b] [].
  Lemma lrho_lt : forall i, lrho i < W32.
  Proof. intro i. apply vars_lt. Qed.
  Notation ref := (LSimd.ref lrho).
  Notation ext := (LSimd.ext lrho).
  Notation triple := (LSimd.triple lrho).
  Notation isv := (LSimd6.isv n j).
  Lemma vread_lane : forall off, off mod 4 = 0 -> off / 4 < 16 -> isv (vread n inputs off) (word_at b (off / 4)).
  Proof.
    intros off M D. unfold vread. rewrite (swap4 n k4) by (rewrite ?rev_length, ?map_length; auto). rewrite <- (bswap_word b (off / 4) OB ltac:(lia) D).
    apply isv_map; [exact J|]. split; [now rewrite rev_length, map_length|].
    assert (JL : (j < List.length inputs)%nat) by (rewrite LI; exact J). rewrite rev_nth by (rewrite map_length; exact JL). rewrite map_length. replace (List.length inputs) with n by (symmetry; exact LI). replace (n - S j)%nat with (n - 1 - j)%nat by lia.
    rewrite (nth_indep _ 0 (le_val (takeN 4 (dropN off [])))) by (rewrite map_length; clear -JL LI J; unfold bytes in *; lia). rewrite (map_nth (fun b0 => le_val (takeN 4 (dropN off b0)))). transitivity (le_val (takeN 4 (dropN off b))); [do 3 f_equal; etransitivity; [|exact NB]; f_equal; clear -LI J; unfold bytes in *; lia|]. do 3 f_equal. pose proof (N.div_mod off 4 ltac:(discriminate)). lia.
  Qed.
  (** vectors and the numbers of their lane *)
  Definition vref (S : graph) (i : N) (v : wvec) : Prop := exists x, isv v x /\ ref S i x.
  Lemma vref_ext : forall S T i v, ext S T -> vref S i v -> vref T i v.
  Proof. intros S T i v X (x & A & B). exists x. split; [exact A|exact (ref_ext lrho _ _ _ _ X B)]. Qed.
  Definition wrel (S : graph) (ws : list (option N)) (w : list wvec) : Prop :=
    List.length ws = List.length w /\ forall i id, oget ws i = Some id -> vref S id (nth i w []).
  Lemma wrel_ext : forall S T ws w, ext S T -> wrel S ws w -> wrel T ws w.
  Proof. intros S T ws w X [L H]. split; [exact L|]. intros i id G. exact (vref_ext _ _ _ _ X (H i id G)). Qed.
  Definition rrel (S : graph) (rs : list N) (r : list wvec) : Prop := Forall2 (vref S) rs r.
  Lemma rrel_ext : forall S T a c, ext S T -> rrel S a c -> rrel T a c.
  Proof. intros S T a c X H. induction H; constructor; auto. exact (vref_ext _ _ _ _ X H). Qed.
  (** the value of a term in the lane *)
  Definition wl (w : list wvec) (i : nat) : N := nth j (nth i w []) 0.
  Definition tval (w : list wvec) (t : lterm) : N :=
    match t with TmR off => word_at b (off / 4) | TmW i => wl w i | TmK c => c | TmS0 i => s0 ops256 (wl w i) | TmS1 i => s1 ops256 (wl w i) end.
  Definition tok (ws : list (option N)) (t : lterm) : Prop :=
    match t with TmR off => off mod 4 = 0 /\ off / 4 < 16 | TmW i | TmS0 i | TmS1 i => oget ws i <> None | TmK c => c < W32 end.
  Lemma wrel_get : forall S ws w i id, wrel S ws w -> oget ws i = Some id -> isv (nth i w []) (wl w i) /\ ref S id (wl w i).
  Proof. intros S ws w i id [_ H] G. destruct (H i id G) as (x & A & B). assert (x = wl w i) as -> by (unfold wl; symmetry; apply A). auto. Qed.
  Lemma t_term1 : forall S ws w t, wrel S ws w -> triple S (s_term1 ws t) (fun S' o => forall i, o = Some i -> tok ws t /\ ref S' i (tval w t)).
  Proof.
    intros S ws w t R. destruct t as [off|i|c|i|i]; cbn [s_term1 tok tval]; try (apply t_ret; discriminate).
    - destruct (N.eqb_spec (off mod 4) 0) as [M|]; [|apply t_ret; discriminate]. destruct (N.ltb_spec (off / 4) 16) as [D|]; [|apply t_ret; discriminate]. cbn [andb].
      unfold s_word. eapply t_bind.
      + eapply t_bind; [apply t_var|]. cbv beta. intros a S' W X RA. exact (t_swap lrho S' _ _ RA).
      + cbv beta. intros a S' W X RA. apply t_ret. intros i' E. injection E as <-. split; [auto|]. pose proof (vars_mem [b] [] 0 (off / 4) b ltac:(lia) D eq_refl OB) as V. change (16 * N.of_nat 0 + off / 4) with (off / 4) in V.
        unfold lrho in RA. rewrite V in RA. rewrite bswap_word in RA by (auto; lia). exact RA.
    - apply t_ret. intros id G. destruct (wrel_get _ _ _ _ _ R G) as [_ RF]. split; [congruence|exact RF].
    - destruct (N.ltb_spec c W32); [|apply t_ret; discriminate]. eapply t_bind; [apply t_const|]. cbv beta. intros a S' W X RA. apply t_ret. intros i E. injection E as <-. rewrite N.mod_small in RA by auto. auto.
  Qed.
  Lemma t_plus : forall S ws w a x t, wrel S ws w -> ref S a x -> triple S (s_plus ws a t) (fun S' o => forall i, o = Some i -> tok ws t /\ ref S' i (add32 x (tval w t))).
  Proof.
    intros S ws w a x t R RA.
    assert (G : forall t, triple S (bind (s_term1 ws t) (fun o => match o with Some x => bind (s_add a x) (fun k => ret (Some k)) | None => ret None end))
                 (fun S' o => forall i, o = Some i -> tok ws t /\ ref S' i (add32 x (tval w t)))).
    { intro t'. eapply t_bind; [apply (t_term1 S ws w t' R)|]. cbv beta. intros o S' W X H. destruct o as [y|]; [|apply t_ret; discriminate]. destruct (H y eq_refl) as [T RY].
      eapply t_bind; [exact (t_add lrho lrho_lt S' a y x _ (ref_ext lrho _ _ _ _ X RA) RY)|]. cbv beta. intros k S'' W' X' RK. apply t_ret. intros i E. injection E as <-. auto. }
    destruct t as [off|i|c|i|i]; cbn [s_plus]; try (apply G).
    - destruct (oget ws i) as [y|] eqn:E; [|apply t_ret; discriminate]. destruct (wrel_get _ _ _ _ _ R E) as [_ RF].
      eapply t_bind; [exact (t_m1 lrho lrho_lt S a y x _ RA RF)|]. cbv beta. intros k S' W X RK. apply t_ret. intros i' E'. injection E' as <-. cbn [tok tval]. split; [congruence|exact RK].
    - destruct (oget ws i) as [y|] eqn:E; [|apply t_ret; discriminate]. destruct (wrel_get _ _ _ _ _ R E) as [_ RF].
      eapply t_bind; [exact (t_m2 lrho lrho_lt S a y x _ RA RF)|]. cbv beta. intros k S' W X RK. apply t_ret. intros i' E'. injection E' as <-. cbn [tok tval]. split; [congruence|exact RK].
  Qed.
  Lemma t_sum : forall ts S ws w a x, wrel S ws w -> ref S a x -> triple S (s_sum ws a ts) (fun S' o => forall i, o = Some i -> Forall (tok ws) ts /\ ref S' i ((x + sum_l (map (tval w) ts)) mod W32)).
  Proof.
    induction ts as [|t ts IH]; intros S ws w a x R RA; cbn [s_sum].
    - apply t_ret. intros i E. injection E as <-. split; [constructor|]. cbn [map sum_l fold_right]. rewrite N.add_0_r, N.mod_small by exact (ref_lt lrho lrho_lt S a x RA). exact RA.
    - eapply t_bind; [apply (t_plus S ws w a x t R RA)|]. cbv beta. intros o S' W X H. destruct o as [y|]; [|apply t_ret; discriminate]. destruct (H y eq_refl) as [T RY].
      eapply t_conseq; [apply (IH S' ws w y _ (wrel_ext _ _ _ _ X R) RY)|]. cbv beta. intros S'' o X' H' i E. destruct (H' i E) as [F RF]. split; [constructor; auto|].
      cbn [map sum_l fold_right]. fold (sum_l (map (tval w) ts)). unfold add32 in RF. rewrite madd in RF. rewrite N.add_assoc. exact RF.
  Qed.
  (** expressions *)
  Lemma lval_sum : forall e ts S ws w, terms e = Some ts -> wrel S ws w -> Forall (tok ws) ts ->
    exists x, isv (lval n inputs w e) x /\ x mod W32 = sum_l (map (tval w) ts) mod W32 /\ ((forall h r, arrange ts = Some (h :: r) -> x < W32)).
  Proof.
    assert (ADD : forall x y p q, x mod W32 = p mod W32 -> y mod W32 = q mod W32 -> add32 x y mod W32 = (p + q) mod W32).
    { intros x y p q A C. unfold add32. rewrite N.mod_mod by discriminate. rewrite <- madd, <- madd', A, C, madd, madd'. reflexivity. }
    assert (LT : forall x y, add32 x y < W32) by (intros; apply mod_lt32).
    induction e as [off|i|c|a IHa d IHd|a IHa d IHd c IHc|a IHa d IHd c IHc f IHf|a IHa|a IHa]; intros ts S ws w E R F; cbn [terms lval] in *.
    - injection E as <-. apply Forall_inv in F. destruct F as [M D]. exists (word_at b (off / 4)). split; [apply vread_lane; auto|]. split; [cbn [map sum_l fold_right tval]; now rewrite N.add_0_r|]. intros _ _ _.
      apply (word_at_lt b (off / 4) OB).
    - injection E as <-. apply Forall_inv in F. cbn [tok] in F. destruct (oget ws i) as [y|] eqn:G; [|congruence]. destruct (wrel_get _ _ _ _ _ R G) as [A B]. exists (wl w i). split; [exact A|]. split; [cbn [map sum_l fold_right tval]; now rewrite N.add_0_r|].
      intros _ _ _. exact (ref_lt lrho lrho_lt S y _ B).
    - injection E as <-. apply Forall_inv in F. exists c. split; [now apply isv_K|]. split; [cbn [map sum_l fold_right tval]; now rewrite N.add_0_r|auto].
    - destruct (terms a) as [ta|]; [|discriminate]. destruct (terms d) as [td|]; [|discriminate]. injection E as <-. apply Forall_app in F as [FA FD].
      destruct (IHa ta S ws w eq_refl R FA) as (xa & VA & SA & _). destruct (IHd td S ws w eq_refl R FD) as (xd & VD & SD & _). exists (add32 xa xd). split; [now apply isv_add|]. rewrite map_app, sum_app. auto.
    - destruct (terms a) as [ta|]; [|discriminate]. destruct (terms d) as [td|]; [|discriminate]. destruct (terms c) as [tc|]; [|discriminate]. injection E as <-. apply Forall_app in F as [F FC]. apply Forall_app in F as [FA FD].
      destruct (IHa ta S ws w eq_refl R FA) as (xa & VA & SA & _). destruct (IHd td S ws w eq_refl R FD) as (xd & VD & SD & _). destruct (IHc tc S ws w eq_refl R FC) as (xc & VC & SC & _).
      exists (add32 (add32 xa xd) xc). split; [apply isv_add; [exact J|now apply isv_add|exact VC]|]. rewrite !map_app, !sum_app. auto.
    - destruct (terms a) as [ta|]; [|discriminate]. destruct (terms d) as [td|]; [|discriminate]. destruct (terms c) as [tc|]; [|discriminate]. destruct (terms f) as [tf|]; [|discriminate]. injection E as <-. apply Forall_app in F as [F FC]. apply Forall_app in F as [FA FD]. apply Forall_app in FC as [FC FF].
      destruct (IHa ta S ws w eq_refl R FA) as (xa & VA & SA & _). destruct (IHd td S ws w eq_refl R FD) as (xd & VD & SD & _). destruct (IHc tc S ws w eq_refl R FC) as (xc & VC & SC & _). destruct (IHf tf S ws w eq_refl R FF) as (xf & VF & SF & _).
      exists (add32 (add32 xa xd) (add32 xc xf)). split; [apply isv_add; [exact J|now apply isv_add|now apply isv_add]|]. rewrite !map_app, !sum_app. auto.
    - destruct a as [ |i| | | | | | ]; try discriminate. injection E as <-. apply Forall_inv in F. cbn [tok] in F. destruct (oget ws i) as [y|] eqn:G; [|congruence]. destruct (wrel_get _ _ _ _ _ R G) as [A B].
      exists (s0 ops256 (wl w i)). split; [cbn [lval]; now apply isv_s0|]. split; [cbn [map sum_l fold_right tval]; now rewrite N.add_0_r|]. intros h r AR. discriminate.
    - destruct a as [ |i| | | | | | ]; try discriminate. injection E as <-. apply Forall_inv in F. cbn [tok] in F. destruct (oget ws i) as [y|] eqn:G; [|congruence]. destruct (wrel_get _ _ _ _ _ R G) as [A B].
      exists (s1 ops256 (wl w i)). split; [cbn [lval]; now apply isv_s1|]. split; [cbn [map sum_l fold_right tval]; now rewrite N.add_0_r|]. intros h r AR. discriminate.
  Qed.
  Lemma t_lx : forall S ws w e, wrel S ws w -> triple S (s_lx ws e) (fun S' o => forall i, o = Some i -> vref S' i (lval n inputs w e)).
  Proof.
    intros S ws w e R. unfold s_lx. destruct (terms e) as [ts|] eqn:T; [|apply t_ret; discriminate]. destruct (arrange ts) as [[|h r]|] eqn:A; try (apply t_ret; discriminate).
    eapply t_bind; [apply (t_term1 S ws w h R)|]. cbv beta. intros o S' W X H. destruct o as [a|]; [|apply t_ret; discriminate]. destruct (H a eq_refl) as [TH RH].
    eapply t_conseq; [apply (t_sum r S' ws w a _ (wrel_ext _ _ _ _ X R) RH)|]. cbv beta. intros S'' o X' H' i E. destruct (H' i E) as [F RF].
    destruct (arrange_sum ts h r (tval w) (tok ws) A) as (SM & _ & FT). destruct (lval_sum e ts S ws w T R (FT TH F)) as (x & V & SX & LT). exists x. split; [exact V|].
    specialize (LT h r A). rewrite SM in SX. rewrite (N.mod_small x) in SX by exact LT. rewrite SX. exact RF.
  Qed.
  Lemma wrel_upd : forall S ws w i id v, wrel S ws w -> vref S id v -> wrel S (upd_nth i (Some id) ws) (upd_nth i v w).
  Proof.
    intros S ws w i id v [L H] V. split; [now rewrite !upd_nth_len|]. intros q id' G. unfold oget in G. destruct (Nat.eq_dec i q) as [<-|NE].
    - destruct (Nat.lt_ge_cases i (List.length ws)) as [LT|GE].
      + rewrite upd_nth_same in G by exact LT. injection G as <-. rewrite upd_nth_same by (rewrite <- L; exact LT). exact V.
      + rewrite nth_overflow in G by (rewrite upd_nth_len; exact GE). discriminate.
    - rewrite upd_nth_other in G by exact NE. rewrite upd_nth_other by exact NE. apply H. exact G.
  Qed.
  Lemma t_kw : forall S ws w x, wrel S ws w -> triple S (s_kw ws x) (fun S' o => forall i ws', o = Some (i, ws') ->
    vref S' i (fst (lkw_step n inputs w x)) /\ wrel S' ws' (snd (lkw_step n inputs w x))).
  Proof.
    intros S ws w x R. destruct x as [k|k i|k i e]; cbn [s_kw lkw_step].
    - destruct (N.ltb_spec k W32); [|apply t_ret; discriminate]. eapply t_bind; [apply t_const|]. cbv beta. intros a S' W X RA. rewrite N.mod_small in RA by auto. apply t_ret. intros i ws' E. injection E as <- <-. cbn [fst snd].
      split; [exists k; split; [now apply isv_K|exact RA]|exact (wrel_ext _ _ _ _ X R)].
    - destruct (oget ws i) as [y|] eqn:G; [|apply t_ret; discriminate]. destruct (wrel_get _ _ _ _ _ R G) as [V RY]. eapply t_bind; [apply t_const|]. cbv beta. intros c S' W X RC.
      eapply t_bind; [exact (t_add lrho lrho_lt S' c y _ _ RC (ref_ext lrho _ _ _ _ X RY))|]. cbv beta. intros d S'' W' X' RD. apply t_ret. intros i' ws' E. injection E as <- <-. cbn [fst snd].
      split; [|exact (wrel_ext _ _ _ _ (ext_trans lrho _ _ _ X X') R)]. exists (add32 k (wl w i)). split; [apply isv_add; [exact J|now apply isv_K|exact V]|]. unfold add32 in RD. rewrite madd in RD. exact RD.
    - eapply t_bind; [apply (t_lx S ws w e R)|]. cbv beta. intros o S1 W1 X1 H1. destruct o as [v|]; [|apply t_ret; discriminate]. pose proof (H1 v eq_refl) as RV. apply (wrel_ext _ _ _ _ X1) in R.
      eapply t_bind; [apply t_const|]. cbv beta. intros c S' W X RC. destruct RV as (x & V & RX).
      eapply t_bind; [exact (t_add lrho lrho_lt S' c v _ _ RC (ref_ext lrho _ _ _ _ X RX))|]. cbv beta. intros d S'' W' X' RD. apply t_ret. intros i' ws' E. injection E as <- <-. cbn [fst snd].
      assert (X2 := ext_trans lrho _ _ _ X X'). split.
      + exists (add32 k x). split; [apply isv_add; [exact J|now apply isv_K|exact V]|]. unfold add32 in RD. rewrite madd in RD. exact RD.
      + apply wrel_upd; [exact (wrel_ext _ _ _ _ X2 R)|]. exists x. split; [exact V|exact (ref_ext lrho _ _ _ _ X2 RX)].
  Qed.
  Lemma rrel_nth : forall S rs r i, rrel S rs r -> (i < List.length rs)%nat -> vref S (nth i rs 0) (nth i r []).
  Proof. intros S rs r i H. revert i. induction H; intros [|i] L; cbn [List.length] in L; try lia; [auto|]. apply IHForall2. lia. Qed.
  Lemma rrel_upd : forall S rs r i id v, rrel S rs r -> vref S id v -> rrel S (upd_nth i id rs) (upd_nth i v r).
  Proof. intros S rs r i id v H. revert i. induction H; intros [|i] V; cbn [upd_nth]; constructor; auto. apply IHForall2, V. Qed.
  Lemma rrel_len : forall S rs r, rrel S rs r -> List.length rs = List.length r.
  Proof. intros S rs r H. induction H; cbn [List.length]; auto. Qed.
  Lemma t_lround : forall S ord kw kv rs r, rrel S rs r -> List.length rs = 8%nat -> vref S kw kv ->
    triple S (s_lround ord kw rs) (fun S' o => forall rs', o = Some rs' -> rrel S' rs' (lround ord kv r) /\ List.length rs' = 8%nat).
  Proof.
    intros S ord kw kv rs r R L (kx & VK & RK). destruct ord as [|a [|b0 [|c [|d [|e [|f [|g [|h [|]]]]]]]]]; cbn [s_lround]; try (apply t_ret; discriminate).
    destruct (forallb (fun i => (i <? 8)%nat) [a; b0; c; d; e; f; g; h] && negb (d =? h)%nat) eqn:CK; [|apply t_ret; discriminate]. apply andb_prop in CK as [CK _]. rewrite forallb_forall in CK.
    pose (v := fun i => nth j (nth i r []) 0).
    assert (RI : forall i, In i [a; b0; c; d; e; f; g; h] -> isv (nth i r []) (v i) /\ ref S (nth i rs 0) (v i)).
    { intros i I. pose proof (CK i I) as C. apply Nat.ltb_lt in C. destruct (rrel_nth S rs r i R ltac:(lia)) as (x & A & B). assert (x = v i) as -> by (unfold v; symmetry; apply A). auto. }
    destruct (isv_round n j J (fun i => nth i r []) v kv kx a b0 c d e f g h (fun i I => proj1 (RI i I)) VK) as [VA VE].
    eapply t_bind; [apply (t_rnd2 lrho) with (1 := proj2 (RI a ltac:(cbn; tauto))) (2 := proj2 (RI b0 ltac:(cbn; tauto))) (3 := proj2 (RI c ltac:(cbn; tauto))) (4 := proj2 (RI d ltac:(cbn; tauto))) (5 := proj2 (RI e ltac:(cbn; tauto)))
      (6 := proj2 (RI f ltac:(cbn; tauto))) (7 := proj2 (RI g ltac:(cbn; tauto))) (8 := proj2 (RI h ltac:(cbn; tauto))) (9 := RK)|]. cbv beta. intros p S' W X [P1 P2].
    apply t_ret. intros rs' E. injection E as <-. split; [|now rewrite !upd_nth_len]. cbn [lround]. apply rrel_upd; [apply rrel_upd; [exact (rrel_ext _ _ _ _ X R)|]|].
    - eexists. split; [exact VE|exact P2].
    - eexists. split; [exact VA|exact P1].
  Qed.
  Lemma t_lrun : forall is S rs r ws w, rrel S rs r -> List.length rs = 8%nat -> wrel S ws w ->
    triple S (s_lrun is rs ws) (fun S' o => forall rs' ws', o = Some (rs', ws') -> rrel S' rs' (fst (lrun n inputs is (r, w))) /\ List.length rs' = 8%nat /\ wrel S' ws' (snd (lrun n inputs is (r, w)))).
  Proof.
    induction is as [|[ord x] is IH]; intros S rs r ws w R L RW; cbn [s_lrun lrun fst snd].
    - apply t_ret. intros rs' ws' E. injection E as <- <-. auto.
    - eapply t_bind; [apply (t_kw S ws w x RW)|]. cbv beta. intros o S1 W1 X1 H1. destruct o as [[kw ws1]|]; [|apply t_ret; discriminate]. destruct (H1 kw ws1 eq_refl) as [VK RW1]. destruct (lkw_step n inputs w x) as [kv w1]. cbn [fst snd] in *.
      eapply t_bind; [apply (t_lround S1 ord kw kv rs r (rrel_ext _ _ _ _ X1 R) L VK)|]. cbv beta. intros o S2 W2 X2 H2. destruct o as [rs2|]; [|apply t_ret; discriminate]. destruct (H2 rs2 eq_refl) as [R2 L2].
      exact (IH S2 rs2 _ ws1 w1 R2 L2 (wrel_ext _ _ _ _ X2 RW1)).
  Qed.
  Lemma t_vadds : forall a c S a' c', rrel S a a' -> rrel S c c' -> triple S (s_adds a c) (fun S' d => rrel S' d (vadds a' c')).
  Proof.
    induction a as [|x a IH]; intros c S a' c' RA RB; inversion RA as [|? x' ? a'' VX RA']; subst; cbn [s_adds vadds]; [apply t_ret; constructor|].
    inversion RB as [|y y' ? c'' VY RB']; subst; [apply t_ret; constructor|]. destruct VX as (xx & VX & RX). destruct VY as (yy & VY & RY). eapply t_bind; [exact (t_add lrho lrho_lt S x y xx yy RX RY)|]. cbv beta. intros z S' W X RZ.
    eapply t_bind; [apply (IH _ S' a'' c''); [exact (rrel_ext _ _ _ _ X RA')|exact (rrel_ext _ _ _ _ X RB')]|]. cbv beta. intros zs S'' W' X' R'. apply t_ret. constructor; [|exact R'].
    exists (add32 xx yy). split; [now apply isv_add|exact (ref_ext lrho _ _ _ _ X' RZ)].
  Qed.
  Lemma t_vconsts : forall l S, small_all l = true -> triple S (s_list (map s_const l)) (fun S' a => rrel S' a (map (vK n) l) /\ List.length a = 8%nat).
  Proof.
    intros l S H. unfold small_all in H. apply andb_prop in H as [F L]. apply Nat.eqb_eq in L. assert (FL : Forall (fun x => x < W32) l).
    { rewrite forallb_forall in F. apply Forall_forall. intros x I. apply F in I. now apply N.ltb_lt. }
    eapply t_conseq; [apply (t_consts_list lrho l S FL)|]. cbv beta. intros S' a _ R. split; [|rewrite (rl_len _ _ _ _ R); exact L]. clear -R J. unfold rl in R. induction R as [|x y a l A R IH]; cbn [map]; constructor; [|exact IH]. exists y. split; [now apply isv_K|exact A].
  Qed.
  (** the vectors that are written *)
  Definition final_vecs (init add1 init3 out : list N) (rounds1 rounds2 rounds3 : list lins) : list wvec :=
    let '(r1, w) := lrun n inputs rounds1 (map (vK n) init, @repeat wvec [] 16) in
    let s := vadds r1 (map (vK n) add1) in
    let '(r2, w) := lrun n inputs rounds2 (s, w) in
    let w := vadds s r2 ++ skipn 8 w in
    let '(r3, w) := lrun n inputs rounds3 (map (vK n) init3, w) in
    vadds r3 (map (vK n) out).
  Lemma rrel_skip : forall S ws w, wrel S ws w -> wrel S (skipn 8 ws) (skipn 8 w).
  Proof.
    intros S ws w [L H]. split; [rewrite !skipn_length; lia|]. intros i id G. unfold oget in *. rewrite <- (firstn_skipn 8 ws) in H. rewrite <- (firstn_skipn 8 w) in H. 
    destruct (Nat.lt_ge_cases (List.length ws) 8) as [LT|GE]; [rewrite skipn_all2 in G by lia; destruct i; discriminate|].
    specialize (H (8 + i)%nat id). rewrite !app_nth2 in H by (rewrite firstn_length; lia). rewrite !firstn_length in H. replace (8 + i - Nat.min 8 (List.length ws))%nat with i in H by lia. replace (8 + i - Nat.min 8 (List.length w))%nat with i in H by lia. apply H, G.
  Qed.
  Lemma wrel_app : forall S rs r ws w, rrel S rs r -> wrel S ws w -> wrel S (map Some rs ++ ws) (r ++ w).
  Proof.
    intros S rs r ws w R [L H]. pose proof (rrel_len _ _ _ R) as LR. split; [rewrite !app_length, map_length; lia|]. intros i id G. unfold oget in *. destruct (Nat.lt_ge_cases i (List.length rs)) as [LT|GE].
    - rewrite app_nth1 in G by (rewrite map_length; lia). rewrite app_nth1 by lia. rewrite (nth_indep _ None (Some 0)) in G by (rewrite map_length; lia). rewrite map_nth in G. injection G as <-. now apply rrel_nth.
    - rewrite app_nth2 in G by (rewrite map_length; lia). rewrite app_nth2 by lia. rewrite map_length in G. rewrite <- LR. apply H, G.
  Qed.
  Lemma t_lanes : forall init add1 init3 out rounds1 rounds2 rounds3 S, small_all init = true -> small_all add1 = true -> small_all init3 = true -> small_all out = true ->
    triple S (s_lanes init add1 init3 out rounds1 rounds2 rounds3) (fun S' o => forall z, o = Some z -> rrel S' z (final_vecs init add1 init3 out rounds1 rounds2 rounds3)).
  Proof.
    intros init add1 init3 out rounds1 rounds2 rounds3 S C1 C2 C3 C4. unfold s_lanes, final_vecs.
    eapply t_bind; [apply (t_vconsts init S C1)|]. cbv beta. intros i1 S1 W1 X1 [R1 L1].
    assert (RW0 : wrel S1 (repeat None 16) (@repeat wvec [] 16)) by (split; [reflexivity|]; intros i id G; exfalso; do 16 (destruct i as [|i]; [discriminate|]); destruct i; discriminate).
    eapply t_bind; [apply (t_lrun rounds1 S1 i1 _ _ _ R1 L1 RW0)|]. cbv beta. intros o S2 W2 X2 H2. destruct o as [[r1 w1]|]; [|apply t_ret; discriminate]. destruct (H2 r1 w1 eq_refl) as (R2 & L2 & RW2). clear H2.
    remember (lrun n inputs rounds1 (map (vK n) init, @repeat wvec [] 16)) as qr1' eqn:Eq; clear Eq; destruct qr1' as [r1' w1']. cbn [fst snd] in *.
    eapply t_bind; [apply (t_vconsts add1 S2 C2)|]. cbv beta. intros a1 S3 W3 X3 [R3 L3]. apply (rrel_ext _ _ _ _ X3) in R2. apply (wrel_ext _ _ _ _ X3) in RW2.
    eapply t_bind; [apply (t_vadds r1 a1 S3 _ _ R2 R3)|]. cbv beta. intros s S4 W4 X4 R4. apply (wrel_ext _ _ _ _ X4) in RW2.
    assert (LV : forall a c : list wvec, List.length a = 8%nat -> List.length c = 8%nat -> List.length (vadds a c) = 8%nat).
    { assert (G : forall a c : list wvec, List.length a = List.length c -> List.length (vadds a c) = List.length a) by (induction a as [|x a IH]; intros [|y c] E; cbn [vadds List.length] in *; try lia; rewrite IH; lia). intros a c A C. rewrite G; lia. }
    assert (L4 : List.length s = 8%nat) by (rewrite (rrel_len _ _ _ R4); apply LV; [rewrite <- (rrel_len _ _ _ R2); exact L2|rewrite <- (rrel_len _ _ _ R3); exact L3]).
    eapply t_bind; [apply (t_lrun rounds2 S4 s _ w1 w1' R4 L4 RW2)|]. cbv beta. intros o S5 W5 X5 H5. destruct o as [[r2 w2]|]; [|apply t_ret; discriminate]. destruct (H5 r2 w2 eq_refl) as (R5 & L5 & RW5). clear H5. apply (rrel_ext _ _ _ _ X5) in R4.
    remember (lrun n inputs rounds2 (vadds r1' (map (vK n) add1), w1')) as qr2' eqn:Eq; clear Eq; destruct qr2' as [r2' w2']. cbn [fst snd] in *.
    eapply t_bind; [apply (t_vadds s r2 S5 _ _ R4 R5)|]. cbv beta. intros h S6 W6 X6 R6. apply (wrel_ext _ _ _ _ X6) in RW5.
    eapply t_bind; [apply (t_vconsts init3 S6 C3)|]. cbv beta. intros i3 S7 W7 X7 [R7 L7]. apply (rrel_ext _ _ _ _ X7) in R6. apply (wrel_ext _ _ _ _ X7) in RW5.
    eapply t_bind; [apply (t_lrun rounds3 S7 i3 _ _ _ R7 L7 (wrel_app _ _ _ _ _ R6 (rrel_skip _ _ _ RW5)))|]. cbv beta. intros o S8 W8 X8 H8. destruct o as [[r3 w3]|]; [|apply t_ret; discriminate]. destruct (H8 r3 w3 eq_refl) as (R8 & L8 & RW8). clear H8.
    remember (lrun n inputs rounds3 (map (vK n) init3, vadds (vadds r1' (map (vK n) add1)) r2' ++ skipn 8 w2')) as qr3' eqn:Eq; clear Eq; destruct qr3' as [r3' w3']. cbn [fst snd] in *.
    eapply t_bind; [apply (t_vconsts out S8 C4)|]. cbv beta. intros ou S9 W9 X9 [R9 L9]. apply (rrel_ext _ _ _ _ X9) in R8.
    eapply t_bind; [apply (t_vadds r3 ou S9 _ _ R8 R9)|]. cbv beta. intros z S10 W10 X10 R10. apply t_ret. intros z' E. injection E as <-. exact R10.
  Qed.
  Lemma t_dw : forall S w, map (fun i => bswap32 (lrho i)) (iy 0 16) = w -> triple S (s_dw 0) (fun S' a => rl lrho S' a (dwords w)).
  Proof.
    intros S w E. unfold s_dw, dwords.
    eapply t_bind; [apply t_consts_list; exact (small_W _ (proj1 (proj1 good_iv)))|]. cbv beta. intros iv S1 W1 X1 R1.
    eapply t_bind; [apply t_words_list|]. cbv beta. intros ws S2 W2 X2 R2. rewrite E in R2. apply (rl_ext _ _ _ _ _ X2) in R1.
    assert (LV : List.length iv = 8%nat) by (rewrite (rl_len _ _ _ _ R1); reflexivity). assert (LW : List.length w = 16%nat) by (rewrite <- E, map_length; reflexivity).
    eapply t_bind; [apply (t_cword lrho lrho_lt S2 iv ws _ _ R1 R2 LV); rewrite (rl_len _ _ _ _ R2); exact LW|]. cbv beta. intros h1 S3 W3 X3 R3. apply (rl_ext _ _ _ _ _ X3) in R1.
    eapply t_bind; [apply t_consts_list; exact (small_W _ pad64_small)|]. cbv beta. intros pd S4 W4 X4 R4. apply (rl_ext _ _ _ _ _ X4) in R1. apply (rl_ext _ _ _ _ _ X4) in R3.
    assert (L1 : List.length h1 = 8%nat) by (rewrite (rl_len _ _ _ _ R3); apply cword_len; reflexivity).
    eapply t_bind; [apply (t_cword lrho lrho_lt S4 h1 pd _ _ R3 R4 L1); rewrite (rl_len _ _ _ _ R4); reflexivity|]. cbv beta. intros h2 S5 W5 X5 R5. apply (rl_ext _ _ _ _ _ X5) in R1.
    eapply t_bind; [apply t_consts_list; exact (small_W _ tail32_small)|]. cbv beta. intros tl S6 W6 X6 R6. apply (rl_ext _ _ _ _ _ X6) in R1. apply (rl_ext _ _ _ _ _ X6) in R5.
    assert (L2 : List.length h2 = 8%nat) by (rewrite (rl_len _ _ _ _ R5); apply cword_len, cword_len; reflexivity).
    apply (t_cword lrho lrho_lt S6 iv (h2 ++ tl) _ _ R1 (rl_app _ _ _ _ _ _ R5 R6) LV). rewrite app_length, L2, (rl_len _ _ _ _ R6). reflexivity.
  Qed.
  Lemma nlist_eqb_eq : forall a c, nlist_eqb a c = true -> a = c.
  Proof. induction a as [|x a IH]; intros [|y c] H; cbn [nlist_eqb] in H; try discriminate; [reflexivity|]. apply andb_prop in H as [A B]. apply N.eqb_eq in A. rewrite A, (IH c B). reflexivity. Qed.
  Lemma lane_ok : forall init add1 init3 out rounds1 rounds2 rounds3, fst (lanes_check init add1 init3 out rounds1 rounds2 rounds3 g_empty) = true ->
    Forall (fun v => List.length v = n) (final_vecs init add1 init3 out rounds1 rounds2 rounds3) /\
    map (fun v => nth j v 0) (final_vecs init add1 init3 out rounds1 rounds2 rounds3) = dwords (map (word_at b) (ix 16)).
  Proof.
    intros init add1 init3 out rounds1 rounds2 rounds3 CK. pose proof CK as CK0. unfold lanes_check, bind, ret in CK0.
    destruct (s_lanes init add1 init3 out rounds1 rounds2 rounds3 g_empty) as [o S1]. destruct (s_dw 0 S1) as [h S2]. cbn [fst] in CK0. apply andb_prop in CK0 as [CK0 C4]. apply andb_prop in CK0 as [CK0 C3]. apply andb_prop in CK0 as [CK0 C2]. apply andb_prop in CK0 as [_ C1]. clear o S1 h S2.
    revert CK. refine (checked lrho (lanes_check init add1 init3 out rounds1 rounds2 rounds3) _ _). unfold lanes_check.
    eapply t_bind; [apply (t_lanes init add1 init3 out rounds1 rounds2 rounds3 g_empty C1 C2 C3 C4)|]. cbv beta. intros o S1 W1 X1 H1.
    assert (EW : map (fun i => bswap32 (lrho i)) (iy 0 16) = map (word_at b) (ix 16)) by exact (vars_words [b] [] 0 b ltac:(lia) eq_refl OB ltac:(lia)).
    eapply t_bind; [apply (t_dw S1 _ EW)|]. cbv beta. intros h S2 W2 X2 R2. apply t_ret. intro CK. apply andb_prop in CK as [CK _]. apply andb_prop in CK as [CK _]. apply andb_prop in CK as [CK _]. apply andb_prop in CK as [CK _].
    destruct o as [z|]; [|discriminate]. apply nlist_eqb_eq in CK. subst z. pose proof (rrel_ext _ _ _ _ X2 (H1 h eq_refl)) as R1. clear H1.
    remember (final_vecs init add1 init3 out rounds1 rounds2 rounds3) as fv. remember (dwords (map (word_at b) (ix 16))) as dw. clear -R1 R2. revert dw R2. induction R1 as [|i v h fv (x & V & RX) R IH]; intros dw R2; inversion R2 as [|? y ? dw' RY R2']; subst.
    - split; [constructor|reflexivity].
    - destruct (IH dw' R2') as [A B]. split; [constructor; [apply V|exact A]|]. cbn [map]. rewrite B. f_equal. rewrite (proj2 V). exact (ref_fun lrho _ _ _ _ RX RY).
  Qed.
End LaneSound.
(** * Writing the words *)
Section Write.
  Variable n k4 : nat.
  Hypothesis N4 : n = (4 * k4)%nat.
  Lemma dropN_twice : forall A a c (l : list A), dropN a (dropN c l) = dropN (c + a) l.
  Proof. intros A a c l. unfold dropN. replace (N.to_nat (c + a)) with (N.to_nat c + N.to_nat a)%nat by lia. revert l. induction (N.to_nat c) as [|m IH]; intro l; [reflexivity|]. destruct l; cbn [skipn Nat.add]; [apply skipn_nil|apply IH]. Qed.
  Lemma vwrite_len : forall off v outs, List.length v = n -> List.length outs = n -> List.length (vwrite n off v outs) = n.
  Proof. intros off v outs L LO. unfold vwrite. rewrite map_length, combine_length, rev_length, (swap4 n k4 v N4 L), map_length. lia. Qed.
  Lemma vwrite_nth : forall off v outs q, List.length v = n -> List.length outs = n -> (q < n)%nat ->
    nth q (vwrite n off v outs) [] = takeN off (nth q outs []) ++ be_bytes 4 (nth (n - 1 - q) v 0) ++ dropN (off + 4) (nth q outs []).
  Proof.
    intros off v outs q L LO Q. unfold vwrite. rewrite (swap4 n k4 v N4 L). rewrite (nth_indep _ [] ((fun p => takeN off (fst p) ++ le_bytes 4 (snd p) ++ dropN (off + 4) (fst p)) ([], 0))) by (rewrite map_length, combine_length, rev_length, map_length; lia).
    rewrite (map_nth (fun p => takeN off (fst p) ++ le_bytes 4 (snd p) ++ dropN (off + 4) (fst p))). rewrite combine_nth by (rewrite rev_length, map_length; unfold bytes, wvec in *; lia). cbn [fst snd]. rewrite rev_nth by (rewrite map_length; unfold bytes, wvec in *; lia). rewrite map_length, L. replace (n - S q)%nat with (n - 1 - q)%nat by lia.
    rewrite map_nth_in by lia. rewrite swap_be. reflexivity.
  Qed.
  Lemma vwrites_nth : forall vs off outs q, Forall (fun v => List.length v = n) vs -> List.length outs = n -> (q < n)%nat -> off + 4 * lenN vs <= lenN (nth q outs []) ->
    List.length (vwrites n off vs outs) = n /\
    nth q (vwrites n off vs outs) [] = takeN off (nth q outs []) ++ concat (map (fun v => be_bytes 4 (nth (n - 1 - q) v 0)) vs) ++ dropN (off + 4 * lenN vs) (nth q outs []).
  Proof.
    induction vs as [|v vs IH]; intros off outs q F LO Q B; cbn [vwrites map concat].
    - split; [exact LO|]. replace (off + 4 * lenN []) with off by (cbn; lia). cbn [app]. symmetry. apply takeN_dropN.
    - inversion F as [|? ? L F']; rewrite lenN_cons in B |- *. assert (exists o, o = nth q outs []) as [o Eo] by (eexists; reflexivity). assert (E : nth q (vwrite n off v outs) [] = takeN off o ++ be_bytes 4 (nth (n - 1 - q) v 0) ++ dropN (off + 4) o) by (rewrite Eo; exact (vwrite_nth off v outs q L LO Q)). replace (nth q outs []) with o in B by exact Eo. replace (nth q outs []) with o by exact Eo.
      assert (LT : lenN (takeN off o) = off) by (rewrite lenN_takeN; lia). assert (L4 : lenN (be_bytes 4 (nth (n - 1 - q) v 0)) = 4) by apply be_bytes_len.
      assert (LD : lenN (dropN (off + 4) o) = lenN o - (off + 4)) by apply lenN_dropN.
      destruct (IH (off + 4) (vwrite n off v outs) q F' (vwrite_len _ _ _ L LO) Q) as [A C].
      + assert (LX : lenN (nth q (vwrite n off v outs) []) = lenN o) by (transitivity (lenN (takeN off o ++ be_bytes 4 (nth (n - 1 - q) v 0) ++ dropN (off + 4) o)); [exact (f_equal lenN E)|]; rewrite !lenN_app, LT, L4, LD; lia). unfold bytes, wvec in *. rewrite LX. lia.
      + split; [exact A|]. 
        assert (L8 : lenN (takeN off o ++ be_bytes 4 (nth (n - 1 - q) v 0)) = off + 4) by (rewrite lenN_app, LT, L4; reflexivity).
        assert (GEN : forall e rest, e = takeN off o ++ be_bytes 4 (nth (n - 1 - q) v 0) ++ dropN (off + 4) o ->
          takeN (off + 4) e ++ rest ++ dropN (off + 4 + 4 * lenN vs) e = takeN off o ++ (be_bytes 4 (nth (n - 1 - q) v 0) ++ rest) ++ dropN (off + 4 * (1 + lenN vs)) o).
        { intros e rest ->. rewrite !app_assoc. generalize dependent (takeN off o ++ be_bytes 4 (nth (n - 1 - q) v 0)). intros xx LX. rewrite takeN_app_le by (rewrite LX; lia). rewrite takeN_all by (rewrite LX; lia). rewrite dropN_app_ge by (rewrite LX; lia). rewrite LX, dropN_twice. rewrite <- !app_assoc. do 3 f_equal. lia. }
        etransitivity; [exact C|]. exact (GEN _ _ E).
  Qed.
  (** the lanes as a whole *)
  Lemma lanes_ok : (0 < n)%nat -> forall init add1 init3 outc rounds1 rounds2 rounds3 outs inputs, fst (lanes_check init add1 init3 outc rounds1 rounds2 rounds3 g_empty) = true ->
    List.length outs = n -> List.length inputs = n -> Forall (fun o => lenN o = 32) outs -> Forall (fun b => bytes_ok b /\ lenN b = 64) inputs ->
    d64_lanes n init add1 init3 outc rounds1 rounds2 rounds3 outs inputs = map SHA256d inputs.
  Proof.
    intros N0 init add1 init3 outc rounds1 rounds2 rounds3 outs inputs CK LO LI FO FI.
    assert (E : d64_lanes n init add1 init3 outc rounds1 rounds2 rounds3 outs inputs = vwrites n 0 (final_vecs n inputs init add1 init3 outc rounds1 rounds2 rounds3) outs).
    { unfold d64_lanes, d64_lanes_body, final_vecs. destruct (lrun _ _ rounds1 _) as [r1 w1]. destruct (lrun _ _ rounds2 _) as [r2 w2]. destruct (lrun _ _ rounds3 _) as [r3 w3]. reflexivity. }
    rewrite E. clear E.
    assert (P : forall q, (q < n)%nat -> List.length (vwrites n 0 (final_vecs n inputs init add1 init3 outc rounds1 rounds2 rounds3) outs) = n /\
      nth q (vwrites n 0 (final_vecs n inputs init add1 init3 outc rounds1 rounds2 rounds3) outs) [] = nth q (map SHA256d inputs) []).
    { intros q Q. rewrite Forall_forall in FI. destruct (FI (nth q inputs [])) as [OB LB]; [apply nth_In; unfold bytes in *; lia|].
      assert (NB : nth (n - 1 - (n - 1 - q)) inputs [] = nth q inputs []) by (f_equal; lia).
      destruct (lane_ok n k4 N4 inputs LI (n - 1 - q) ltac:(lia) _ NB OB LB init add1 init3 outc rounds1 rounds2 rounds3 CK) as [FL EW]. destruct (dwords_out _ OB LB) as [DO [_ DL]].
      assert (L8 : lenN (final_vecs n inputs init add1 init3 outc rounds1 rounds2 rounds3) = 8).
      { apply (f_equal (@List.length N)) in EW. rewrite map_length, DL in EW. exact (f_equal N.of_nat EW). }
      unfold bytes, wvec in *. assert (O32 : lenN (nth q outs []) = 32) by (rewrite Forall_forall in FO; apply FO, nth_In; unfold bytes in *; lia).
      destruct (vwrites_nth _ 0 outs q FL LO Q ltac:(rewrite L8, O32; lia)) as [A C]. split; [exact A|]. etransitivity; [exact C|]. clear A C.
      assert (G : forall (fv : list wvec) o, lenN fv = 8 -> lenN o = 32 -> takeN 0 o ++ concat (map (fun v => be_bytes 4 (nth (n - 1 - q) v 0)) fv) ++ dropN (0 + 4 * lenN fv) o = out sha256_std (map (fun v => nth (n - 1 - q) v 0) fv)).
      { intros fv o F O. rewrite F, (dropN_all _ o) by (rewrite O; lia). rewrite app_nil_r. unfold out. rewrite map_map. reflexivity. }
      etransitivity; [exact (G _ _ L8 O32)|]. transitivity (SHA256d (nth q inputs [])); [|symmetry; rewrite (nth_indep _ [] (SHA256d [])) by (rewrite map_length; lia); exact (map_nth SHA256d inputs [] q)].
      rewrite DO. exact (f_equal (out sha256_std) EW). }
    destruct (P 0%nat N0) as [LR _]. apply (nth_ext _ _ [] []).
    - etransitivity; [exact LR|]. rewrite map_length. symmetry. exact LI.
    - intros q Q. apply P. eapply Nat.lt_le_trans; [exact Q|]. apply Nat.eq_le_incl. exact LR.
  Qed.
End Write.
Lemma sse_ok : forall outs inputs, List.length outs = 4%nat -> List.length inputs = 4%nat -> Forall (fun o => lenN o = 32) outs -> Forall (fun b => bytes_ok b /\ lenN b = 64) inputs ->
  sse_sha256d_64_4way outs inputs = map SHA256d inputs.
Proof. intros outs inputs. apply (lanes_ok 4 1 eq_refl); [lia|exact sse_check]. Qed.
Lemma avx_ok : forall outs inputs, List.length outs = 8%nat -> List.length inputs = 8%nat -> Forall (fun o => lenN o = 32) outs -> Forall (fun b => bytes_ok b /\ lenN b = 64) inputs ->
  avx_sha256d_64_8way outs inputs = map SHA256d inputs.
Proof. intros outs inputs. apply (lanes_ok 8 2 eq_refl); [lia|exact avx_check]. Qed.
