(** Lemmas on scripts: the format, the iterator, pushes. *)
From Verif Require Import Base MDec MWitness MAmount MTx MTxSize MScript SScript.
Local Open Scope N_scope.

Ltac eqbs :=
  repeat match goal with
  | H : (_ =? _) = true |- _ => apply N.eqb_eq in H
  | H : (_ =? _) = false |- _ => apply N.eqb_neq in H
  | H : (_ <? _) = true |- _ => apply N.ltb_lt in H
  | H : (_ <? _) = false |- _ => apply N.ltb_ge in H
  | H : (_ <=? _) = true |- _ => apply N.leb_le in H
  | H : (_ <=? _) = false |- _ => apply N.leb_gt in H
  | H : (_ && _)%bool = true |- _ => apply andb_true_iff in H; destruct H
  | H : (_ || _)%bool = false |- _ => apply orb_false_iff in H; destruct H
  end.

Lemma lenN_le_bytes : forall n v, lenN (le_bytes n v) = N.of_nat n.
Proof. intros. unfold lenN. rewrite le_bytes_length. reflexivity. Qed.

(** ** Opcode classification *)
Definition all_bytes : list N := map N.of_nat (seq 0 256).
Lemma all_bytes_in : forall b, b < 256 -> In b all_bytes.
Proof.
  intros b H. unfold all_bytes. apply in_map_iff. exists (N.to_nat b).
  split; [lia|]. apply in_seq. lia.
Qed.
Lemma byte_cases : forall (f : N -> bool), forallb f all_bytes = true -> forall b, b < 256 -> f b = true.
Proof. intros f H b Hb. rewrite forallb_forall in H. apply H, all_bytes_in, Hb. Qed.

Definition class_ok (c : ctx) (b : N) : bool :=
  match classify b c with
  | Panic => false
  | Ret cl =>
      match c with
      | Legacy =>
          if b <=? 75 then match cl with ClPushBytes n => n =? b | _ => false end
          else if b <=? 78 then match cl with ClOrdinary op => op =? b | _ => false end
          else match cl with ClPushBytes _ => false | ClOrdinary op => 78 <? op | _ => true end
      | TapScript => true
      end
  end.
Lemma class_ok_all : forall c b, b < 256 -> class_ok c b = true.
Proof. intros c b H. destruct c; revert b H; apply byte_cases; vm_compute; reflexivity. Qed.

Lemma classify_total : forall c b, b < 256 -> exists cl, classify b c = Ret cl.
Proof.
  intros c b H. pose proof (class_ok_all c b H) as E. unfold class_ok in E.
  destruct (classify b c); [eauto|discriminate].
Qed.
Lemma classify_push : forall b, b <= 75 -> classify b Legacy = Ret (ClPushBytes b).
Proof.
  intros b H. pose proof (class_ok_all Legacy b ltac:(lia)) as E. unfold class_ok in E.
  destruct (classify b Legacy) as [cl|]; [|discriminate].
  destruct (N.leb_spec b 75); [|lia]. destruct cl; try discriminate. eqbs. subst. reflexivity.
Qed.
Lemma classify_pd : forall b, 76 <= b <= 78 -> classify b Legacy = Ret (ClOrdinary b).
Proof.
  intros b H. pose proof (class_ok_all Legacy b ltac:(lia)) as E. unfold class_ok in E.
  destruct (classify b Legacy) as [cl|]; [|discriminate].
  destruct (N.leb_spec b 75); [lia|]. destruct (N.leb_spec b 78); [|lia].
  destruct cl; try discriminate. eqbs. subst. reflexivity.
Qed.
Lemma classify_op : forall b, 79 <= b <= 255 -> exists cl, classify b Legacy = Ret cl /\
  match cl with ClPushBytes _ => False | ClOrdinary op => 78 < op | _ => True end.
Proof.
  intros b H. pose proof (class_ok_all Legacy b ltac:(lia)) as E. unfold class_ok in E.
  destruct (classify b Legacy) as [cl|]; [|discriminate]. exists cl. split; [reflexivity|].
  destruct (N.leb_spec b 75); [lia|]. destruct (N.leb_spec b 78); [lia|].
  destruct cl; auto; try discriminate. eqbs. auto.
Qed.

(** ** The format is a prefix code *)
Lemma app_inv_len : forall A (a b c d : list A), length a = length c -> a ++ b = c ++ d -> a = c /\ b = d.
Proof.
  induction a; intros b c d L E; destruct c; try discriminate; [auto|].
  cbn [app] in E. injection E as -> E. cbn [length] in L. destruct (IHa b c d) as [-> ->]; auto.
Qed.
Lemma app_inj_lenN : forall A (a b c d : list A), lenN a = lenN c -> a ++ b = c ++ d -> a = c /\ b = d.
Proof. intros A a b c d H E. apply app_inv_len; unfold lenN in *; [lia|auto]. Qed.

Lemma le_bytes_inj : forall n a b, a < 256 ^ N.of_nat n -> b < 256 ^ N.of_nat n ->
  le_bytes n a = le_bytes n b -> a = b.
Proof. intros n a b Ha Hb E. rewrite <- (le_val_bytes n a), <- (le_val_bytes n b), E; auto. Qed.

Lemma pd_inj : forall k d s d' s', lenN d < 256 ^ N.of_nat k -> lenN d' < 256 ^ N.of_nat k ->
  (le_bytes k (lenN d) ++ d) ++ s = (le_bytes k (lenN d') ++ d') ++ s' -> d = d' /\ s = s'.
Proof.
  intros k d s d' s' H H' E. rewrite <- !app_assoc in E.
  apply app_inv_len in E; [|rewrite !le_bytes_length; reflexivity]. destruct E as [E1 E2].
  apply le_bytes_inj in E1; auto. apply app_inj_lenN in E2; auto.
Qed.

Lemma encodes_prefix : forall i e s i' e' s', encodes i e -> encodes i' e' ->
  e ++ s = e' ++ s' -> i = i' /\ e = e' /\ s = s'.
Proof.
  intros i e s i' e' s' H H' E.
  inversion H; inversion H'; subst; cbn [app] in E; pose proof (f_equal (@tl N) E) as T;
    cbn [tl] in T; injection E; intros;
    try (exfalso; lia); try (subst; exfalso; lia).
  - assert (d = d0 /\ s = s') as [-> ->] by (apply app_inj_lenN; assumption). auto.
  - assert (d = d0 /\ s = s') as [-> ->] by (apply (pd_inj 1); assumption). auto.
  - assert (d = d0 /\ s = s') as [-> ->] by (apply (pd_inj 2); assumption). auto.
  - assert (d = d0 /\ s = s') as [-> ->] by (apply (pd_inj 4); assumption). auto.
  - subst. auto.
Qed.

Lemma encodes_nonempty : forall i e, encodes i e -> e <> [].
Proof. intros i e H. inversion H; discriminate. Qed.
Lemma encodes_len1 : forall i e, encodes i e -> 1 <= lenN e.
Proof. intros i e H. inversion H; subst; rewrite lenN_cons; lia. Qed.

(** ** Minimality *)
Definition special (d : bytes) : bool :=
  match d with [b] => (b =? 129) || ((1 <=? b) && (b <=? 16)) | _ => false end.
Definition min_len (d : bytes) : nat :=
  if special d then 1%nat
  else (length d + N.to_nat (if lenN d <=? 75 then 1 else if lenN d <? 256 then 2 else if lenN d <? 65536 then 3 else 5)%N)%nat.

Lemma pushed_op : forall op d, pushed (Op op) = Some d -> special d = true /\ 79 <= op <= 96.
Proof.
  intros op d H. unfold pushed in H. destruct (N.eqb_spec op 79).
  - inv H. split; [reflexivity|lia].
  - destruct ((81 <=? op) && (op <=? 96)) eqn:E; [|discriminate]. inv H. eqbs.
    split; [|lia]. cbn [special]. destruct (N.leb_spec 1 (op - 80)); [|lia].
    destruct (N.leb_spec (op - 80) 16); [|lia]. apply orb_true_r.
Qed.

Definition special_op (d : bytes) : N := match d with [b] => if b =? 129 then 79 else b + 80 | _ => 0 end.
Lemma special_push : forall d, special d = true ->
  pushed (Op (special_op d)) = Some d /\ 79 <= special_op d <= 96.
Proof.
  intros d H. unfold special in H. destruct d as [|b [|]]; try discriminate. cbn [special_op].
  destruct (N.eqb_spec b 129); [subst; split; [reflexivity|lia]|]. cbn [orb] in H. eqbs.
  split; [|lia]. unfold pushed. destruct (N.eqb_spec (b + 80) 79); [lia|].
  destruct (N.leb_spec 81 (b + 80)); [|lia]. destruct (N.leb_spec (b + 80) 96); [|lia]. cbn [andb].
  f_equal. f_equal. lia.
Qed.

Ltac lens := cbn [length]; rewrite ?app_length, ?le_bytes_length; cbn [length].

Lemma min_len_le : forall i d e, pushed i = Some d -> encodes i e -> (min_len d <= length e)%nat.
Proof.
  intros i d e P H. unfold min_len. destruct (special d) eqn:Sp.
  - pose proof (encodes_len1 _ _ H). unfold lenN in *. lia.
  - inversion H; subst; cbn [pushed] in P; try (injection P as ->).
    + cbn [length]. destruct (N.leb_spec (lenN d) 75); lia.
    + lens. destruct (N.leb_spec (lenN d) 75); [lia|]. destruct (N.ltb_spec (lenN d) 256); lia.
    + lens. destruct (N.leb_spec (lenN d) 75); [lia|]. destruct (N.ltb_spec (lenN d) 256); [lia|].
      destruct (N.ltb_spec (lenN d) 65536); lia.
    + lens. destruct (N.leb_spec (lenN d) 75); [lia|]. destruct (N.ltb_spec (lenN d) 256); [lia|].
      destruct (N.ltb_spec (lenN d) 65536); lia.
    + apply pushed_op in P. destruct P; congruence.
Qed.

Lemma min_len_reached : forall d, lenN d < 2 ^ 32 -> exists i e, pushed i = Some d /\ encodes i e /\ length e = min_len d.
Proof.
  intros d H. unfold min_len. destruct (special d) eqn:Sp.
  - exists (Op (special_op d)), [special_op d]. destruct (special_push d Sp) as [A B].
    split; [exact A|]. split; [apply enc_opcode; lia|reflexivity].
  - destruct (N.leb_spec (lenN d) 75); [|destruct (N.ltb_spec (lenN d) 256); [|destruct (N.ltb_spec (lenN d) 65536)]].
    + exists (PushBytes d), (lenN d :: d). split; [reflexivity|]. split; [apply enc_direct; lia|]. lens; lia.
    + exists (PushBytes d), (76 :: le_bytes 1 (lenN d) ++ d). split; [reflexivity|].
      split; [apply enc_pushdata1; lia|]. lens; lia.
    + exists (PushBytes d), (77 :: le_bytes 2 (lenN d) ++ d). split; [reflexivity|].
      split; [apply enc_pushdata2; lia|]. lens; lia.
    + exists (PushBytes d), (78 :: le_bytes 4 (lenN d) ++ d). split; [reflexivity|].
      split; [apply enc_pushdata4; lia|]. lens; lia.
Qed.

Lemma encodes_len : forall d e, encodes (PushBytes d) e -> lenN d < 2 ^ 32.
Proof. intros d e H. inversion H; subst; lia. Qed.
Lemma pushed_len : forall i e d, encodes i e -> pushed i = Some d -> lenN d < 2 ^ 32.
Proof.
  intros i e d H P. destruct i as [d'|op].
  - cbn [pushed] in P. inv P. eapply encodes_len; eauto.
  - apply pushed_op in P. destruct P as [P _]. unfold special in P.
    destruct d as [|b [|]]; try discriminate. reflexivity.
Qed.

Lemma shortest_iff : forall i e d, encodes i e -> pushed i = Some d ->
  (shortest i e <-> length e = min_len d).
Proof.
  intros i e d H P. split.
  - intro S_. destruct (min_len_reached d (pushed_len _ _ _ H P)) as (i' & e' & P' & H' & L).
    pose proof (S_ d i' e' P P' H'). pose proof (min_len_le _ _ _ P H). lia.
  - intros L d0 i' e' P0 P' H'. rewrite P in P0. injection P0 as <-. rewrite L. eapply min_len_le; eauto.
Qed.
Lemma shortest_none : forall i e, pushed i = None -> shortest i e.
Proof. intros i e H d i' e' P. congruence. Qed.
Lemma shortest_op : forall op, shortest (Op op) [op].
Proof. intros op d i' e' _ _ H. pose proof (encodes_len1 _ _ H). unfold lenN in *. cbn [length]. lia. Qed.

Lemma shortest_direct : forall d, lenN d <= 75 -> (shortest (PushBytes d) (lenN d :: d) <-> special d = false).
Proof.
  intros d H. rewrite (shortest_iff _ _ d) by (try apply enc_direct; auto). unfold min_len. cbn [length].
  destruct (N.leb_spec (lenN d) 75); [|lia]. destruct (special d) eqn:Sp.
  - unfold special in Sp. destruct d as [|b [|]]; try discriminate. cbn [length]. split; [lia|discriminate].
  - split; [auto|]. intros _. lia.
Qed.
Lemma special_len : forall d, special d = true -> lenN d = 1.
Proof. intros d Sp. unfold special in Sp. destruct d as [|b [|]]; try discriminate. reflexivity. Qed.
Lemma shortest_pd1 : forall d, lenN d < 2 ^ 8 ->
  (shortest (PushBytes d) (76 :: le_bytes 1 (lenN d) ++ d) <-> 76 <= lenN d).
Proof.
  intros d H. rewrite (shortest_iff _ _ d) by (try apply enc_pushdata1; auto). unfold min_len. lens.
  destruct (special d) eqn:Sp; [apply special_len in Sp; unfold lenN in *; lia|].
  destruct (N.leb_spec (lenN d) 75); [lia|]. destruct (N.ltb_spec (lenN d) 256); lia.
Qed.
Lemma shortest_pd2 : forall d, lenN d < 2 ^ 16 ->
  (shortest (PushBytes d) (77 :: le_bytes 2 (lenN d) ++ d) <-> 256 <= lenN d).
Proof.
  intros d H. rewrite (shortest_iff _ _ d) by (try apply enc_pushdata2; auto). unfold min_len. lens.
  destruct (special d) eqn:Sp; [apply special_len in Sp; unfold lenN in *; lia|].
  destruct (N.leb_spec (lenN d) 75); [lia|]. destruct (N.ltb_spec (lenN d) 256); [lia|].
  destruct (N.ltb_spec (lenN d) 65536); lia.
Qed.
Lemma shortest_pd4 : forall d, lenN d < 2 ^ 32 ->
  (shortest (PushBytes d) (78 :: le_bytes 4 (lenN d) ++ d) <-> 65536 <= lenN d).
Proof.
  intros d H. rewrite (shortest_iff _ _ d) by (try apply enc_pushdata4; auto). unfold min_len. lens.
  destruct (special d) eqn:Sp; [apply special_len in Sp; unfold lenN in *; lia|].
  destruct (N.leb_spec (lenN d) 75); [lia|]. destruct (N.ltb_spec (lenN d) 256); [lia|].
  destruct (N.ltb_spec (lenN d) 65536); lia.
Qed.

(** ** One step of the iterator *)
Lemma kill_nil : forall d, kill d = [].
Proof.
  intros d. unfold kill, iter_nth. apply skipn_all2. unfold lenN. lia.
Qed.

Lemma take_ok : forall a r, lenN a < 2 ^ 32 -> take_slice_or_kill (a ++ r) (lenN a) = Ret (Ok a, r).
Proof.
  intros a r H. unfold take_slice_or_kill, slice_to.
  rewrite lenN_app. destruct (N.leb_spec (lenN a) (lenN a + lenN r)); [|lia]. cbn [rbind].
  replace (N.to_nat (lenN a)) with (length a) by (unfold lenN; lia).
  rewrite firstn_app, firstn_all, Nat.sub_diag. cbn [firstn]. rewrite app_nil_r.
  unfold push_bytes_ok. change (2 ^ 32) with 4294967296 in H. destruct (N.ltb_spec (lenN a) 4294967296); [|lia].
  f_equal. f_equal. destruct (N.ltb_spec 0 (lenN a)).
  - unfold iter_nth. replace (N.to_nat (lenN a - 1 + 1)) with (length a) by (unfold lenN in *; lia).
    rewrite skipn_app, skipn_all, Nat.sub_diag. reflexivity.
  - destruct a; [reflexivity|]. rewrite lenN_cons in *. lia.
Qed.
Lemma take_short : forall d n, lenN d < n -> take_slice_or_kill d n = Ret (Err EarlyEndOfScript, []).
Proof.
  intros d n H. unfold take_slice_or_kill. destruct (N.leb_spec n (lenN d)); [lia|]. rewrite kill_nil. reflexivity.
Qed.
Lemma split_len : forall A (l : list A) n, n <= lenN l -> exists a r, l = a ++ r /\ lenN a = n.
Proof.
  intros A l n H. exists (firstn (N.to_nat n) l), (skipn (N.to_nat n) l). split; [symmetry; apply firstn_skipn|].
  unfold lenN in *. rewrite firstn_length. lia.
Qed.

Definition step_ok (m : bool) (data : bytes) : Prop :=
  (exists i e s', data = e ++ s' /\ encodes i e /\ (m = true -> shortest i e) /\
     instr_next m data = Ret (Some (Ok i), s')) \/
  (exists i e s', data = e ++ s' /\ encodes i e /\ m = true /\ ~ shortest i e /\
     instr_next m data = Ret (Some (Err NonMinimalPush), [])) \/
  (stuck data /\ m = true /\ short_header data /\ instr_next m data = Ret (Some (Err NonMinimalPush), [])) \/
  (stuck data /\ (m = true -> ~ short_header data) /\ instr_next m data = Ret (Some (Err EarlyEndOfScript), [])).

Lemma not_short_direct : forall b r, b <= 75 -> ~ short_header (b :: r).
Proof.
  intros b r H [(n & r' & E & _)|[(a & r' & _ & E & _)|(a & r' & _ & E & _)]]; injection E; intros; lia.
Qed.

Lemma stuck_direct : forall b r, b <= 75 -> lenN r < b -> stuck (b :: r).
Proof.
  intros b r Hb Hr i e s' H E. inversion H; subst; cbn [app] in E; injection E; intros; subst; try lia.
  rewrite lenN_app in Hr. lia.
Qed.

Lemma step_direct : forall m b r, b <= 75 -> step_ok m (b :: r).
Proof.
  intros m b r Hb. unfold step_ok.
  assert (D : forall p, instr_next m (b :: r) = rbind (take_slice_or_kill r b) p ->
     p = (fun '(r0, data2) => Ret (Some (match r0 with Ok s => Ok (PushBytes s) | Err e => Err e end), data2)) ->
     (forall a r', r = a ++ r' -> lenN a = b -> special a = true -> m = false) ->
     step_ok m (b :: r)).
  { intros p E1 Ep Sp. subst p. destruct (N.leb_spec b (lenN r)).
    - left. destruct (split_len _ r b H) as (a & r' & -> & La). exists (PushBytes a), (b :: a), r'.
      subst b. split; [reflexivity|]. split; [apply enc_direct; auto|]. split.
      + intro Hm. apply shortest_direct; auto.
        destruct (special a) eqn:Sa; auto. rewrite (Sp a r') in Hm by auto. discriminate.
      + rewrite E1, take_ok by lia. reflexivity.
    - right. right. right. split; [apply stuck_direct; auto|]. split; [intros _; apply not_short_direct; auto|].
      rewrite E1, take_short by auto. reflexivity. }
  assert (C : instr_next m (b :: r) = rbind (Ret (ClPushBytes b)) (fun cl => match cl with
      | ClPushBytes n =>
          let dflt := rbind (take_slice_or_kill r n) (fun '(r, data2) =>
            Ret (Some (match r with Ok s => Ok (PushBytes s) | Err e => Err e end), data2)) in
          match r with
          | op_byte :: _ =>
              if m && (n =? 1) && ((op_byte =? 129) || ((0 <? op_byte) && (op_byte <=? 16)))
              then Ret (Some (Err NonMinimalPush), kill r)
              else dflt
          | [] => if n =? 0 then Ret (Some (Ok (PushBytes [])), r) else dflt
          end
      | _ => Panic end)).
  { unfold instr_next. rewrite classify_push by auto. reflexivity. }
  cbn [rbind] in C. destruct r as [|x r'].
  - destruct (N.eqb_spec b 0).
    + left. exists (PushBytes []), [0], []. subst b. split; [reflexivity|].
      split; [apply (enc_direct []); cbn; lia|]. split; [|exact C].
      intros _. apply (shortest_direct []); [cbn; lia|reflexivity].
    + eapply D; [exact C|reflexivity|]. intros a r' E _. destruct a; discriminate.
  - destruct (m && (b =? 1) && ((x =? 129) || ((0 <? x) && (x <=? 16)))) eqn:T.
    + right. left. rewrite kill_nil in C. apply andb_true_iff in T. destruct T as [T Tx].
      apply andb_true_iff in T. destruct T as [Tm Tb]. apply N.eqb_eq in Tb. subst b.
      exists (PushBytes [x]), [1; x], r'. split; [reflexivity|].
      split; [apply (enc_direct [x]); cbn; lia|]. split; [auto|]. split; [|exact C].
      intro Sh. apply (shortest_direct [x]) in Sh; [|cbn; lia]. cbn [special] in Sh.
      apply orb_false_iff in Sh. destruct Sh as [A B].
      apply orb_true_iff in Tx. destruct Tx as [Tx|Tx]; [congruence|]. eqbs.
      destruct (N.leb_spec 1 x); [|lia]. destruct (N.leb_spec x 16); [|lia]. discriminate.
    + eapply D; [exact C|reflexivity|]. intros a r0 E La Sp. destruct m; [|reflexivity]. exfalso.
      pose proof (special_len _ Sp) as L. destruct (N.eqb_spec b 1); [|lia].
      destruct a as [|y [|]]; try (cbn in L; discriminate).
      injection E as -> <-. cbn [special] in Sp. cbn [andb] in T. apply orb_false_iff in T.
      destruct T as [A B]. rewrite A in Sp. cbn [orb] in Sp. eqbs.
      destruct (N.ltb_spec 0 y); [|lia]. destruct (N.leb_spec y 16); [|lia]. discriminate.
Qed.
