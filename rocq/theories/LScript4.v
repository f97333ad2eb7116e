(** Recognising scripts. *)
From Verif Require Import Base MDec MWitness MAmount LWitness MTx MTxSize MScript SScript LScript LScript2 LScriptNum LScript3.
Local Open Scope N_scope.

Lemma at_head : forall b s, at_ (b :: s) 0 = b.
Proof. reflexivity. Qed.
Lemma at_S : forall b s n, at_ (b :: s) (S n) = at_ s n.
Proof. reflexivity. Qed.
Lemma at_app : forall h t n, lenN h = N.of_nat n -> at_ (h ++ t) n = at_ t 0.
Proof. intros h t n H. unfold at_, lenN in *. rewrite app_nth2 by lia. f_equal. lia. Qed.
Lemma at_app_S : forall h t n k, lenN h = N.of_nat n -> at_ (h ++ t) (n + k) = at_ t k.
Proof. intros h t n k H. unfold at_, lenN in *. rewrite app_nth2 by lia. f_equal. lia. Qed.

Lemma len0 : forall A (l : list A), lenN l = 0 -> l = [].
Proof. intros A l H. destruct l; [reflexivity|]. rewrite lenN_cons in H. lia. Qed.
Lemma len_cons : forall A (l : list A) n, lenN l = 1 + n -> exists x r, l = x :: r /\ lenN r = n.
Proof. intros A l n H. destruct l as [|x r]; [rewrite lenN_nil in H; lia|]. rewrite lenN_cons in H. exists x, r. split; [auto|lia]. Qed.

Lemma is_p2sh_iff : forall s, is_p2sh s = true <-> is_sh s.
Proof.
  intro s. unfold is_p2sh, is_sh, t_p2sh. change OP_HASH160 with 169. change OP_PUSHBYTES_20 with 20. change OP_EQUAL with 135. split.
  - intro H. eqbs. destruct (len_cons _ s 22 ltac:(lia)) as (a & s1 & -> & L1).
    destruct (len_cons _ s1 21 ltac:(lia)) as (b & s2 & -> & L2).
    destruct (split_len _ s2 20 ltac:(lia)) as (h & t & -> & Lh). rewrite lenN_app in L2.
    destruct (len_cons _ t 0 ltac:(lia)) as (z & t' & -> & Lt). apply len0 in Lt. subst t'.
    rewrite !at_S, at_head in *. rewrite (at_app h [z] 20) in * by exact Lh. rewrite at_head in *.
    exists h. split; [exact Lh|]. cbn [app]. subst. reflexivity.
  - intros (h & Lh & ->). cbn [app]. rewrite !at_S, !at_head. rewrite (at_app h [135] 20) by exact Lh.
    rewrite !lenN_cons, lenN_app, Lh. reflexivity.
Qed.

Definition is_pkh (s : bytes) : Prop := exists h, lenN h = 20 /\ s = t_p2pkh h.
Lemma is_p2pkh_iff : forall s, is_p2pkh s = true <-> exists h, lenN h = 20 /\ s = t_p2pkh h.
Proof.
  intro s. unfold is_p2pkh, t_p2pkh. change OP_HASH160 with 169. change OP_PUSHBYTES_20 with 20.
  change OP_EQUALVERIFY with 136. change OP_DUP with 118. change OP_CHECKSIG with 172. split.
  - intro H. eqbs. destruct (len_cons _ s 24 ltac:(lia)) as (a & s1 & -> & L1).
    destruct (len_cons _ s1 23 ltac:(lia)) as (b & s2 & -> & L2).
    destruct (len_cons _ s2 22 ltac:(lia)) as (c & s3 & -> & L3).
    destruct (split_len _ s3 20 ltac:(lia)) as (h & t & -> & Lh). rewrite lenN_app in L3.
    destruct (len_cons _ t 1 ltac:(lia)) as (y & t' & -> & Lt).
    destruct (len_cons _ t' 0 ltac:(lia)) as (z & t'' & -> & Lt'). apply len0 in Lt'. subst t''.
    rewrite !at_S, ?at_head in *. rewrite (at_app h [y; z] 20) in * by exact Lh.
    rewrite (at_app_S h [y; z] 20 1 Lh : at_ (h ++ [y; z]) 21 = _) in *. rewrite ?at_S, ?at_head in *.
    exists h. split; [exact Lh|]. cbn [app]. subst. reflexivity.
  - intros (h & Lh & ->). cbn [app]. rewrite !at_S, !at_head. rewrite (at_app h [136; 172] 20) by exact Lh.
    rewrite (at_app_S h [136; 172] 20 1 Lh : at_ (h ++ [136; 172]) 21 = _).
    rewrite !lenN_cons, lenN_app, Lh. reflexivity.
Qed.

Lemma removelast_snoc : forall (l : bytes) x, removelast (l ++ [x]) = l.
Proof. intros. apply removelast_last. Qed.

Lemma p2pk_iff : forall s k, p2pk_pubkey_bytes s = Some k <-> (lenN k = 33 \/ lenN k = 65) /\ s = t_p2pk k.
Proof.
  intros s k. unfold p2pk_pubkey_bytes, t_p2pk. change OP_CHECKSIG with 172.
  change OP_PUSHBYTES_65 with 65. change OP_PUSHBYTES_33 with 33. split.
  - intro H. destruct (N.eqb_spec (lenN s) 67) as [E|E].
    + destruct ((at_ s 0 =? 65) && (at_ s 66 =? 172)) eqn:T; [|discriminate]. eqbs. inv H.
      destruct (len_cons _ s 66 ltac:(lia)) as (a & s1 & -> & L1).
      destruct (split_len _ s1 65 ltac:(lia)) as (h & t & -> & Lh). rewrite lenN_app in L1.
      destruct (len_cons _ t 0 ltac:(lia)) as (z & t' & -> & Lt). apply len0 in Lt. subst t'.
      rewrite !at_S, at_head in *. rewrite (at_app h [z] 65) in * by exact Lh. rewrite at_head in *.
      cbn [tl]. rewrite removelast_snoc. rewrite Lh. subst. split; [auto|reflexivity].
    + destruct (N.eqb_spec (lenN s) 35) as [E2|E2]; [|discriminate].
      destruct ((at_ s 0 =? 33) && (at_ s 34 =? 172)) eqn:T; [|discriminate]. eqbs. inv H.
      destruct (len_cons _ s 34 ltac:(lia)) as (a & s1 & -> & L1).
      destruct (split_len _ s1 33 ltac:(lia)) as (h & t & -> & Lh). rewrite lenN_app in L1.
      destruct (len_cons _ t 0 ltac:(lia)) as (z & t' & -> & Lt). apply len0 in Lt. subst t'.
      rewrite !at_S, at_head in *. rewrite (at_app h [z] 33) in * by exact Lh. rewrite at_head in *.
      cbn [tl]. rewrite removelast_snoc. rewrite Lh. subst. split; [auto|reflexivity].
  - intros [[L|L] ->]; cbn [app]; rewrite lenN_cons, lenN_app, L; cbn [app tl].
    + change (1 + (33 + lenN [172]) =? 67) with false. change (1 + (33 + lenN [172]) =? 35) with true. cbv iota.
      rewrite at_S, at_head, (at_app k [172] 33 L), removelast_snoc. reflexivity.
    + change (1 + (65 + lenN [172]) =? 67) with true. cbv iota.
      rewrite at_S, at_head, (at_app k [172] 65 L), removelast_snoc. reflexivity.
Qed.

Lemma version_from_iff : forall op v, version_from_opcode op = Some v <-> v <= 16 /\ op = version_op v.
Proof.
  intros op v. unfold version_from_opcode, version_op. change OP_1 with 81. change OP_16 with 96. split.
  - intro H. destruct (N.eqb_spec op 0); [inv H; split; [lia|reflexivity]|].
    destruct ((81 <=? op) && (op <=? 96)) eqn:R; [|discriminate]. cbv zeta in H.
    destruct (N.leb_spec (op - 81 + 1) 16); [|discriminate]. eqbs. inv H.
    split; [lia|]. destruct (N.eqb_spec (op - 81 + 1) 0); lia.
  - intros [H ->]. destruct (N.eqb_spec v 0) as [->|]; [reflexivity|].
    destruct (N.eqb_spec (80 + v) 0); [lia|]. destruct (N.leb_spec 81 (80 + v)); [|lia].
    destruct (N.leb_spec (80 + v) 96); [|lia]. cbn [andb]. cbv zeta.
    destruct (N.leb_spec (80 + v - 81 + 1) 16); [|lia]. f_equal. lia.
Qed.

Lemma witness_version_iff : forall s v, witness_version s = Some v <->
  exists p, program_ok v p /\ s = t_witness v p.
Proof.
  intros s v. unfold witness_version, between, program_ok, t_witness. split.
  - intro H. destruct ((4 <=? lenN s) && (lenN s <=? 42)) eqn:R; cbn [negb] in H; [|discriminate]. eqbs.
    destruct (len_cons _ s (lenN s - 1) ltac:(lia)) as (a & s1 & -> & L1). rewrite lenN_cons in *.
    destruct (len_cons _ s1 (lenN s1 - 1) ltac:(lia)) as (b & p & -> & L2). rewrite lenN_cons in *.
    rewrite at_S, !at_head in H.
    destruct ((b <? 2) || (40 <? b)) eqn:R2; [discriminate|]. eqbs.
    destruct (N.eqb_spec (1 + (1 + lenN p) - 2) b); cbn [negb] in H; [|discriminate].
    apply version_from_iff in H. destruct H as [Hv ->]. exists p. split; [lia|]. cbn [app]. do 2 f_equal. lia.
  - intros (p & (Hv & Hl) & ->). cbn [app]. rewrite !lenN_cons, at_S, !at_head.
    destruct (N.leb_spec 4 (1 + (1 + lenN p))); [|lia]. destruct (N.leb_spec (1 + (1 + lenN p)) 42); [|lia]. cbn [andb negb].
    destruct (N.ltb_spec (lenN p) 2); [lia|]. destruct (N.ltb_spec 40 (lenN p)); [lia|]. cbn [orb].
    destruct (N.eqb_spec (1 + (1 + lenN p) - 2) (lenN p)); [|lia]. cbn [negb]. apply version_from_iff. auto.
Qed.

Lemma is_wp_iff : forall s, is_witness_program s = true <-> is_program s.
Proof.
  intro s. unfold is_witness_program, is_program. destruct (witness_version s) as [v|] eqn:E.
  - split; [intros _|reflexivity]. apply witness_version_iff in E. destruct E as (p & A & B). eauto.
  - split; [discriminate|]. intros (v & p & A & B). exfalso.
    assert (witness_version s = Some v) by (apply witness_version_iff; eauto). congruence.
Qed.

Lemma version_op_inj : forall v w, v <= 16 -> w <= 16 -> version_op v = version_op w -> v = w.
Proof. intros v w Hv Hw E. unfold version_op in E. destruct (N.eqb_spec v 0), (N.eqb_spec w 0); lia. Qed.

Lemma t_witness_inj : forall v p w q, program_ok v p -> program_ok w q -> t_witness v p = t_witness w q -> v = w /\ p = q.
Proof.
  intros v p w q [Hv _] [Hw _] E. unfold t_witness in E. cbn [app] in E. injection E as E1 _ E3.
  split; [apply version_op_inj; auto|exact E3].
Qed.

Lemma fixed_program : forall s v n b len, v <= 16 -> 2 <= n <= 40 -> b = n -> len = n + 2 ->
  ((lenN s =? len) && version_is s v && (at_ s 1 =? b) = true <-> exists p, lenN p = n /\ s = t_witness v p).
Proof.
  intros s v n b len Hv Hn -> ->. unfold version_is. split.
  - intro H. apply andb_true_iff in H. destruct H as [H _]. apply andb_true_iff in H. destruct H as [H1 H2].
    apply N.eqb_eq in H1. destruct (witness_version s) as [w|] eqn:E; [|discriminate]. apply N.eqb_eq in H2. subst w.
    apply witness_version_iff in E. destruct E as (p & _ & ->). exists p. split; [|reflexivity].
    unfold t_witness in H1. cbn [app] in H1. rewrite !lenN_cons in H1. lia.
  - intros (p & L & ->). assert (E : witness_version (t_witness v p) = Some v).
    { apply witness_version_iff. exists p. split; [split; [auto|lia]|reflexivity]. }
    rewrite E, N.eqb_refl, andb_true_r. unfold t_witness. cbn [app]. rewrite !lenN_cons, at_S, at_head, L.
    rewrite N.eqb_refl, andb_true_r. apply N.eqb_eq. lia.
Qed.
Lemma is_p2wsh_iff : forall s, is_p2wsh s = true <-> exists p, lenN p = 32 /\ s = t_witness 0 p.
Proof. intro s. apply fixed_program; try lia; reflexivity. Qed.
Lemma is_p2wpkh_iff : forall s, is_p2wpkh s = true <-> exists p, lenN p = 20 /\ s = t_witness 0 p.
Proof. intro s. apply fixed_program; try lia; reflexivity. Qed.
Lemma is_p2tr_iff : forall s, is_p2tr s = true <-> exists p, lenN p = 32 /\ s = t_witness 1 p.
Proof. intro s. apply fixed_program; try lia; reflexivity. Qed.

Lemma is_p2a_iff : forall s, is_p2a s = true <-> s = [81; 2; 78; 115].
Proof.
  intro s. unfold is_p2a. rewrite andb_true_iff, beqb_spec.
  assert (F := fixed_program s 1 2 OP_PUSHBYTES_2 4 ltac:(lia) ltac:(lia) eq_refl eq_refl). rewrite F. split.
  - intros [(p & L & ->) E]. unfold t_witness in *. cbn [app skipn] in E. subst p. reflexivity.
  - intros ->. split; [exists [78; 115]; split; reflexivity|reflexivity].
Qed.

(** ** Building the templates *)
Lemma push_plain : forall s d, 2 <= lenN d <= 75 -> sb_push_slice s d = s ++ lenN d :: d.
Proof.
  intros s d H. rewrite push_slice_cases. destruct (special d) eqn:Sp; [apply special_len in Sp; lia|].
  unfold sb_push_slice_no_opt. change OP_PUSHDATA1 with 76. destruct (N.ltb_spec (lenN d) 76); [|lia].
  unfold as_u8. rewrite N.mod_small by lia. rewrite <- app_assoc. reflexivity.
Qed.
Lemma version_to_op : forall v, version_to_opcode v = version_op v.
Proof. intro v. unfold version_to_opcode, version_op. change OP_1 with 81. destruct (N.eqb_spec v 0); [reflexivity|lia]. Qed.
Lemma unchecked_ok : forall v p, program_valid v p -> new_witness_program_unchecked v p = Ret (t_witness v p).
Proof.
  intros v p [[Hv Hl] H0]. unfold new_witness_program_unchecked.
  destruct (N.leb_spec 2 (lenN p)); [|lia]. destruct (N.leb_spec (lenN p) 40); [|lia]. cbn [andb negb].
  assert (negb (negb (v =? 0) || (lenN p =? 20) || (lenN p =? 32)) = false) as ->.
  { destruct (N.eqb_spec v 0) as [E|E]; [|reflexivity]. cbn [negb orb].
    destruct (H0 E) as [-> | ->]; reflexivity. }
  rewrite push_plain by lia. rewrite version_to_op. reflexivity.
Qed.
Lemma unchecked_panics : forall v p, v <= 16 -> ~ program_valid v p -> new_witness_program_unchecked v p = Panic.
Proof.
  intros v p Hv H. unfold new_witness_program_unchecked.
  destruct ((2 <=? lenN p) && (lenN p <=? 40)) eqn:R; [|reflexivity]. cbn [negb]. eqbs.
  destruct (negb (negb (v =? 0) || (lenN p =? 20) || (lenN p =? 32))) eqn:Q; [reflexivity|]. exfalso. apply H.
  split; [split; [auto|lia]|]. intros ->. cbn [N.eqb negb orb] in Q. apply negb_false_iff, orb_true_iff in Q.
  destruct Q as [Q|Q]; apply N.eqb_eq in Q; auto.
Qed.
Lemma new_wp_ok : forall w, program_ok (wp_version w) (wp_program w) ->
  new_witness_program w = t_witness (wp_version w) (wp_program w).
Proof. intros w [Hv Hl]. unfold new_witness_program. rewrite push_plain by lia. rewrite version_to_op. reflexivity. Qed.
Lemma wp_new_iff : forall v b w, v <= 16 -> (wp_new v b = Ok w <-> program_valid v b /\ w = {| wp_version := v; wp_program := b |}).
Proof.
  intros v b w Hv. unfold wp_new. split.
  - intro H. destruct ((lenN b <? 2) || (40 <? lenN b)) eqn:R; [discriminate|]. eqbs.
    destruct ((v =? 0) && (negb (lenN b =? 20) && negb (lenN b =? 32))) eqn:Q; [discriminate|]. inv H.
    split; [|reflexivity]. split; [split; [auto|lia]|]. intros ->. cbn [N.eqb andb] in Q.
    destruct (N.eqb_spec (lenN b) 20); [auto|]. destruct (N.eqb_spec (lenN b) 32); [auto|]. discriminate.
  - intros [[[_ Hl] H0] ->]. destruct (N.ltb_spec (lenN b) 2); [lia|]. destruct (N.ltb_spec 40 (lenN b)); [lia|]. cbn [orb].
    destruct (N.eqb_spec v 0) as [E|E]; [|reflexivity]. cbn [andb].
    destruct (H0 E) as [-> | ->]; reflexivity.
Qed.

(** ** Sequences *)
Lemma reads_shape : forall m pos s r, parses m pos s r ->
  exists tail, map strip r = map Ok (oks r) ++ tail /\ (tail = [] \/ exists e, tail = [Err e]).
Proof.
  intros m pos s r H. induction H.
  - exists []. split; [reflexivity|auto].
  - destruct IHparses as (t & E & T). exists t. split; [|exact T]. cbn [map strip oks flat_map app]. rewrite E. reflexivity.
  - exists [Err NonMinimalPush]. split; [reflexivity|]. right. eauto.
  - exists [Err NonMinimalPush]. split; [reflexivity|]. right. eauto.
  - exists [Err EarlyEndOfScript]. split; [reflexivity|]. right. eauto.
Qed.
Lemma reads_count : forall m pos s r, parses m pos s r -> lenN r <= lenN s.
Proof.
  intros m pos s r H. induction H.
  - rewrite !lenN_nil. lia.
  - rewrite lenN_app, lenN_cons. apply encodes_len1 in H. lia.
  - rewrite lenN_app, lenN_cons, lenN_nil. apply encodes_len1 in H. lia.
  - destruct H1 as [(n & r' & -> & _)|[(a & r' & _ & -> & _)|(a & r' & _ & -> & _)]]; rewrite !lenN_cons, ?lenN_nil; lia.
  - destruct s; [congruence|]. rewrite !lenN_cons, lenN_nil. lia.
Qed.

Lemma push_only_loop_iff : forall r, push_only_loop (map strip r) = true <->
  Forall (fun x => match x with Ok (_, PushBytes _) => True | Ok (_, Op op) => op <= 96 | Err _ => False end) r.
Proof.
  induction r as [|x r IH]; [split; [constructor|reflexivity]|]. cbn [map push_only_loop].
  destruct x as [[p [d|op]]|e]; cbn [strip].
  - rewrite IH. split; intro H; [constructor; auto|]. inv H. auto.
  - destruct (N.leb_spec op 96).
    + rewrite IH. split; intro Q; [constructor; auto|]. inv Q. auto.
    + split; [discriminate|]. intro Q. inv Q. lia.
  - split; [discriminate|]. intro Q. inv Q. contradiction.
Qed.
Lemma is_push_only_spec : forall s, bytes_ok s -> exists b, is_push_only s = Ret b /\ (b = true <-> push_only s).
Proof.
  intros s Hs. destruct (instrs_parses false s Hs) as (r & P & E & _). unfold is_push_only, instructions.
  unfold instrs in E. rewrite E. cbn [rbind]. eexists. split; [reflexivity|]. rewrite push_only_loop_iff. split.
  - intro F. exists r. auto.
  - intros (r' & P' & F). rewrite (parses_det _ _ _ _ P _ P'). exact F.
Qed.
Lemma last_push_spec : forall s, bytes_ok s -> exists o, last_pushdata s = Ret o /\ last_push s o.
Proof.
  intros s Hs. destruct (instrs_parses false s Hs) as (r & P & E & _). unfold last_pushdata, last_item, instructions.
  unfold instrs in E. rewrite E. cbn [rbind]. eexists. split; [reflexivity|]. exists r. split; [exact P|].
  rewrite <- map_rev. destruct (rev r) as [|[[p [d|op]]|e] t]; reflexivity.
Qed.
