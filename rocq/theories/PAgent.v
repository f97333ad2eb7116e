(** C69: user agents. *)
From Coq Require Import String.
From Verif Require Import Base MDec LDec MText SText LText MP2p MAgent SAgent.
Local Open Scope list_scope.
Local Open Scope N_scope.

Lemma invalid_spec : forall s, existsb invalid_char s = false <-> clean s.
Proof.
  induction s as [|c s IH]; cbn [existsb]; [split; [constructor|auto]|]. rewrite Bool.orb_false_iff, IH. unfold clean. rewrite Forall_cons_iff.
  assert (E : invalid_char c = false <-> ~ In c (lit "/():")).
  { unfold invalid_char. cbn. rewrite !Bool.orb_false_iff, !N.eqb_neq. intuition congruence. }
  now rewrite E.
Qed.
Lemma clean_check : forall s, clean s -> panic_invalid_chars s = Ret tt.
Proof. intros s H. unfold panic_invalid_chars. now rewrite (proj2 (invalid_spec s) H). Qed.
Lemma dirty_check : forall s, ~ clean s -> panic_invalid_chars s = Panic.
Proof. intros s H. unfold panic_invalid_chars. destruct (existsb invalid_char s) eqn:E; [reflexivity|]. now apply invalid_spec in E. Qed.
Lemma clean_dec : forall s, clean s \/ ~ clean s.
Proof. intro s. rewrite <- invalid_spec. destruct (existsb invalid_char s); [right; discriminate|now left]. Qed.

Lemma joined_snoc : forall sep l x, l <> [] -> joined sep (l ++ [x]) = joined sep l ++ sep ++ x.
Proof.
  induction l as [|y l IH]; intros x H; [congruence|]. destruct l as [|z l]; [reflexivity|].
  change (y ++ sep ++ joined sep ((z :: l) ++ [x]) = (y ++ sep ++ joined sep (z :: l)) ++ sep ++ x).
  rewrite IH by discriminate. now rewrite <- !app_assoc.
Qed.
Lemma push_all : forall l v pre, Forall clean l -> av_comments v = (match pre with [] => None | _ => Some (joined (lit "; ") pre) end) ->
  push_comments v l = Ret (mk_av (av_software v) (match pre ++ l with [] => None | _ => Some (joined (lit "; ") (pre ++ l)) end)).
Proof.
  induction l as [|c l IH]; intros v pre F E; cbn [push_comments].
  - rewrite app_nil_r, <- E. now destruct v.
  - inversion F; subst. unfold push_comment. rewrite clean_check by auto. cbn [rbind].
    rewrite (IH _ (pre ++ [c])); [|auto|].
    + cbn [av_software]. rewrite <- app_assoc. reflexivity.
    + cbn [av_comments]. rewrite E. destruct pre as [|p pre]; [reflexivity|]. destruct ((p :: pre) ++ [c]) eqn:Z; [discriminate|]. rewrite <- Z.
      f_equal. now rewrite joined_snoc.
Qed.
Lemma push_dirty : forall l v, ~ Forall clean l -> push_comments v l = Panic.
Proof.
  induction l as [|c l IH]; intros v F; [destruct F; constructor|]. cbn [push_comments]. unfold push_comment.
  destruct (clean_dec c) as [C|C].
  - rewrite clean_check by auto. cbn [rbind]. apply IH. intro K. apply F. now constructor.
  - rewrite dirty_check by auto. reflexivity.
Qed.
Lemma two_digits_eq : forall n, fmt_u_width n 2 = two_digits n.
Proof.
  intro n. unfold fmt_u_width, two_digits. destruct (N.ltb_spec n 10) as [H|H].
  - pose proof (fmt_u_len n 1 ltac:(cbn; lia) ltac:(lia)) as L. destruct (fmt_u_hd n) as (_ & NE & _).
    assert (lenN (fmt_u n) = 1). { destruct (fmt_u n); [congruence|]. rewrite lenN_cons in *. lia. }
    replace (2 - lenN (fmt_u n)) with 1 by lia. reflexivity.
  - assert (2 <= lenN (fmt_u n)).
    { destruct (N.le_gt_cases 2 (lenN (fmt_u n))) as [|L]; [auto|]. exfalso.
      assert (B : n < 10 ^ lenN (fmt_u n)) by (eapply (numeral_bound digit10); [intros c d [X _]; exact X|apply fmt_u_canonical]).
      assert (10 ^ lenN (fmt_u n) <= 10 ^ 1) by (apply N.pow_le_mono_r; lia). change (10 ^ 1) with 10 in *. lia. }
    replace (2 - lenN (fmt_u n)) with 0 by lia. reflexivity.
Qed.
Lemma software_text : forall s, software_display s = version_text s.
Proof. intros [a b c|y m d]; cbn [software_display version_text joined]; [reflexivity|]. now rewrite !two_digits_eq. Qed.
Lemma make_version_ok : forall c, Forall clean (c_comments c) ->
  exists v, make_version c = Ret v /\ c_name c ++ [58] ++ av_display v ++ [47] = client_text c.
Proof.
  intros c F. unfold make_version. rewrite (push_all _ _ []) by auto. cbn [app av_new av_software]. eexists. split; [reflexivity|].
  unfold client_text, av_display. cbn [av_software av_comments]. rewrite software_text. destruct (c_comments c) as [|x l]; [now rewrite app_nil_r|].
  cbn [lit]. now rewrite <- !app_assoc.
Qed.
Lemma make_version_bad : forall c, ~ Forall clean (c_comments c) -> make_version c = Panic.
Proof. intros. now apply push_dirty. Qed.
Lemma forall_clean_dec : forall l, Forall clean l \/ ~ Forall clean l.
Proof.
  induction l as [|x l [IH|IH]]; [left; constructor| |right; intro H; inversion H; auto].
  destruct (clean_dec x); [left; now constructor|right; intro H'; inversion H'; auto].
Qed.

Lemma step_new : forall pre c (go : str -> rust str),
  (rbind (make_version c) (fun v => rbind (panic_invalid_chars (c_name c)) (fun _ => let a := pre ++ (c_name c ++ [58] ++ av_display v ++ [47]) in rbind (panic_max_len a) (fun _ => go a)))) =
  if existsb invalid_char (c_name c) || existsb (existsb invalid_char) (c_comments c) then Panic
  else if lenN (pre ++ client_text c) <=? 256 then go (pre ++ client_text c) else Panic.
Proof.
  intros pre c go. destruct (forall_clean_dec (c_comments c)) as [F|F].
  - destruct (make_version_ok c F) as (v & -> & E). cbn [rbind]. rewrite E. cbv zeta.
    assert (Z : existsb (existsb invalid_char) (c_comments c) = false).
    { apply Bool.not_true_is_false. intro X. apply existsb_exists in X as (s & I & X). rewrite Forall_forall in F. apply F, invalid_spec in I. congruence. }
    rewrite Z, Bool.orb_false_r. unfold panic_invalid_chars. destruct (existsb invalid_char (c_name c)); [reflexivity|]. cbn [rbind].
    unfold panic_max_len, MAX_USER_AGENT_LEN. now destruct (lenN (pre ++ client_text c) <=? 256).
  - rewrite make_version_bad by auto. cbn [rbind].
    assert (Z : existsb (existsb invalid_char) (c_comments c) = true).
    { apply Bool.not_false_is_true. intro X. apply F, Forall_forall. intros s I. apply invalid_spec. apply Bool.not_true_is_false. intro Y.
      assert (existsb (existsb invalid_char) (c_comments c) = true) by (apply existsb_exists; eauto). congruence. }
    now rewrite Z, Bool.orb_true_r.
Qed.
Definition bad (c : client) : bool := existsb invalid_char (c_name c) || existsb (existsb invalid_char) (c_comments c).
Lemma bad_spec : forall c, bad c = false <-> client_clean c.
Proof.
  intro c. unfold bad, client_clean. rewrite Bool.orb_false_iff, invalid_spec. split; intros [A B]; (split; [exact A|]).
  - apply Forall_forall. intros s I. apply invalid_spec. apply Bool.not_true_is_false. intro Y.
    assert (existsb (existsb invalid_char) (c_comments c) = true) by (apply existsb_exists; eauto). congruence.
  - apply Bool.not_true_is_false. intro X. apply existsb_exists in X as (s & I & X). rewrite Forall_forall in B. apply B, invalid_spec in I. congruence.
Qed.
Lemma add_clients_eq : forall l a, add_clients a l =
  if existsb bad l then Panic else if (lenN (a ++ concat (map client_text l)) <=? 256) || (lenN l =? 0) then Ret (a ++ concat (map client_text l)) else Panic.
Proof.
  induction l as [|c l IH]; intro a; cbn [add_clients existsb map concat].
  - cbn [existsb]. rewrite app_nil_r, Bool.orb_true_r. reflexivity.
  - unfold ua_add_client. pose proof (step_new a c (fun x => add_clients x l)) as E. fold (bad c) in E.
    transitivity (if bad c then Panic else if lenN (a ++ client_text c) <=? 256 then add_clients (a ++ client_text c) l else Panic).
    + rewrite <- E. destruct (make_version c) as [v|]; [|reflexivity]. cbn [rbind]. destruct (panic_invalid_chars (c_name c)); [|reflexivity]. cbn [rbind].
      cbv zeta. destruct (panic_max_len _); reflexivity.
    + destruct (bad c); [reflexivity|]. cbn [orb]. replace (lenN (c :: l) =? 0) with false by (rewrite lenN_cons; symmetry; apply N.eqb_neq; lia). rewrite Bool.orb_false_r.
      rewrite IH, <- app_assoc. destruct (existsb bad l); [now destruct (lenN (a ++ client_text c) <=? 256)|].
      destruct (N.leb_spec (lenN (a ++ client_text c)) 256) as [L|L].
      * destruct (N.eqb_spec (lenN l) 0) as [Z|Z]; [|now rewrite Bool.orb_false_r]. assert (l = []) by (destruct l; [auto|rewrite lenN_cons in Z; lia]). subst l. cbn [map concat]. rewrite app_nil_r.
        destruct (N.leb_spec (lenN (a ++ client_text c)) 256); [reflexivity|lia].
      * destruct (N.leb_spec (lenN (a ++ client_text c ++ concat (map client_text l))) 256) as [L'|L']; [|reflexivity]. rewrite !lenN_app in *. lia.
Qed.

(** Building an agent of any number of clients, each with any number of comments: the text is the BIP14 text;
    it panics exactly if a name or comment has one of the four characters, or the text is over 256 characters. *)
Theorem C69_text : forall c l, let all := c :: l in
  (Forall client_clean all -> lenN (agent_text all) <= 256 -> make_agent c l = Ret (agent_text all)) /\
  (~ (Forall client_clean all /\ lenN (agent_text all) <= 256) -> make_agent c l = Panic).
Proof.
  intros c l all. unfold make_agent, ua_new.
  assert (E : make_agent c l = if existsb bad all then Panic else if lenN (agent_text all) <=? 256 then Ret (agent_text all) else Panic).
  { unfold make_agent, ua_new. pose proof (step_new [47] c (fun x => add_clients x l)) as E. fold (bad c) in E.
    transitivity (if bad c then Panic else if lenN ([47] ++ client_text c) <=? 256 then add_clients ([47] ++ client_text c) l else Panic).
    - rewrite <- E. destruct (make_version c) as [v|]; [|reflexivity]. cbn [rbind]. destruct (panic_invalid_chars (c_name c)); [|reflexivity]. cbn [rbind].
      cbv zeta. destruct (panic_max_len _); reflexivity.
    - unfold all. cbn [existsb]. destruct (bad c); [reflexivity|]. cbn [orb]. rewrite add_clients_eq. unfold agent_text. cbn [map concat]. change (lit "/") with [47].
      replace (([47] ++ client_text c) ++ concat (map client_text l)) with ([47] ++ client_text c ++ concat (map client_text l)) by now rewrite app_assoc.
      destruct (existsb bad l); [now destruct (lenN ([47] ++ client_text c) <=? 256)|].
      destruct (N.leb_spec (lenN ([47] ++ client_text c)) 256) as [L|L].
      + destruct (N.leb_spec (lenN ([47] ++ client_text c ++ concat (map client_text l))) 256) as [L'|L']; [reflexivity|]. cbn [orb].
        destruct (N.eqb_spec (lenN l) 0) as [Z|Z]; [|reflexivity]. assert (l = []) by (destruct l; [auto|rewrite lenN_cons in Z; lia]). subst l. cbn [map concat] in L'. rewrite app_nil_r in L'. lia.
      + destruct (N.leb_spec (lenN ([47] ++ client_text c ++ concat (map client_text l))) 256) as [L'|L']; [|reflexivity]. rewrite !lenN_app in *. lia. }
  assert (B : existsb bad all = false <-> Forall client_clean all).
  { split.
    - intro H. apply Forall_forall. intros x I. apply bad_spec. apply Bool.not_true_is_false. intro Y. assert (existsb bad all = true) by (apply existsb_exists; eauto). congruence.
    - intro F. apply Bool.not_true_is_false. intro X. apply existsb_exists in X as (x & I & X). rewrite Forall_forall in F. apply F, bad_spec in I. congruence. }
  unfold make_agent, ua_new in E. split.
  - intros F L. rewrite E, (proj2 B F), (proj2 (N.leb_le _ _) L). reflexivity.
  - intro H. rewrite E. destruct (existsb bad all) eqn:X; [reflexivity|]. destruct (N.leb_spec (lenN (agent_text all)) 256) as [L|L]; [|reflexivity].
    exfalso. apply H. split; [now apply B|exact L].
Qed.
(** Adding one client to any agent, also one taken from a peer or made by from_nonstandard. *)
Theorem C69_add : forall agent c, exists r, rbind (make_version c) (ua_add_client (ua_from_nonstandard agent) (c_name c)) = r /\
  (client_clean c -> lenN (agent ++ client_text c) <= 256 -> r = Ret (agent ++ client_text c)) /\
  (~ (client_clean c /\ lenN (agent ++ client_text c) <= 256) -> r = Panic).
Proof.
  intros agent c. eexists. split; [reflexivity|].
  assert (E : rbind (make_version c) (ua_add_client (ua_from_nonstandard agent) (c_name c)) = if bad c then Panic else if lenN (agent ++ client_text c) <=? 256 then Ret (agent ++ client_text c) else Panic)
    by exact (step_new agent c (fun x => Ret x)).
  rewrite E. split.
  - intros F L. now rewrite (proj2 (bad_spec c) F), (proj2 (N.leb_le _ _) L).
  - intro H. destruct (bad c) eqn:X; [reflexivity|]. destruct (N.leb_spec (lenN (agent ++ client_text c)) 256) as [L|L]; [|reflexivity].
    exfalso. apply H. split; [now apply bad_spec|exact L].
Qed.

(** ** Reading an agent back *)
Lemma cut_at : forall (c : N) a b a' b', ~ In c a -> ~ In c a' -> a ++ c :: b = a' ++ c :: b' -> a = a' /\ b = b'.
Proof.
  induction a as [|x a IH]; intros b [|y a'] b' H H' E; cbn [app] in E.
  - now injection E as ->.
  - injection E as -> _. destruct H'. now left.
  - injection E as -> _. destruct H. now left.
  - injection E as -> E. destruct (IH b a' b') as [-> ->]; auto; intro; [apply H|apply H']; now right.
Qed.
Lemma fmt_u_inj : forall n m, fmt_u n = fmt_u m -> n = m.
Proof.
  intros n m E. pose proof (proj1 (fmt_u_canonical n)) as A. pose proof (proj1 (fmt_u_canonical m)) as B. rewrite E in A.
  eapply (numeral_fun digit10); [|exact A|exact B]. intros c d d' [_ X] [_ Y]. lia.
Qed.
Lemma fmt_u_digits : forall n c, In c (fmt_u n) -> 48 <= c < 58.
Proof. intros n c I. destruct (numeral_in _ _ _ _ _ (proj1 (fmt_u_canonical n)) I) as [d [D1 D2]]. lia. Qed.
Lemma two_digits_chars : forall n c, In c (two_digits n) -> 48 <= c < 58.
Proof.
  intros n c. unfold two_digits. destruct (n <? 10); [|apply fmt_u_digits]. intro I. apply in_app_or in I as [I|I]; [|now apply (fmt_u_digits n)].
  change (lit "0") with [48] in I. destruct I as [<-|[]]. lia.
Qed.
Lemma two_digits_two : forall n, n < 100 -> exists a b, two_digits n = [a; b] /\ n = 10 * (a - 48) + (b - 48).
Proof.
  assert (K : forallb (fun k => match two_digits (N.of_nat k) with [a; b] => N.of_nat k =? 10 * (a - 48) + (b - 48) | _ => false end) (seq 0 100) = true) by (vm_compute; reflexivity).
  intros n H. rewrite forallb_forall in K. specialize (K (N.to_nat n)). rewrite Nnat.N2Nat.id in K.
  assert (I : In (N.to_nat n) (seq 0 100)) by (apply in_seq; lia). specialize (K I).
  destruct (two_digits n) as [|a [|b [|]]]; try discriminate. apply N.eqb_eq in K. now exists a, b.
Qed.
Lemma version_chars : forall s c, In c (version_text s) -> c = 46 \/ 48 <= c < 58.
Proof.
  intros [a b d|y m d] c; cbn [version_text joined]; rewrite !in_app_iff; change (lit ".") with [46]; cbn [In].
  - intros [I|[[I|[]]|[I|[[I|[]]|I]]]]; try (right; now apply fmt_u_digits in I); left; now symmetry.
  - intros [I|[I|I]]; right; [now apply fmt_u_digits in I|now apply two_digits_chars in I|now apply two_digits_chars in I].
Qed.
Lemma version_inj : forall s s', plain_software s -> plain_software s' -> version_text s = version_text s' -> s = s'.
Proof.
  assert (D : forall n, ~ In 46 (fmt_u n)) by (intros n I; apply fmt_u_digits in I; lia).
  assert (T : forall n, ~ In 46 (two_digits n)) by (intros n I; apply two_digits_chars in I; lia).
  intros [a b c|y m d] [a' b' c'|y' m' d'] P P' E; cbn [version_text joined plain_software] in *.
  - change (lit ".") with [46] in E. cbn [app] in E. apply cut_at in E as [E1 E]; auto. apply cut_at in E as [E2 E3]; auto.
    apply fmt_u_inj in E1, E2, E3. now subst.
  - exfalso. assert (I : In 46 (fmt_u a ++ lit "." ++ fmt_u b ++ lit "." ++ fmt_u c)) by (apply in_or_app; right; now left). rewrite E in I.
    rewrite !in_app_iff in I. destruct I as [I|[I|I]]; [now apply D in I|now apply T in I|now apply T in I].
  - exfalso. assert (I : In 46 (fmt_u a' ++ lit "." ++ fmt_u b' ++ lit "." ++ fmt_u c')) by (apply in_or_app; right; now left). rewrite <- E in I.
    rewrite !in_app_iff in I. destruct I as [I|[I|I]]; [now apply D in I|now apply T in I|now apply T in I].
  - destruct P as [P1 P2], P' as [P1' P2']. destruct (two_digits_two m P1) as (m1 & m2 & M & MV), (two_digits_two d P2) as (d1 & d2 & Dd & DV), (two_digits_two m' P1') as (n1 & n2 & M' & MV'), (two_digits_two d' P2') as (e1 & e2 & D' & DV').
    rewrite M, Dd, M', D' in E. cbn [app] in E.
    change (fmt_u y ++ [m1; m2; d1; d2]) with (fmt_u y ++ [m1; m2; d1] ++ [d2]) in E. change (fmt_u y' ++ [n1; n2; e1; e2]) with (fmt_u y' ++ [n1; n2; e1] ++ [e2]) in E.
    rewrite !app_assoc in E. apply app_inj_tail in E as [E ->].
    change [m1; m2; d1] with ([m1; m2] ++ [d1]) in E. change [n1; n2; e1] with ([n1; n2] ++ [e1]) in E. rewrite !app_assoc in E. apply app_inj_tail in E as [E ->].
    change [m1; m2] with ([m1] ++ [m2]) in E. change [n1; n2] with ([n1] ++ [n2]) in E. rewrite !app_assoc in E. apply app_inj_tail in E as [E ->]. apply app_inj_tail in E as [E ->].
    apply fmt_u_inj in E. f_equal; lia.
Qed.
Lemma joined_inj : forall l l', l <> [] -> l' <> [] -> Forall (fun s => ~ In 59 s) l -> Forall (fun s => ~ In 59 s) l' -> joined (lit "; ") l = joined (lit "; ") l' -> l = l'.
Proof.
  induction l as [|x l IH]; intros [|y l'] NE NE' F F' E; try congruence. inversion F as [|? ? Fx Fl]; subst. inversion F' as [|? ? Fy Fl']; subst.
  destruct l as [|z l], l' as [|z' l'].
  - cbn [joined] in E. now subst.
  - cbn [joined] in E. subst x. exfalso. apply Fx. apply in_or_app. right. now left.
  - cbn [joined] in E. subst y. exfalso. apply Fy. apply in_or_app. right. now left.
  - change (x ++ 59 :: 32 :: joined (lit "; ") (z :: l) = y ++ 59 :: 32 :: joined (lit "; ") (z' :: l')) in E. apply cut_at in E as [-> E]; auto. injection E as E.
    f_equal. apply IH; auto; discriminate.
Qed.
Lemma joined_in : forall c l, In c (joined (lit "; ") l) -> c = 59 \/ c = 32 \/ exists s, In s l /\ In c s.
Proof.
  induction l as [|x l IH]; intro I; [destruct I|]. destruct l as [|y l]; [right; right; exists x; split; [now left|exact I]|].
  change (In c (x ++ lit "; " ++ joined (lit "; ") (y :: l))) in I. apply in_app_or in I as [I|I]; [right; right; exists x; split; [now left|exact I]|].
  apply in_app_or in I as [[<-|[<-|[]]]|I]; [now left|right; now left|]. destruct (IH I) as [H|[H|(s & A & B)]]; [now left|right; now left|]. right. right. exists s. split; [now right|exact B].
Qed.
Lemma clean_not : forall s c, clean s -> In c s -> c <> 47 /\ c <> 40 /\ c <> 41 /\ c <> 58.
Proof. intros s c F I. unfold clean in F. rewrite Forall_forall in F. specialize (F c I). cbn in F. intuition. Qed.
Definition body (c : client) : str := c_name c ++ lit ":" ++ version_text (c_software c) ++ match c_comments c with [] => [] | l => lit "(" ++ joined (lit "; ") l ++ lit ")" end.
Lemma client_body : forall c, client_text c = body c ++ [47].
Proof. intro c. unfold client_text, body. now rewrite <- !app_assoc. Qed.
Lemma body_no_slash : forall c, client_clean c -> ~ In 47 (body c).
Proof.
  intros c [A B] I. unfold body in I. apply in_app_or in I as [I|I]; [now apply (clean_not _ _ A) in I|]. apply in_app_or in I as [[I|[]]|I]; [discriminate|].
  apply in_app_or in I as [I|I]; [apply version_chars in I; lia|]. destruct (c_comments c) as [|x l] eqn:E; [destruct I|].
  apply in_app_or in I as [[I|[]]|I]; [discriminate|]. apply in_app_or in I as [I|[I|[]]]; [|discriminate].
  destruct (joined_in _ _ I) as [H|[H|(s & S1 & S2)]]; try discriminate. rewrite Forall_forall in B. apply B in S1. now apply (clean_not _ _ S1) in S2.
Qed.
Lemma body_inj : forall c c', client_clean c -> client_clean c' -> body c = body c' -> c_name c = c_name c' /\ version_text (c_software c) = version_text (c_software c') /\
  (c_comments c = [] <-> c_comments c' = []) /\ joined (lit "; ") (c_comments c) = joined (lit "; ") (c_comments c').
Proof.
  intros c c' [A B] [A' B'] E. unfold body in E. change (lit ":") with [58] in E. cbn [app] in E.
  apply cut_at in E as [E1 E]; [|intro I; now apply (clean_not _ _ A) in I|intro I; now apply (clean_not _ _ A') in I]. split; [exact E1|].
  assert (P : forall s, ~ In 40 (version_text s)) by (intros s I; apply version_chars in I; lia).
  destruct (c_comments c) as [|x l], (c_comments c') as [|x' l'].
  - rewrite !app_nil_r in E. split; [exact E|]. split; [easy|reflexivity].
  - exfalso. rewrite app_nil_r in E. apply (P (c_software c)). rewrite E. apply in_or_app. right. now left.
  - exfalso. rewrite app_nil_r in E. apply (P (c_software c')). rewrite <- E. apply in_or_app. right. now left.
  - change (lit "(") with [40] in E. cbn [app] in E. apply cut_at in E as [E2 E3]; auto. split; [exact E2|]. split; [easy|].
    apply app_inj_tail in E3. tauto.
Qed.
(** Two lists of clients with the same text have the same names, version texts and comment texts, one by one... *)
Theorem C69_unambiguous : forall l l', Forall client_clean l -> Forall client_clean l' -> agent_text l = agent_text l' ->
  Forall2 (fun c c' => c_name c = c_name c' /\ version_text (c_software c) = version_text (c_software c') /\
    (c_comments c = [] <-> c_comments c' = []) /\ joined (lit "; ") (c_comments c) = joined (lit "; ") (c_comments c')) l l'.
Proof.
  intros l l' F F' E. unfold agent_text in E. apply app_inv_head in E. revert l' F' E.
  induction F as [|c l Fc F IH]; intros l' F' E; destruct F' as [|c' l' Fc' F']; cbn [map concat] in E.
  - constructor.
  - exfalso. rewrite client_body in E. now destruct (body c').
  - exfalso. rewrite client_body in E. now destruct (body c).
  - rewrite !client_body, <- !app_assoc in E. cbn [app] in E. apply cut_at in E as [E1 E2]; [|now apply body_no_slash|now apply body_no_slash].
    constructor; [now apply body_inj|]. now apply IH.
Qed.
(** ... and if dates have two-digit months and days and comments have no semicolon, they are the same clients. *)
Theorem C69_read_back : forall l l', Forall client_clean l -> Forall client_clean l' -> Forall plain l -> Forall plain l' ->
  agent_text l = agent_text l' -> l = l'.
Proof.
  intros l l' F F' P P' E. pose proof (C69_unambiguous l l' F F' E) as U. clear F F' E. induction U as [|c c' l l' (E1 & E2 & E3 & E4) U IH]; [reflexivity|].
  inversion P as [|? ? [Pc1 Pc2] Pl]; subst. inversion P' as [|? ? [Pc1' Pc2'] Pl']; subst. f_equal; [|auto].
  destruct c as [n s k], c' as [n' s' k']. cbn [c_name c_software c_comments] in *. subst n'. apply version_inj in E2; auto. subst s'. f_equal.
  destruct k as [|x k]; [symmetry; now apply E3|]. destruct k' as [|x' k']; [now apply E3|]. apply joined_inj; auto; discriminate.
Qed.
(** Both conditions are needed. *)
Theorem C69_date_refuted : exists name y m d y' m' d' t, (y, m, d) <> (y', m', d') /\
  make_agent (mk_client name (Date y m d) []) [] = Ret t /\ make_agent (mk_client name (Date y' m' d') []) [] = Ret t.
Proof.
  exists (lit "Satoshi"), 2011, 1, 28, 201, 101, 28. eexists. split; [discriminate|]. split; vm_compute; reflexivity.
Qed.
Theorem C69_comment_refuted : exists name v k k' t, k <> k' /\
  make_agent (mk_client name v k) [] = Ret t /\ make_agent (mk_client name v k') [] = Ret t.
Proof.
  exists (lit "Satoshi"), (SemVer 5 12 0), [lit "Android; ARM"], [lit "Android"; lit "ARM"]. eexists. split; [discriminate|]. split; vm_compute; reflexivity.
Qed.

(** ** The limit counts characters: in bytes, as on the wire, it holds for ASCII, and four times the limit always ... *)
Lemma char_len : forall c, 1 <= lenN (char_utf8 c) <= 4 /\ (c < 128 -> lenN (char_utf8 c) = 1).
Proof.
  intro c. unfold char_utf8. destruct (N.ltb_spec c 128); [split; [cbn; lia|reflexivity]|]. destruct (_ <? _); [split; [cbn; lia|lia]|]. destruct (_ <? _); (split; [cbn; lia|lia]).
Qed.
Theorem C69_bytes : forall c l t, make_agent c l = Ret t ->
  lenN (as_bytes t) <= 1024 /\ (Forall (fun x => x < 128) t -> lenN (as_bytes t) <= 256).
Proof.
  intros c l t E. destruct (C69_text c l) as [A B]. cbv zeta in *.
  assert (L : lenN t <= 256).
  { destruct (N.le_gt_cases (lenN (agent_text (c :: l))) 256) as [L|L].
    - destruct (existsb bad (c :: l)) eqn:X.
      + rewrite B in E; [discriminate|]. intros [F _]. apply existsb_exists in X as (y & Y & Z). rewrite Forall_forall in F. apply F in Y. apply bad_spec in Y. congruence.
      + rewrite A in E; [injection E as <-; exact L| |exact L]. apply Forall_forall. intros y Y. apply bad_spec. destruct (bad y) eqn:Z; [|reflexivity].
        assert (existsb bad (c :: l) = true) by (apply existsb_exists; eauto). congruence.
    - rewrite B in E; [discriminate|]. intros [_ Z]. lia. }
  clear -L. assert (H : lenN (as_bytes t) <= 4 * lenN t /\ (Forall (fun x => x < 128) t -> lenN (as_bytes t) = lenN t)).
  { clear L. induction t as [|x t IH]; [split; [cbn; lia|reflexivity]|]. change (as_bytes (x :: t)) with (char_utf8 x ++ as_bytes t). rewrite lenN_app, lenN_cons.
    destruct (char_len x) as [C1 C2], IH as [I1 I2]. split; [lia|]. intro F. inversion F; subst. rewrite C2, I2 by auto. lia. }
  destruct H as [H1 H2]. split; [lia|]. intro F. rewrite H2; auto.
Qed.
(** ... but an agent of 256 characters can be longer than 256 bytes. *)
Theorem C69_bytes_refuted : exists c t, make_agent c [] = Ret t /\ lenN t = 256 /\ lenN (as_bytes t) = 504.
Proof.
  exists (mk_client (repeat 233 248) (SemVer 1 0 0) []). eexists. split; [vm_compute; reflexivity|]. split; vm_compute; reflexivity.
Qed.

(** ** Examples *)
Definition ex_core : client := mk_client (lit "Satoshi") (SemVer 5 64 0) [lit "iPad"; lit "U"; lit "CPU OS 3_2_1"].
Definition ex_wallet : client := mk_client (lit "BitcoinJ") (Date 2011 1 28) [].
Example C69_ex_text : make_agent ex_core [ex_wallet] = Ret (lit "/Satoshi:5.64.0(iPad; U; CPU OS 3_2_1)/BitcoinJ:20110128/").
Proof. vm_compute. reflexivity. Qed.
Example C69_ex_ok : Forall client_clean [ex_core; ex_wallet] /\ Forall plain [ex_core; ex_wallet] /\ lenN (agent_text [ex_core; ex_wallet]) <= 256.
Proof.
  split; [|split].
  - assert (K : forallb (fun c => negb (bad c)) [ex_core; ex_wallet] = true) by (vm_compute; reflexivity). rewrite forallb_forall in K.
    apply Forall_forall. intros c I. apply bad_spec. apply K in I. now destruct (bad c).
  - repeat constructor; cbn; intuition discriminate.
  - vm_compute. discriminate.
Qed.
Example C69_ex_panic : make_agent (mk_client (lit "a/b") (SemVer 1 0 0) []) [] = Panic /\ make_agent (mk_client (repeat 97 248) (SemVer 1 0 0) []) [] = Ret (lit "/" ++ repeat 97 248 ++ lit ":1.0.0/") /\ make_agent (mk_client (repeat 97 249) (SemVer 1 0 0) []) [] = Panic.
Proof. repeat split; vm_compute; reflexivity. Qed.
Print Assumptions C69_text.
Print Assumptions C69_add.
Print Assumptions C69_unambiguous.
Print Assumptions C69_read_back.
Print Assumptions C69_bytes. Print Assumptions C69_bytes_refuted. Print Assumptions C69_date_refuted.
Print Assumptions C69_comment_refuted.
