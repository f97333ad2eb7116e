(** Lemmas for the text of scripts. *)
From Coq Require Import String.
From Verif Require Import Base MDec MText MScript SScript SAsm MAsm LDec LWitness LScript.
From Verif Require LAmountText LIo2.
Local Open Scope N_scope.

Definition all_ops : list N := map N.of_nat (seq 0 256).
Lemma in_ops : forall op, op < 256 -> In op all_ops.
Proof. intros op L. unfold all_ops. apply in_map_iff. exists (N.to_nat op). split; [lia|]. apply in_seq. lia. Qed.
Lemma ops_forall : forall p : N -> bool, forallb p all_ops = true -> forall op, op < 256 -> p op = true.
Proof. intros p H op L. rewrite forallb_forall in H. apply H. now apply in_ops. Qed.

Lemma fmt_name : forall op, op < 256 -> fmt_opcode op = opcode_name op.
Proof.
  intros op L. apply LAmountText.str_eqb_eq. revert op L. apply (ops_forall (fun op => str_eqb (fmt_opcode op) (opcode_name op))).
  vm_compute. reflexivity.
Qed.
Lemma as_str_name : forall op, 0 < op -> op < 256 -> as_str op = Ret (opcode_name op).
Proof.
  intros op P L. pose proof (ops_forall (fun op => (op =? 0) || match as_str op with Ret s => str_eqb s (opcode_name op) | Panic => false end) ltac:(vm_compute; reflexivity) op L) as H.
  cbv beta in H. apply orb_prop in H. destruct H as [H|H]; [lia|]. destruct (as_str op); [|discriminate]. apply LAmountText.str_eqb_eq in H. now subst.
Qed.
Fixpoint nodupb (l : list str) : bool := match l with [] => true | x :: l => negb (existsb (str_eqb x) l) && nodupb l end.
Lemma nodupb_ok : forall l, nodupb l = true -> NoDup l.
Proof.
  induction l as [|x l IH]; intros H; constructor; cbn [nodupb] in H; apply andb_prop in H as [A B]; auto.
  intros I. apply negb_true_iff in A. assert (existsb (str_eqb x) l = true); [|congruence]. apply existsb_exists. exists x. split; auto. now apply LAmountText.str_eqb_eq.
Qed.
Lemma names_nodup : NoDup opcode_names.
Proof. apply nodupb_ok. vm_compute. reflexivity. Qed.
Lemma names_len : List.length opcode_names = 256%nat.
Proof. reflexivity. Qed.
Lemma name_inj : forall a b, a < 256 -> b < 256 -> opcode_name a = opcode_name b -> a = b.
Proof.
  intros a b A B E. unfold opcode_name in E. apply (proj1 (NoDup_nth opcode_names [])) in E; [lia|apply names_nodup| |]; rewrite names_len; lia.
Qed.
(* every name begins with 'O' and has no space nor '<' *)
Lemma name_chars : forall op, op < 256 -> exists t, opcode_name op = 79 :: t /\ Forall (fun c => c <> 32 /\ c <> 60) (79 :: t).
Proof.
  intros op L. pose proof (ops_forall (fun op => match opcode_name op with c :: t => (c =? 79) && forallb (fun c => negb (c =? 32) && negb (c =? 60)) (c :: t) | [] => false end) ltac:(vm_compute; reflexivity) op L) as H.
  cbv beta in H. destruct (opcode_name op) as [|c t]; [discriminate|]. apply andb_prop in H as [A B]. apply N.eqb_eq in A. subst c. exists t. split; auto.
  rewrite forallb_forall in B. apply Forall_forall. intros x I. specialize (B x I). apply andb_prop in B as [B1 B2].
  apply negb_true_iff in B1, B2. lia.
Qed.

(** ** Hexadecimal *)
Lemma hex_digit_char : forall d, d < 16 -> hex_char false d = hex_digit d.
Proof.
  intros d L. assert (I : In d (map N.of_nat (seq 0 16))). { apply in_map_iff. exists (N.to_nat d). split; [lia|]. apply in_seq. lia. }
  revert I. cbn [seq map]. cbn [In]. intros I. repeat (destruct I as [<-|I]; [reflexivity|]). destruct I.
Qed.
Lemma hex_text_eq : forall b, bytes_ok b -> hex_bytes false b = hex_text b.
Proof.
  intros b OK. unfold hex_bytes, hex_text. induction OK as [|x b H OK IH]; auto. cbn [flat_map]. rewrite IH. f_equal.
  unfold hex_byte, byte_ok in *. rewrite !hex_digit_char; auto; lia.
Qed.
Lemma hex_digit_inj : forall a b, a < 16 -> b < 16 -> hex_digit a = hex_digit b -> a = b.
Proof. intros a b A B E. rewrite <- !hex_digit_char in E by auto. unfold hex_char in E. destruct (a <? 10) eqn:?, (b <? 10) eqn:?; lia. Qed.
Lemma hex_digit_range : forall d, d < 16 -> 48 <= hex_digit d <= 57 \/ 97 <= hex_digit d <= 102.
Proof. intros d A. rewrite <- !hex_digit_char by auto. unfold hex_char. destruct (d <? 10) eqn:?; lia. Qed.
Lemma hex_text_inj : forall a b, bytes_ok a -> bytes_ok b -> hex_text a = hex_text b -> a = b.
Proof.
  unfold hex_text. induction a as [|x a IH]; intros [|y b] A B E; auto; try discriminate.
  cbn [flat_map app] in E. inversion A; inversion B; subst. unfold byte_ok in *. injection E as E1 E2 E3.
  apply hex_digit_inj in E1; [|lia|lia]. apply hex_digit_inj in E2; [|lia|lia]. f_equal; [lia|]. apply IH; auto.
Qed.
Lemma hex_text_chars : forall b c, bytes_ok b -> In c (hex_text b) -> c <> 32 /\ c <> 60 /\ c <> 79.
Proof.
  intros b c OK I. unfold hex_text in I. apply in_flat_map in I as (x & I & J). unfold bytes_ok in OK; rewrite Forall_forall in OK. specialize (OK x I). unfold byte_ok in OK.
  destruct J as [<-|[<-|[]]]; [pose proof (hex_digit_range (x / 16) ltac:(lia))|pose proof (hex_digit_range (x mod 16) ltac:(lia))]; lia.
Qed.

(** ** Words *)
Definition word (w : str) : Prop := w <> [] /\ Forall (fun c => c <> 32 /\ c <> 60) w.
Lemma spaced_cons : forall x w, w <> [] -> spaced (x :: w) = x ++ lit " " ++ spaced w.
Proof. intros x [|y w] H; [congruence|reflexivity]. Qed.
Lemma spaced_app : forall a b, a <> [] -> b <> [] -> spaced (a ++ b) = spaced a ++ lit " " ++ spaced b.
Proof.
  induction a as [|x a IH]; intros b A B; [congruence|]. destruct a as [|y a].
  - cbn [app]. rewrite spaced_cons; auto.
  - change ((x :: y :: a) ++ b) with (x :: ((y :: a) ++ b)). rewrite spaced_cons by discriminate. rewrite IH by (auto; discriminate).
    rewrite (spaced_cons x (y :: a)) by discriminate. now rewrite <- !app_assoc.
Qed.
Lemma spaced_nonempty : forall w, Forall word w -> spaced w = [] -> w = [].
Proof.
  intros [|x w] F E; auto. apply Forall_inv in F. destruct F as [F _]. destruct w; cbn [spaced] in E; [congruence|].
  apply app_eq_nil in E. destruct E; congruence.
Qed.
Lemma cut_space : forall a b s t, Forall (fun c => c <> 32 /\ c <> 60) a -> Forall (fun c => c <> 32 /\ c <> 60) b ->
  a ++ lit " " ++ s = b ++ lit " " ++ t -> a = b /\ s = t.
Proof.
  change (lit " ") with [32]. induction a as [|x a IH]; intros [|y b] s t A B E.
  - cbn [app] in E. inversion E; auto.
  - cbn [app] in E. injection E as E1 E2. subst. apply Forall_inv in B. lia.
  - cbn [app] in E. injection E as E1 E2. subst. apply Forall_inv in A. lia.
  - change ((x :: a) ++ [32] ++ s) with (x :: (a ++ [32] ++ s)) in E. change ((y :: b) ++ [32] ++ t) with (y :: (b ++ [32] ++ t)) in E.
    injection E as E1 E2. subst. inversion A; inversion B; subst. destruct (IH b s t) as [-> ->]; auto.
Qed.
Lemma no_space : forall a b t, Forall (fun c => c <> 32 /\ c <> 60) a -> a = b ++ lit " " ++ t -> False.
Proof.
  intros a b t F ->. change (lit " ") with [32] in F. apply Forall_app in F. destruct F as [_ F]. apply Forall_inv in F. lia.
Qed.
Lemma spaced_inj : forall w v, Forall word w -> Forall word v -> spaced w = spaced v -> w = v.
Proof.
  induction w as [|x w IH]; intros v W V E.
  - symmetry in E. symmetry. now apply spaced_nonempty.
  - destruct v as [|y v]. { now apply spaced_nonempty in E. }
    pose proof (Forall_inv W) as X. pose proof (Forall_inv V) as Y. destruct X as [X1 X2], Y as [Y1 Y2].
    apply Forall_inv_tail in W, V.
    destruct w as [|x' w], v as [|y' v].
    + cbn [spaced] in E. now subst.
    + rewrite (spaced_cons y) in E by discriminate. change (spaced [x]) with x in E. exfalso. now apply (no_space x y _ X2 E).
    + rewrite (spaced_cons x) in E by discriminate. change (spaced [y]) with y in E. symmetry in E. exfalso. now apply (no_space y x _ Y2 E).
    + rewrite !spaced_cons in E by discriminate. apply cut_space in E; auto. destruct E as [-> E]. f_equal. now apply IH.
Qed.

Definition data_of (i : instr) : bytes := match i with PushBytes d => d | Op _ => [] end.
Lemma encodes_data : forall i e, encodes i e -> bytes_ok e -> bytes_ok (data_of i).
Proof.
  intros i e H OK. assert (X : exists p, e = p ++ data_of i).
  { destruct H as [d|d|d|d|op]; cbn [data_of].
    - now exists [lenN d].
    - now exists (76 :: le_bytes 1 (lenN d)).
    - now exists (77 :: le_bytes 2 (lenN d)).
    - now exists (78 :: le_bytes 4 (lenN d)).
    - exists [op]. now rewrite app_nil_r. }
  destruct X as (p & ->). apply Forall_app in OK. apply OK.
Qed.
Lemma instr_words_ok : forall i e, encodes i e -> bytes_ok e -> Forall word (instr_words i e).
Proof.
  intros i e H OK.
  assert (Z : word (opcode_name (hd 0 e))).
  { assert (hd 0 e < 256). { destruct H; cbn [hd]; lia. }
    destruct (name_chars _ H0) as (t & -> & F). split; [discriminate|auto]. }
  assert (Y : forall d, i = PushBytes d -> bytes_ok d).
  { intros d ->. now apply encodes_data in H. }
  unfold instr_words. constructor; auto. destruct i as [[|x d]|]; constructor; auto.
  specialize (Y _ eq_refl). split; [discriminate|]. apply Forall_forall. intros c I. apply hex_text_chars in I; auto. lia.
Qed.
Lemma script_words_ok : forall s w, script_words s w -> bytes_ok s -> Forall word w.
Proof.
  induction 1 as [|i e s w H H1 IH]; intros OK; [constructor|]. apply Forall_app in OK as [A B]. apply Forall_app. split; [now apply instr_words_ok|auto].
Qed.

(** ** The words determine the script *)
Lemma script_words_hd : forall s x w, script_words s (x :: w) -> exists op, op < 256 /\ x = opcode_name op.
Proof.
  intros s x w H. inversion H as [|i e s1 w1 H1 H2 E1 E2]. exists (hd 0 e). split; auto.
  destruct H1; cbn [hd]; lia.
Qed.
Lemma hex_not_name : forall b op, bytes_ok b -> op < 256 -> hex_text b = opcode_name op -> False.
Proof.
  intros b op OK L E. destruct (name_chars op L) as (t & E2 & _). rewrite E2 in E.
  assert (I : In 79 (hex_text b)) by (rewrite E; now left). apply hex_text_chars in I; auto. lia.
Qed.
Lemma words_tail : forall i e, instr_words i e = opcode_name (hd 0 e) :: match data_of i with [] => [] | x :: d => [hex_text (x :: d)] end.
Proof. intros [[|x d]|op] e; reflexivity. Qed.
Lemma encodes_det : forall i e i' e', encodes i e -> encodes i' e' -> hd 0 e = hd 0 e' -> data_of i = data_of i' -> e = e'.
Proof. intros i e i' e' H H' E D. destruct H, H'; cbn [hd data_of] in *; subst; try lia; auto. Qed.
Lemma encodes_hd : forall i e, encodes i e -> hd 0 e < 256.
Proof. intros i e H. destruct H; cbn [hd]; lia. Qed.
Lemma script_words_inj : forall s w, script_words s w -> forall s', script_words s' w -> bytes_ok s -> bytes_ok s' -> s = s'.
Proof.
  induction 1 as [|i e s w H H1 IH]; intros s' W' OK OK'.
  - inversion W'; subst; auto.
  - remember (instr_words i e ++ w) as W eqn:E2. destruct W' as [|i' e' s1 w1 H' H1']. { rewrite words_tail in E2. discriminate. }
    apply Forall_app in OK as [A B]. apply Forall_app in OK' as [A' B'].
    rewrite !words_tail in E2. cbn [app] in E2. injection E2 as E3 E4.
    apply name_inj in E3; [|now apply encodes_hd in H'|now apply encodes_hd in H].
    pose proof (encodes_data _ _ H A) as D. pose proof (encodes_data _ _ H' A') as D'.
    assert (Q : data_of i = data_of i' /\ w1 = w).
    { destruct (data_of i) as [|x d] eqn:G, (data_of i') as [|x' d'] eqn:G'; cbn [app] in E4.
      - auto.
      - subst w. exfalso. destruct (script_words_hd _ _ _ H1) as (op & L & E). exact (hex_not_name (x' :: d') op D' L E).
      - subst w1. exfalso. destruct (script_words_hd _ _ _ H1') as (op & L & E). exact (hex_not_name (x :: d) op D L E).
      - injection E4 as E4 E5 E6. split; auto. apply hex_text_inj; auto.
        unfold hex_text at 1 2. cbn [flat_map app]. fold (hex_text d). fold (hex_text d'). congruence. }
    destruct Q as [Q ->]. rewrite (encodes_det i e i' e'); auto. f_equal. auto.
Qed.

(** ** The printer *)
Lemma read_len : forall n x r, x < 256 ^ N.of_nat n -> read_push_data_len (le_bytes n x ++ r) (N.of_nat n) = Some (x, r).
Proof.
  intros n x r L. unfold read_push_data_len. assert (LN : List.length (le_bytes n x) = n). { apply le_bytes_length. }
  destruct (lenN (le_bytes n x ++ r) <? N.of_nat n) eqn:E. { apply N.ltb_lt in E. rewrite lenN_app in E. unfold lenN in E. rewrite LN in E. lia. }
  rewrite Nnat.Nat2N.id. rewrite firstn_app, skipn_app, LN, Nat.sub_diag. rewrite firstn_all2, skipn_all2 by lia. cbn [firstn skipn app].
  rewrite app_nil_r. rewrite le_val_bytes by auto. reflexivity.
Qed.
Definition sep (b : bool) : str := if b then lit " " else [].
Lemma fmt_step : forall f i e s b out, encodes i e -> bytes_ok e -> 
  script_fmt (S f) (e ++ s) b out = script_fmt f s true (out ++ sep b ++ spaced (instr_words i e)).
Proof.
  intros f i e s b out H OK.
  assert (PUSH : forall op d, op < 256 -> bytes_ok d -> 
     (let out := if b then out ++ lit " " else out in
      let out := out ++ fmt_opcode op in
      if 0 <? lenN d then
        let out := out ++ lit " " in
        if lenN d <=? lenN (d ++ s) then script_fmt f (dropN (lenN d) (d ++ s)) true (out ++ hex_bytes false (takeN (lenN d) (d ++ s)))
        else Ret (out ++ lit "<push past end>")
      else script_fmt f (d ++ s) true out) =
     script_fmt f s true (out ++ sep b ++ spaced (opcode_name op :: match d with [] => [] | x :: d => [hex_text (x :: d)] end))).
  { intros op d L OKd. cbv zeta. rewrite fmt_name by auto. 
    assert (SEP : (if b then out ++ lit " " else out) = out ++ sep b). { destruct b; cbn [sep]; [auto|now rewrite app_nil_r]. }
    rewrite SEP. destruct d as [|x d].
    - change (0 <? lenN []) with false. cbv iota. cbn [spaced app]. now rewrite <- app_assoc.
    - set (D := x :: d) in *. assert (0 < lenN D) by (unfold D; rewrite lenN_cons; lia).
      destruct (0 <? lenN D) eqn:E; [|lia]. destruct (lenN D <=? lenN (D ++ s)) eqn:E2; [|rewrite lenN_app in E2; lia].
      rewrite takeN_exact, dropN_exact by reflexivity. rewrite hex_text_eq by exact OKd. change (hex_text (x :: d)) with (hex_text D).
      rewrite spaced_cons by discriminate. cbn [spaced]. now rewrite <- !app_assoc. }
  rewrite words_tail. pose proof (encodes_data _ _ H OK) as OKd. 
  destruct H as [d L|d L|d L|d L|op L]; cbn [data_of hd] in *; cbn [app script_fmt].
  - destruct (lenN d <=? 75) eqn:E; [|lia]. apply PUSH; auto; lia.
  - change (76 <=? 75) with false. change (76 =? OP_PUSHDATA1) with true. cbv iota. rewrite <- app_assoc. rewrite (read_len 1) by exact L. apply PUSH; auto; lia.
  - change (77 <=? 75) with false. change (77 =? OP_PUSHDATA1) with false. change (77 =? OP_PUSHDATA2) with true. cbv iota. rewrite <- app_assoc. rewrite (read_len 2) by exact L. apply PUSH; auto; lia.
  - change (78 <=? 75) with false. change (78 =? OP_PUSHDATA1) with false. change (78 =? OP_PUSHDATA2) with false. change (78 =? OP_PUSHDATA4) with true. cbv iota. rewrite <- app_assoc. rewrite (read_len 4) by exact L. apply PUSH; auto; lia.
  - destruct (op <=? 75) eqn:E; [lia|]. unfold OP_PUSHDATA1, OP_PUSHDATA2, OP_PUSHDATA4. destruct (op =? 76) eqn:E1; [lia|]. destruct (op =? 77) eqn:E2; [lia|]. destruct (op =? 78) eqn:E3; [lia|].
    apply (PUSH op []); [lia|constructor].
Qed.
Lemma words_nonempty : forall i e, instr_words i e <> [].
Proof. intros. rewrite words_tail. discriminate. Qed.
Lemma fmt_run : forall s w, script_words s w -> forall f rest b out, bytes_ok s -> (List.length s <= f)%nat ->
  exists f', (f - List.length s <= f')%nat /\
  script_fmt f (s ++ rest) b out = match w with [] => script_fmt f' rest b out | _ => script_fmt f' rest true (out ++ sep b ++ spaced w) end.
Proof.
  induction 1 as [|i e s w H H1 IH]; intros f rest b out OK L.
  - exists f. split; auto. cbn [List.length]. lia.
  - apply Forall_app in OK as [A B]. rewrite app_length in L. assert (1 <= List.length e)%nat. { destruct H; cbn [List.length]; lia. }
    destruct f as [|f]; [lia|]. rewrite <- app_assoc. rewrite (fmt_step f i e (s ++ rest) b out H A).
    destruct (IH f rest true (out ++ sep b ++ spaced (instr_words i e)) B ltac:(lia)) as (f' & L' & E). exists f'. split. { rewrite app_length. lia. }
    rewrite E. destruct (instr_words i e ++ w) as [|y l] eqn:G. { apply app_eq_nil in G. destruct G as [G _]. now apply words_nonempty in G. }
    rewrite <- G. destruct w as [|x w].
    + now rewrite app_nil_r.
    + rewrite (spaced_app (instr_words i e)) by (try discriminate; apply words_nonempty). cbn [sep]. now rewrite <- !app_assoc.
Qed.

Lemma run_all : forall s w rest, script_words s w -> bytes_ok s ->
  exists f, (List.length rest < f)%nat /\ script_display (s ++ rest) = script_fmt f rest (match w with [] => false | _ => true end) (spaced w).
Proof.
  intros s w rest W OK. unfold script_display. destruct (fmt_run s w W (S (List.length (s ++ rest))) rest false [] OK) as (f & L & E). { rewrite app_length. lia. }
  exists f. rewrite app_length in L. split; [lia|]. rewrite E. destruct w; reflexivity.
Qed.
Lemma display_words : forall s w, script_words s w -> bytes_ok s -> script_display s = Ret (spaced w).
Proof.
  intros s w W OK. destruct (run_all s w [] W OK) as (f & L & E). rewrite app_nil_r in E. rewrite E. destruct f as [|f]; [cbn in L; lia|]. reflexivity.
Qed.
Lemma read_len_none : forall r n, lenN r < n -> read_push_data_len r n = None.
Proof. intros r n L. unfold read_push_data_len. destruct (lenN r <? n) eqn:E; auto. lia. Qed.
Lemma read_len_some : forall a r n, lenN a = n -> read_push_data_len (a ++ r) n = Some (le_val a, r).
Proof.
  intros a r n L. unfold read_push_data_len. destruct (lenN (a ++ r) <? n) eqn:E. { apply N.ltb_lt in E. rewrite lenN_app in E. lia. }
  unfold lenN in L. rewrite firstn_app, skipn_app. rewrite firstn_all2, skipn_all2 by lia. replace (N.to_nat n - List.length a)%nat with 0%nat by lia.
  cbn [firstn skipn app]. now rewrite app_nil_r.
Qed.
Lemma fmt_cut : forall f s k w, cut s k -> bytes_ok s -> script_fmt (S f) s (match w with [] => false | _ => true end) (spaced w) = Ret (cut_text k w s).
Proof.
  intros f s k w C OK.
  assert (OPT : forall op, op < 256 -> (((if match w with [] => false | _ => true end then spaced w ++ lit " " else spaced w) ++ fmt_opcode op) ++ lit " ") ++ lit "<push past end>" =
      spaced (w ++ [opcode_name op; lit "<push past end>"])).
  { intros op L. rewrite fmt_name by auto. destruct w as [|x w].
    - cbn [spaced app]. now rewrite <- !app_assoc.
    - rewrite (spaced_app (x :: w)) by discriminate. cbn [spaced]. now rewrite <- !app_assoc. }
  destruct C as [op n r LS L|op r L1 L2|op n a r LS LA L]; cbn [script_fmt cut_text hd].
  - destruct LS as [[-> ->]|[[-> ->]|[-> ->]]].
    + change (76 <=? 75) with false. change (76 =? OP_PUSHDATA1) with true. cbv iota. now rewrite read_len_none.
    + change (77 <=? 75) with false. change (77 =? OP_PUSHDATA1) with false. change (77 =? OP_PUSHDATA2) with true. cbv iota. now rewrite read_len_none.
    + change (78 <=? 75) with false. change (78 =? OP_PUSHDATA1) with false. change (78 =? OP_PUSHDATA2) with false. change (78 =? OP_PUSHDATA4) with true. cbv iota. now rewrite read_len_none.
  - destruct (op <=? 75) eqn:E; [|lia]. destruct (0 <? op) eqn:E2; [|lia]. destruct (op <=? lenN r) eqn:E3; [lia|]. rewrite OPT by lia. reflexivity.
  - assert (T : (0 <? le_val a) = true) by (apply N.ltb_lt; lia). assert (T2 : (le_val a <=? lenN r) = false) by (apply N.leb_gt; lia).
    destruct LS as [[-> ->]|[[-> ->]|[-> ->]]].
    + change (76 <=? 75) with false. change (76 =? OP_PUSHDATA1) with true. cbv iota. rewrite read_len_some by auto. rewrite T, T2, OPT by lia. reflexivity.
    + change (77 <=? 75) with false. change (77 =? OP_PUSHDATA1) with false. change (77 =? OP_PUSHDATA2) with true. cbv iota. rewrite read_len_some by auto. rewrite T, T2, OPT by lia. reflexivity.
    + change (78 <=? 75) with false. change (78 =? OP_PUSHDATA1) with false. change (78 =? OP_PUSHDATA2) with false. change (78 =? OP_PUSHDATA4) with true. cbv iota. rewrite read_len_some by auto. rewrite T, T2, OPT by lia. reflexivity.
Qed.
Lemma display_cut : forall s w t k, script_words s w -> cut t k -> bytes_ok (s ++ t) -> script_display (s ++ t) = Ret (cut_text k w t).
Proof.
  intros s w t k W C OK. apply Forall_app in OK as [A B]. destruct (run_all s w t W A) as (f & L & E). rewrite E. destruct f as [|f]; [lia|]. now apply fmt_cut.
Qed.

(** every script is a whole number of instructions, possibly followed by one cut off *)
Lemma split_take : forall (r : bytes) n, n <= lenN r -> exists d r', r = d ++ r' /\ lenN d = n.
Proof. intros r n L. exists (takeN n r), (dropN n r). split; [now rewrite takeN_dropN|]. rewrite lenN_takeN. lia. Qed.
Lemma len_le_val : forall a n, bytes_ok a -> lenN a = N.of_nat n -> le_bytes n (le_val a) = a.
Proof. intros a n OK L. replace n with (List.length a) by (unfold lenN in L; lia). now apply le_bytes_val. Qed.
Lemma step_cases : forall s, s <> [] -> bytes_ok s -> (exists i e r, s = e ++ r /\ encodes i e) \/ (exists k, cut s k).
Proof.
  intros [|op s] NE OK; [congruence|]. clear NE. assert (B : op < 256) by (apply Forall_inv in OK; exact OK). apply Forall_inv_tail in OK.
  destruct (N.leb_spec op 75) as [L|L].
  { destruct (N.leb_spec op (lenN s)) as [L2|L2]; [|right; exists InData; now constructor 2].
    destruct (split_take s op L2) as (d & r & -> & LD). left. exists (PushBytes d), (op :: d), r. split; auto. rewrite <- LD. constructor. lia. }
  destruct (N.leb_spec 79 op) as [L79|L79]. { left. exists (Op op), [op], s. split; auto. constructor. lia. }
  assert (G : forall (n : nat), length_size op (N.of_nat n) -> (forall d, lenN d < 256 ^ N.of_nat n -> encodes (PushBytes d) (op :: le_bytes n (lenN d) ++ d)) ->
     (exists i e r, op :: s = e ++ r /\ encodes i e) \/ (exists k, cut (op :: s) k)).
  { intros n LS EN. destruct (N.leb_spec (N.of_nat n) (lenN s)) as [L2|L2]; [|right; exists InLength; econstructor; eauto].
    destruct (split_take s (N.of_nat n) L2) as (a & r & -> & LA). apply Forall_app in OK as [OA OR].
    destruct (N.leb_spec (le_val a) (lenN r)) as [L3|L3]; [|right; exists InData; econstructor 3; eauto].
    destruct (split_take r _ L3) as (d & r' & -> & LD). left. exists (PushBytes d), (op :: le_bytes n (lenN d) ++ d), r'.
    split. { rewrite LD, (len_le_val a n) by auto. cbn [app]. now rewrite <- app_assoc. }
    apply EN. rewrite LD, <- LA. now apply le_val_lt. }
  assert (O3 : op = 76 \/ op = 77 \/ op = 78) by lia. destruct O3 as [->|[->| ->]].
  - apply (G 1%nat). { left. auto. } intros d L1. now constructor.
  - apply (G 2%nat). { right; left. auto. } intros d L1. now constructor.
  - apply (G 4%nat). { right; right. auto. } intros d L1. now constructor.
Qed.
Lemma split_script : forall s, bytes_ok s -> exists a w t, s = a ++ t /\ script_words a w /\ (t = [] \/ exists k, cut t k).
Proof.
  intros s. remember (List.length s) as n. revert s Heqn. induction n as [n IH] using lt_wf_ind. intros s -> OK.
  destruct s as [|x s]. { exists [], [], []. split; auto. split; [constructor|now left]. }
  destruct (step_cases (x :: s)) as [(i & e & r & E & H)|(k & C)]; auto; [discriminate| |].
  - rewrite E in *. apply Forall_app in OK as [A B]. assert (1 <= List.length e)%nat. { destruct H; cbn [List.length]; lia. }
    destruct (IH (List.length r)) with (s := r) as (a & w & t & -> & W & T); auto. { rewrite app_length. lia. }
    exists (e ++ a), (instr_words i e ++ w), t. split; [now rewrite app_assoc|]. split; auto. now constructor.
  - exists [], [], (x :: s). split; auto. split; [constructor|]. right. eauto.
Qed.
Lemma spaced_chars : forall w, Forall word w -> ~ In 60 (spaced w).
Proof.
  induction w as [|x w IH]; intros F I; [destruct I|]. pose proof (Forall_inv F) as [_ X]. apply Forall_inv_tail in F. rewrite Forall_forall in X.
  destruct w as [|y w]. { cbn [spaced] in I. now apply X in I. }
  rewrite spaced_cons in I by discriminate. apply in_app_iff in I as [I|I]; [now apply X in I|]. apply in_app_iff in I as [I|I]; [|now apply IH].
  destruct I as [I|[]]. discriminate.
Qed.
Lemma cut_chars : forall k w s, In 60 (cut_text k w s).
Proof.
  intros k w s. destruct k; cbn [cut_text].
  - apply in_app_iff. right. now left.
  - destruct w as [|x w]; [|rewrite (spaced_app (x :: w)) by discriminate; apply in_app_iff; right; apply in_app_iff; right].
    all: cbn [app spaced]; apply in_app_iff; right; apply in_app_iff; right; now left.
Qed.
