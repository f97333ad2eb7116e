(** Reading taproot trees and witnesses: no panic, and what is read *)
From Verif Require Import Base MDec MText MWitness MTx MKey LKey LSig MTaproot MHex SText LText LHex LDec LCodec LBuilt SWire SWitness SWitness2 LWitness LWitness2 STaproot MSerde SSerde LSerde.
From Coq Require Import Lia String.
Local Open Scope N_scope.
Notation flat := MSerde.flat.

Definition ends_some (b : builder) : Prop := b = [] \/ exists b0 n, b = b0 ++ [Some n].
Lemma vec_pop_len : forall A (b b' : list A) x, vec_pop b = Some (b', x) -> b = b' ++ [x].
Proof. intros A b b' x E. unfold vec_pop in E. rewrite <- (rev_involutive b). destruct (rev b) as [|y r]; [discriminate|]. assert (b' = rev r /\ x = y) as [-> ->] by (split; congruence). reflexivity. Qed.
Lemma insert_loop_safe : forall H fuel b node depth, (N.to_nat depth < fuel)%nat -> lenN b <= depth + 1 ->
  insert_loop H fuel b node depth <> Panic /\ forall b', insert_loop H fuel b node depth = Ret (Ok b') -> exists b0 n, b' = b0 ++ [Some n].
Proof.
  intro H. induction fuel as [|fuel IH]; intros b node depth F L; [lia|]. cbn [insert_loop].
  assert (FIN : forall b, lenN b <= depth + 1 -> forall r : rust (result builder builder_err), r = (let b := if lenN b <? depth + 1 then b ++ repeat None (N.to_nat (depth + 1 - lenN b)) else b in
      if depth <? lenN b then Ret (Ok (takeN depth b ++ Some node :: dropN (depth + 1) b)) else Panic) -> r <> Panic /\ forall b', r = Ret (Ok b') -> exists b0 n, b' = b0 ++ [@Some node_info n]).
  { clear. intros b L r ->. cbv zeta. remember (if lenN b <? depth + 1 then b ++ repeat None (N.to_nat (depth + 1 - lenN b)) else b) as c eqn:C.
    assert (LC : lenN c = depth + 1). { subst c. destruct (N.ltb_spec (lenN b) (depth + 1)); [|lia]. rewrite lenN_app. unfold lenN at 2. rewrite repeat_length, N2Nat.id. lia. }
    destruct (N.ltb_spec depth (lenN c)); [|lia]. split; [discriminate|]. intros b' E. assert (b' = takeN depth c ++ Some node :: dropN (depth + 1) c) as -> by congruence.
    assert (dropN (depth + 1) c = []) as ->. { rewrite <- LC. unfold dropN, lenN. rewrite Nat2N.id. apply skipn_all. }
    eauto. }
  destruct (N.eqb_spec (lenN b) (depth + 1)) as [E|E].
  - destruct (vec_pop b) as [[b' [child|]]|] eqn:P.
    + apply vec_pop_len in P. subst b. rewrite lenN_app in E. change (lenN [Some child]) with 1 in E. destruct (N.eqb_spec depth 0); [split; discriminate|].
      destruct (combine H node child) as [n'|e]; [|split; discriminate]. apply IH; lia.
    + apply vec_pop_len in P. subst b. apply (FIN (b' ++ [None]) L _ eq_refl).
    + unfold vec_pop in P. destruct (rev b) eqn:R; [|discriminate]. assert (b = []) by (rewrite <- (rev_involutive b), R; reflexivity). subst b. unfold lenN in E. cbn in E. lia.
  - apply (FIN b L _ eq_refl).
Qed.
Lemma visit_safe : forall H items b, ends_some b -> visit H b items <> Panic.
Proof.
  intros H. induction items as [|[d l] items IH]; intros b EB; cbn [visit].
  - destruct b as [|[n|] [|]]; try discriminate. destruct EB as [EB|(b0 & n & EB)]; [discriminate|]. destruct b0 as [|y [|]]; discriminate.
  - destruct (256 <=? d); [discriminate|].
    assert (G : forall node, insert H b node d <> Panic /\ forall b', insert H b node d = Ret (Ok b') -> ends_some b').
    { intro node. unfold insert. destruct (MAX_NODE_COUNT <? d); [split; discriminate|]. destruct (N.ltb_spec (d + 1) (lenN b)) as [|L]; [split; discriminate|].
      destruct (insert_loop_safe H (N.to_nat d + 1) b node d ltac:(lia) L) as [A B]. split; [exact A|]. intros b' E. right. now apply B. }
    destruct l as [s v|h]; unfold add_leaf_with_ver, add_hidden_node.
    + destruct (G (new_leaf H s v)) as [A B]. destruct (insert H b (new_leaf H s v) d) as [[b'|e]|]; [|discriminate|congruence]. apply IH. now apply B.
    + destruct (G (new_hidden_node h)) as [A B]. destruct (insert H b (new_hidden_node h) d) as [[b'|e]|]; [|discriminate|congruence]. apply IH. now apply B.
Qed.
Lemma lv_safe : forall n, lv_from_consensus n <> Panic.
Proof. intro n. unfold lv_from_consensus, future_from_consensus. destruct (n =? LEAF_TAPSCRIPT) eqn:E; [discriminate|]. destruct (n =? ANNEX_PREFIX); [discriminate|]. destruct (negb _); discriminate. Qed.
Lemma r_ok_safe : forall A E (r : rust (result A E)), r <> Panic -> r_ok r <> Panic.
Proof. intros A E [x|] H; [discriminate|congruence]. Qed.
Lemma leaf_version_safe : safe de_leaf_version.
Proof. apply uint_safe. intro n. apply r_ok_safe. apply lv_safe. Qed.
Lemma hash_safe : forall len bw human, safe (de_hash len bw human).
Proof. intros len bw []; [apply str_safe; discriminate|]. apply bytes_safe. intro s. destruct (_ =? _); discriminate. Qed.
Lemma script_safe : forall human, safe (de_script human).
Proof. intros []; [apply str_safe; discriminate|apply bytes_safe; discriminate]. Qed.
Lemma tap_leaf_safe : forall human, safe (de_tap_leaf human).
Proof. intro human. apply enum_safe; [apply script_safe|apply leaf_version_safe|apply hash_safe]. Qed.
Lemma node_safe : forall H human, safe (de_node H human) /\ safe (de_tap_tree H human).
Proof.
  intros H human. split; (apply pairs_safe; [apply uint_safe; discriminate|apply tap_leaf_safe|]); intro l.
  - apply r_ok_safe. apply visit_safe. now left.
  - apply obind_safe; [apply r_ok_safe; apply visit_safe; now left|]. discriminate.
Qed.
Lemma outpoint_safe : forall human, safe (de_outpoint human).
Proof. intros []; [apply str_safe; discriminate|]. apply struct_safe; [apply hash_safe|apply uint_safe; discriminate|apply arr_safe; discriminate|apply arr_safe; discriminate]. Qed.

(** *** reading back *)
Lemma hash_restores : forall len bw human h, bytes_ok h -> lenN h = len -> len < 2 ^ 62 -> restores (de_hash len bw human) (ser_hash bw human h) h.
Proof.
  intros len bw [] h B L S; cbn [de_hash ser_hash].
  - assert (B' : bytes_ok (if bw then rev h else h)) by (destruct bw; [apply Forall_rev|]; exact B).
    assert (L' : lenN (if bw then rev h else h) = len) by (destruct bw; [unfold lenN; rewrite rev_length|]; exact L).
    apply str_restores.
    + now apply hex_ascii.
    + unfold hash_display. rewrite hex_bytes_len. change bytes with (list N) in *. rewrite L'. change (2 ^ 64) with (2 ^ 62 * 4). lia.
    + unfold some. f_equal. assert (X : hash_from_str len bw (hash_display bw false h) = Ok h); [|now rewrite X]. apply hash_from_str_ok. split; [exact L|]. now apply hex_bytes_of.
  - apply bytes_restores; [rewrite L; change (2 ^ 64) with (2 ^ 62 * 4); lia|]. rewrite L, N.eqb_refl. reflexivity.
Qed.
Lemma script_restores : forall human s, bytes_ok s -> lenN s < 2 ^ 62 -> restores (de_script human) (ser_script human s) s.
Proof.
  intros [] s B L; cbn [de_script ser_script].
  - apply str_restores; [now apply hex_ascii|rewrite hex_bytes_len; change (2 ^ 64) with (2 ^ 62 * 4); lia|]. unfold some. assert (X : decode_to_vec (hex_bytes false s) = Ok s) by (apply vec_spec; now apply hex_bytes_of). now rewrite X.
  - apply bytes_restores; [change (2 ^ 64) with (2 ^ 62 * 4); lia|reflexivity].
Qed.
Lemma lv_back : forall v, version_ok v -> lv_from_consensus (lv_to_consensus v) = Ret (Ok v) /\ lv_to_consensus v < 256.
Proof.
  intros [|f] V; [split; reflexivity|]. destruct V as (V1 & V2 & V3 & V4). cbn [lv_to_consensus]. split; [|exact V1]. unfold lv_from_consensus, future_from_consensus, LEAF_TAPSCRIPT, ANNEX_PREFIX.
  destruct (N.eqb_spec f 0xc0); [lia|]. destruct (N.eqb_spec f 0x50); [lia|].
  assert (X : N.land f 0xFE =? f = true). { apply N.eqb_eq. apply N.bits_inj. intro i. rewrite N.land_spec. destruct (N.eqb_spec i 0) as [->|].
    - rewrite N.bit0_odd. replace (N.odd f) with false; [reflexivity|]. symmetry. rewrite <- N.negb_even. apply Bool.negb_false_iff. apply N.even_spec. exists (f / 2). lia.
    - destruct (N.ltb_spec i 8).
      + assert (T : N.testbit 0xFE i = true) by (assert (i = 1 \/ i = 2 \/ i = 3 \/ i = 4 \/ i = 5 \/ i = 6 \/ i = 7) as [->|[->|[->|[->|[->|[->| ->]]]]]] by lia; reflexivity). now rewrite T, Bool.andb_true_r.
      + assert (T : N.testbit f i = false); [|now rewrite T]. apply N.bits_above_log2. destruct (N.eqb_spec f 0) as [->|]; [cbn; lia|]. apply N.log2_lt_pow2; [lia|]. assert (2 ^ 8 <= 2 ^ i) by (apply N.pow_le_mono_r; lia). change (2 ^ 8) with 256 in *. lia. }
  rewrite X. reflexivity.
Qed.
Lemma leaf_version_restores : forall v, version_ok v -> restores de_leaf_version (ser_leaf_version v) v.
Proof.
  intros v V. destruct (lv_back v V) as [E L]. unfold restores. apply uint_restores; [now left|exact L|]. unfold r_ok. rewrite E. reflexivity.
Qed.
Lemma enum1_restores : forall X Y Z A n1 (r1 : req X) (r2 : req Y) n2 (r3 : req Z) (k1 : X -> Y -> A) k2 v w x y, str_eqb n1 n1 = true ->
  restores r1 v x -> restores r2 w y -> restores (REnum2 n1 r1 r2 n2 r3 k1 k2) (SvVariant 0 n1 [v; w]) (k1 x y).
Proof.
  intros X Y Z A n1 r1 r2 n2 r3 k1 k2 v w x y N1 [S1 C1] [S2 C2]. split.
  - intro t. cbn [self]. rewrite N1, S1. cbn [obind]. rewrite S2. reflexivity.
  - intro rest. cbn [compact flat flat_map]. rewrite app_nil_r, <- app_assoc. unfold rd_uint. rewrite take_exact by reflexivity. cbn [obind some]. change (le_val (le_bytes 4 0) =? 0) with true. cbv iota.
    rewrite <- app_assoc, C1. cbn [obind]. rewrite C2. reflexivity.
Qed.
Lemma enum2_restores : forall X Y Z A n1 (r1 : req X) (r2 : req Y) n2 (r3 : req Z) (k1 : X -> Y -> A) k2 v x, str_eqb n2 n1 = false -> str_eqb n2 n2 = true ->
  restores r3 v x -> restores (REnum2 n1 r1 r2 n2 r3 k1 k2) (SvVariant 1 n2 [v]) (k2 x).
Proof.
  intros X Y Z A n1 r1 r2 n2 r3 k1 k2 v x N1 N2 [S1 C1]. split.
  - intro t. cbn [self]. rewrite N1, N2, S1. reflexivity.
  - intro rest. cbn [compact flat flat_map]. rewrite app_nil_r, <- app_assoc. unfold rd_uint. rewrite take_exact by reflexivity. cbn [obind some]. change (le_val (le_bytes 4 1) =? 0) with false. change (le_val (le_bytes 4 1) =? 1) with true. cbv iota.
    rewrite C1. reflexivity.
Qed.
Lemma tap_leaf_restores : forall human l, leaf_ok l -> leaf_bytes l -> restores (de_tap_leaf human) (ser_tap_leaf human l) l.
Proof.
  intros human [s v|h] O B; cbn [ser_tap_leaf]; unfold de_tap_leaf.
  - apply enum1_restores; [reflexivity|apply script_restores; apply B|apply leaf_version_restores; apply O].
  - apply enum2_restores; [reflexivity|reflexivity|]. destruct O as [O1 O2]. apply hash_restores; [exact O2|exact O1|reflexivity].
Qed.
Lemma pairs_self : forall X Y A (r1 : req X) (r2 : req Y) (k : list (X * Y) -> outcome A) (f : X -> sval) (g : Y -> sval) l a,
  Forall (fun p => reads_self r1 (f (fst p)) (fst p) /\ reads_self r2 (g (snd p)) (snd p)) l -> k l = some a ->
  reads_self (RPairs r1 r2 k) (SvSeq (flat_map (fun '(x, y) => [f x; g y]) l)) a.
Proof.
  intros X Y A r1 r2 k f g l a F K t. cbn [self]. assert (R : read_pairs (self t r1) (self t r2) (flat_map (fun '(x, y) => [f x; g y]) l) = some l).
  { clear K. induction F as [|[x y] l [P1 P2] F IH]; [reflexivity|]. cbn [flat_map app read_pairs fst snd] in *. rewrite P1. cbn [obind]. rewrite P2. cbn [obind]. rewrite IH. reflexivity. }
  rewrite R. exact K.
Qed.
