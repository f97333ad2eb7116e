From Coq Require Import String.
From Verif Require Import Base MDec MWitness MText SText LText MTx MScript MMerkle MU256 MPow SSha2 MNetwork SNetwork.
From Verif Require LWire LAmountText MP2p LP2p10.
Local Open Scope N_scope.

Lemma seqb : forall a b, str_eqb a b = true <-> a = b.
Proof. exact LAmountText.str_eqb_eq. Qed.
Lemma core_arg_back : forall n, from_core_arg (to_core_arg n) = Ok n.
Proof. destruct n; vm_compute; reflexivity. Qed.
Lemma display_back : forall n, net_from_str (net_display n) = Ok n.
Proof. destruct n; vm_compute; reflexivity. Qed.
Lemma core_arg_ok : forall s, match from_core_arg s with Ok n => s = core_name n | Err e => e = s /\ forall n, s <> core_name n end.
Proof.
  intro s. unfold from_core_arg.
  destruct (str_eqb s (lit "main")) eqn:E1; [now apply seqb in E1|].
  destruct (str_eqb s (lit "test")) eqn:E2; [now apply seqb in E2|].
  destruct (str_eqb s (lit "testnet4")) eqn:E3; [now apply seqb in E3|].
  destruct (str_eqb s (lit "signet")) eqn:E4; [now apply seqb in E4|].
  destruct (str_eqb s (lit "regtest")) eqn:E5; [now apply seqb in E5|].
  split; auto. intros n ->. destruct n; unfold core_name in *;
    match goal with H : str_eqb ?x ?x = false |- _ => rewrite (proj2 (seqb x x) eq_refl) in H; discriminate end.
Qed.
Lemma display_ok : forall s, match net_from_str s with Ok n => s = own_name n | Err e => e = s /\ forall n, s <> own_name n end.
Proof.
  intro s. unfold net_from_str.
  destruct (str_eqb s (lit "bitcoin")) eqn:E1; [now apply seqb in E1|].
  destruct (str_eqb s (lit "testnet")) eqn:E2; [now apply seqb in E2|].
  destruct (str_eqb s (lit "testnet4")) eqn:E3; [now apply seqb in E3|].
  destruct (str_eqb s (lit "signet")) eqn:E4; [now apply seqb in E4|].
  destruct (str_eqb s (lit "regtest")) eqn:E5; [now apply seqb in E5|].
  split; auto. intros n ->. destruct n; unfold own_name in *;
    match goal with H : str_eqb ?x ?x = false |- _ => rewrite (proj2 (seqb x x) eq_refl) in H; discriminate end.
Qed.
Lemma magic_ok : forall m, match net_of_magic m with Ok n => m = magic_of n | Err e => e = m /\ forall n, m <> magic_of n end.
Proof.
  intro s. unfold net_of_magic.
  destruct (beqb s MAGIC_BITCOIN) eqn:E1; [now apply LWire.beqb_eq in E1|].
  destruct (beqb s MAGIC_TESTNET3) eqn:E2; [now apply LWire.beqb_eq in E2|].
  destruct (beqb s MAGIC_TESTNET4) eqn:E3; [now apply LWire.beqb_eq in E3|].
  destruct (beqb s MAGIC_SIGNET) eqn:E4; [now apply LWire.beqb_eq in E4|].
  destruct (beqb s MAGIC_REGTEST) eqn:E5; [now apply LWire.beqb_eq in E5|].
  split; auto. intros n ->. destruct n; unfold magic_of in *;
    match goal with H : beqb ?x ?x = false |- _ => rewrite (proj2 (LWire.beqb_eq x x) eq_refl) in H; discriminate end.
Qed.
Lemma chain_ok : forall m, match net_of_chain_hash m with Ok n => m = chain_hash n | Err e => e = m /\ forall n, m <> chain_hash n end.
Proof.
  intro s. unfold net_of_chain_hash.
  destruct (beqb s CHAIN_BITCOIN) eqn:E1; [now apply LWire.beqb_eq in E1|].
  destruct (beqb s CHAIN_TESTNET3) eqn:E2; [now apply LWire.beqb_eq in E2|].
  destruct (beqb s CHAIN_TESTNET4) eqn:E3; [now apply LWire.beqb_eq in E3|].
  destruct (beqb s CHAIN_SIGNET) eqn:E4; [now apply LWire.beqb_eq in E4|].
  destruct (beqb s CHAIN_REGTEST) eqn:E5; [now apply LWire.beqb_eq in E5|].
  split; auto. intros n ->. destruct n; unfold chain_hash in *;
    match goal with H : beqb ?x ?x = false |- _ => rewrite (proj2 (LWire.beqb_eq x x) eq_refl) in H; discriminate end.
Qed.

(** Genesis: the two coinbase transactions and the five headers, hashed once each. *)
Definition g_tx (n : network) : transaction := match genesis_tx n with Ret t => t | Panic => {| tx_version := 0; tx_lock_time := 0; tx_inputs := []; tx_outputs := [] |} end.
Definition g_root (n : network) : bytes := Eval vm_compute in
  match n with
  | Testnet4 => match compute_merkle_root SHA256d [g_tx Testnet4] with Ret (Some r) => r | _ => [] end
  | _ => match compute_merkle_root SHA256d [g_tx Bitcoin] with Ret (Some r) => r | _ => [] end
  end.
Definition g_header (n : network) : header :=
  let '(time, bits, nonce) := genesis_numbers n in
  {| h_version := 1; h_prev := repeat 0 32; h_merkle := g_root n; h_time := time; h_bits := bits; h_nonce := nonce |}.
Lemma g_tx_ok : forall n, genesis_tx n = Ret (g_tx n).
Proof. destruct n; vm_compute; reflexivity. Qed.
Lemma root_main : compute_merkle_root SHA256d [g_tx Bitcoin] = Ret (Some (g_root Bitcoin)).
Proof. vm_compute. reflexivity. Qed.
Lemma root_test4 : compute_merkle_root SHA256d [g_tx Testnet4] = Ret (Some (g_root Testnet4)).
Proof. vm_compute. reflexivity. Qed.
Lemma g_tx_same : forall n, n <> Testnet4 -> g_tx n = g_tx Bitcoin.
Proof. destruct n; try reflexivity. congruence. Qed.
Lemma root_all : forall n, compute_merkle_root SHA256d [g_tx n] = Ret (Some (g_root n)).
Proof.
  intro n. destruct n.
  - exact root_main.
  - rewrite g_tx_same by congruence. exact root_main.
  - exact root_test4.
  - rewrite g_tx_same by congruence. exact root_main.
  - rewrite g_tx_same by congruence. exact root_main.
Qed.
Lemma wroot_all : forall H n, compute_witness_root H [g_tx n] = Ret (Some (repeat 0 32)).
Proof. intros. reflexivity. Qed.
Lemma genesis_all : forall n, genesis_block SHA256d n = Ret ({| b_header := g_header n; b_txs := [g_tx n] |}, Some (repeat 0 32)).
Proof.
  intro n. unfold genesis_block. rewrite g_tx_ok. cbn [rbind]. rewrite root_all. cbn [rbind]. rewrite wroot_all. cbn [rbind].
  unfold g_header. destruct (genesis_numbers n) as [[t b] c]. reflexivity.
Qed.
Lemma hash_all : forall n, header_block_hash SHA256d (g_header n) = chain_hash n.
Proof. destruct n; vm_compute; reflexivity. Qed.
Lemma validate_all : forall n, validate SHA256d {| b_header := g_header n; b_txs := [g_tx n] |} = Ret (Ok ({| b_header := g_header n; b_txs := [g_tx n] |}, None)).
Proof.
  intro n. unfold validate. cbn [b_txs]. assert (is_coinbase (g_tx n) = true) as -> by (destruct n; vm_compute; reflexivity). cbn [negb].
  unfold check_merkle_root. cbn [b_txs b_header]. rewrite root_all. cbn [rbind].
  assert (h_merkle (g_header n) = g_root n) as -> by (destruct n; reflexivity).
  rewrite (proj2 (LWire.beqb_eq _ _) eq_refl). cbn [negb].
  assert (check_witness_commitment SHA256d [g_tx n] = Ret (true, None)) as ->; [|reflexivity].
  destruct n; vm_compute; reflexivity.
Qed.

(** Service flags. *)
Definition isnil {A} (l : list A) : bool := match l with [] => true | _ => false end.
Lemma bars_snoc : forall l x, with_bars (l ++ [x]) = with_bars l ++ (if isnil l then [] else lit "|") ++ x.
Proof.
  induction l as [|a l IH]; intro x; [reflexivity|]. cbn [isnil]. destruct l as [|b l]; [cbn; now rewrite ?app_nil_r|].
  change ((a :: b :: l) ++ [x]) with (a :: (b :: l) ++ [x]).
  assert (W : forall y m, with_bars (y :: m ++ [x]) = y ++ lit "|" ++ with_bars (m ++ [x])) by (intros y m; destruct m; reflexivity).
  rewrite W, IH. cbn [isnil]. cbn [with_bars]. now rewrite <- !app_assoc.
Qed.
Lemma has_bit : forall f i, MP2p.sf_has f (2 ^ i) = N.testbit f i.
Proof.
  intros f i. unfold MP2p.sf_has. destruct (N.testbit f i) eqn:T.
  - apply N.eqb_eq. apply N.bits_inj. intro k. rewrite N.lor_spec, N.pow2_bits_eqb.
    destruct (N.eqb_spec i k) as [<-|]; [now rewrite T|apply orb_false_r].
  - apply N.eqb_neq. intro E. apply (f_equal (fun x => N.testbit x i)) in E. rewrite N.lor_spec, N.pow2_bits_true, T in E. discriminate.
Qed.
Lemma remove_ldiff : forall f g, f < 2 ^ 64 -> MP2p.sf_remove f g = N.ldiff f g.
Proof.
  intros f g L. apply N.bits_inj. intro k. unfold MP2p.sf_remove. rewrite N.land_spec, N.lxor_spec, N.ldiff_spec.
  destruct (N.lt_ge_cases k 64) as [K|K].
  - change MP2p.U64m with (N.ones 64). rewrite N.ones_spec_low by auto. now rewrite xorb_true_r.
  - assert (N.testbit f k = false) as ->; [|reflexivity].
    destruct (N.eq_dec f 0) as [->|Z]; [apply N.bits_0|]. apply N.bits_above_log2. apply N.log2_lt_pow2; [lia|].
    eapply N.lt_le_trans; [exact L|]. now apply N.pow_le_mono_r.
Qed.
Definition rep (P : str) (l : list str) (f : N) : bool * N * str := (isnil l, f, P ++ with_bars l).
Lemma write_flag : forall P l f i name, f < 2 ^ 64 ->
  sf_write_flag name (2 ^ i) (rep P l f) = rep P (l ++ if N.testbit f i then [name] else []) (N.ldiff f (2 ^ i)).
Proof.
  intros P l f i name L. unfold sf_write_flag, rep. rewrite has_bit. destruct (N.testbit f i) eqn:T.
  - rewrite remove_ldiff by auto. rewrite bars_snoc, <- !app_assoc. destruct l; reflexivity.
  - rewrite app_nil_r. f_equal. f_equal. apply N.bits_inj. intro k. rewrite N.ldiff_spec, N.pow2_bits_eqb.
    destruct (N.eqb_spec i k) as [<-|]; [now rewrite T|now rewrite andb_true_r].
Qed.
Lemma ldiff_lt : forall f g, f < 2 ^ 64 -> N.ldiff f g < 2 ^ 64.
Proof. intros f g L. apply N.le_lt_trans with f; auto. apply N.ldiff_le. apply N.bits_inj. intro k. rewrite !N.ldiff_spec, N.bits_0. destruct (N.testbit f k), (N.testbit g k); reflexivity. Qed.
Lemma ldiff_bit : forall f i k, i <> k -> N.testbit (N.ldiff f (2 ^ i)) k = N.testbit f k.
Proof. intros f i k E. rewrite N.ldiff_spec, N.pow2_bits_false by auto. apply andb_true_r. Qed.
Lemma ldiff_ldiff : forall f a b, N.ldiff (N.ldiff f a) b = N.ldiff f (N.lor a b).
Proof. intros. apply N.bits_inj. intro k. rewrite !N.ldiff_spec, N.lor_spec. destruct (N.testbit f k), (N.testbit a k), (N.testbit b k); reflexivity. Qed.
Lemma filter_cons : forall {A} (p : A -> bool) x l, filter p (x :: l) = (if p x then [x] else []) ++ filter p l.
Proof. intros. cbn [filter]. destruct (p x); reflexivity. Qed.
Lemma map_if : forall f i (name : str), map snd (if N.testbit f i then [(i, name)] else []) = if N.testbit f i then [name] else [].
Proof. intros. destruct (N.testbit f i); reflexivity. Qed.
Lemma sf_display_spec : forall f, f < 2 ^ 64 -> sf_display f = services_text f (N.ldiff f 3151) (fmt_x false (N.ldiff f 3151)).
Proof.
  intros f L. unfold sf_display, services_text. destruct (N.eqb_spec f 0) as [->|NZ]; [reflexivity|].
  change (true, f, lit "ServiceFlags(") with (rep (lit "ServiceFlags(") [] f).
  assert (W : forall P l f name i v, v = 2 ^ i -> f < 2 ^ 64 ->
    sf_write_flag name v (rep P l f) = rep P (l ++ if N.testbit f i then [name] else []) (N.ldiff f v)).
  { intros P l g name i v -> G. now apply write_flag. }
  cbv zeta.
  rewrite (W _ _ _ _ 0 1 eq_refl) by auto.
  rewrite (W _ _ _ _ 1 2 eq_refl) by now repeat apply ldiff_lt.
  rewrite (W _ _ _ _ 2 4 eq_refl) by now repeat apply ldiff_lt.
  rewrite (W _ _ _ _ 3 8 eq_refl) by now repeat apply ldiff_lt.
  rewrite (W _ _ _ _ 6 64 eq_refl) by now repeat apply ldiff_lt.
  rewrite (W _ _ _ _ 10 1024 eq_refl) by now repeat apply ldiff_lt.
  rewrite (W _ _ _ _ 11 2048 eq_refl) by now repeat apply ldiff_lt.
  assert (B : forall g v i k, v = 2 ^ i -> i <> k -> N.testbit (N.ldiff g v) k = N.testbit g k) by (intros g v i k -> E; now apply ldiff_bit).
  rewrite !(B _ 1024 10), !(B _ 64 6), !(B _ 8 3), !(B _ 4 2), !(B _ 2 1), !(B _ 1 0) by (reflexivity || discriminate).
  rewrite !ldiff_ldiff. change (N.lor 1 (N.lor 2 (N.lor 4 (N.lor 8 (N.lor 64 (N.lor 1024 2048)))))) with 3151.
  unfold service_names. rewrite !filter_cons, !map_app. cbn [fst]. rewrite !map_if. cbn [filter map]. rewrite app_nil_r.
  cbn [app]. unfold rep.
  match goal with |- context [isnil ?L] => set (l := L); assert (EL : l = L) by reflexivity end.
  rewrite <- !app_assoc in EL. rewrite <- EL. clear EL.
  destruct (N.ldiff f 3151 =? 0); [now rewrite app_nil_r, <- app_assoc|].
  rewrite bars_snoc. rewrite <- !app_assoc. destruct l; reflexivity.
Qed.
