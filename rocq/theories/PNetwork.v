(** C51: networks, their names, magic bytes, ports, chain hashes and genesis blocks, and the text of service flags. *)
From Coq Require Import String.
From Verif Require Import Base MDec MWitness MText SText LText MTx MMerkle MBip32 MU256 SU256 MPow SPow SSha2 MNetwork SNetwork LNetwork.
From Verif Require LKey PPow LBip32b.
Local Open Scope N_scope.

(** Names: each network has one name of each kind, and parsing accepts exactly these five texts; errors hold the input. *)
Theorem C51_core_arg : forall s n,
  to_core_arg n = core_name n /\ (from_core_arg s = Ok n <-> s = core_name n) /\
  (forall e, from_core_arg s = Err e <-> e = s /\ forall n, s <> core_name n).
Proof.
  intros s n. split; [reflexivity|]. pose proof (core_arg_ok s) as H. split.
  - split; [intro E; now rewrite E in H|]. intros ->. exact (core_arg_back n).
  - intro e. split; [intro E; now rewrite E in H|]. intros (-> & K). destruct (from_core_arg s) as [m|e]; [now destruct (K m)|]. now destruct H as (-> & _).
Qed.
Theorem C51_display : forall s n,
  net_display n = own_name n /\ (net_from_str s = Ok n <-> s = own_name n) /\
  (forall e, net_from_str s = Err e <-> e = s /\ forall n, s <> own_name n).
Proof.
  intros s n. split; [reflexivity|]. pose proof (display_ok s) as H. split.
  - split; [intro E; now rewrite E in H|]. intros ->. exact (display_back n).
  - intro e. split; [intro E; now rewrite E in H|]. intros (-> & K). destruct (net_from_str s) as [m|e]; [now destruct (K m)|]. now destruct H as (-> & _).
Qed.
(** Exactly the main network is of the main kind. *)
Theorem C51_kind : forall n, is_mainnet (kind_of n) = true <-> n = Bitcoin.
Proof. destruct n; split; (reflexivity || discriminate). Qed.

(** Magic bytes: Core's, different for every network; anything else is of no network and is handed back. *)
Theorem C51_magic : forall m n,
  hex_of (core_magic n) (magic_of n) /\ lenN (magic_of n) = 4 /\ (net_of_magic m = Ok n <-> m = magic_of n) /\
  (forall e, net_of_magic m = Err e <-> e = m /\ forall n, m <> magic_of n).
Proof.
  intros m n. split. { apply hex_of_pairs. destruct n; vm_compute; reflexivity. } split; [destruct n; reflexivity|].
  pose proof (magic_ok m) as H. split.
  - split; [intro E; now rewrite E in H|]. intros ->. destruct n; vm_compute; reflexivity.
  - intro e. split; [intro E; now rewrite E in H|]. intros (-> & K). destruct (net_of_magic m) as [k|e]; [now destruct (K k)|]. now destruct H as (-> & _).
Qed.
(** The text of a magic is its four bytes in hex, in either case, and reads back. *)
Theorem C51_magic_text : forall s m, bytes_ok m -> lenN m = 4 ->
  (magic_from_str s = Ok m <-> hex_of s m) /\ (forall upper, magic_from_str (magic_display upper m) = Ok m) /\
  (forall e t, magic_from_str s = Err (e, t) -> t = s /\ forall b, hex_of s b -> lenN b <> 4).
Proof.
  intros s m OK L. unfold magic_from_str, magic_display.
  assert (A : forall t, (match decode_to_array 4 t with Ok b => Ok b | Err e => Err (e, t) end) = Ok m <-> hex_of t m).
  { intro t. split.
    - destruct (decode_to_array 4 t) as [b|e] eqn:E; [|discriminate]. intro H. assert (b = m) as -> by congruence. now apply LKey.array_spec in E.
    - intro H. assert (decode_to_array 4 t = Ok m) as -> by (now apply LKey.array_spec). reflexivity. }
  split; [apply A|]. split; [intro u; apply A; now apply hex_bytes_of|].
  intros e t. destruct (decode_to_array 4 s) as [b|e'] eqn:E; [discriminate|]. intro H. split; [congruence|].
  intros b B LB. assert (decode_to_array 4 s = Ok b) by (now apply LKey.array_spec). congruence.
Qed.

(** Ports are Core's, except the RPC port of regtest. *)
Theorem C51_ports : forall n, default_p2p_port n = core_port n /\ (n <> Regtest -> default_rpc_port n = core_rpc_port n).
Proof. destruct n; split; (reflexivity || congruence). Qed.
Theorem C51_rpc_port_refuted : exists n, default_rpc_port n <> core_rpc_port n.
Proof. exists Regtest. discriminate. Qed.

(** Chain hashes: a network's is the hash of its genesis block as Core gives it; they tell the networks apart, and any other hash is refused. *)
Theorem C51_chain_hash : forall h n,
  hex_of (core_genesis n) (rev (chain_hash n)) /\ lenN (chain_hash n) = 32 /\
  (net_of_chain_hash h = Ok n <-> h = chain_hash n) /\ (from_chain_hash h = Some n <-> h = chain_hash n) /\
  (forall e, net_of_chain_hash h = Err e <-> e = h /\ forall n, h <> chain_hash n).
Proof.
  intros h n. split. { apply hex_of_pairs. destruct n; vm_compute; reflexivity. } split; [destruct n; reflexivity|].
  pose proof (chain_ok h) as H. assert (B : net_of_chain_hash (chain_hash n) = Ok n) by (destruct n; vm_compute; reflexivity). split; [|split].
  - split; [intro E; now rewrite E in H|]. now intros ->.
  - unfold from_chain_hash. split; [|intros ->; now rewrite B]. destruct (net_of_chain_hash h) as [k|e]; [|discriminate].
    intro E. assert (k = n) as -> by congruence. exact H.
  - intro e. split; [intro E; now rewrite E in H|]. intros (-> & K). destruct (net_of_chain_hash h) as [k|e]; [now destruct (K k)|]. now destruct H as (-> & _).
Qed.
(** Their text is forward hex. *)
Theorem C51_chain_hash_text : forall s h, bytes_ok h -> lenN h = 32 ->
  (chain_from_str s = Ok h <-> hex_of s h) /\ (forall upper, chain_from_str (chain_display upper h) = Ok h).
Proof.
  intros s h OK L. unfold chain_from_str, chain_display. split; [|intro u; apply LKey.array_spec; split; auto; now apply hex_bytes_of].
  rewrite LKey.array_spec. split; [now intros []|auto].
Qed.
(** The genesis block the library builds for each network, hashed with the real SHA-256, has exactly that hash and Core's Merkle root; it
    passes the library's own block validation and meets its own proof-of-work target, which is within the network's limit. *)
Theorem C51_genesis : forall n, exists b t,
  genesis_block SHA256d n = Ret (b, Some (repeat 0 32)) /\
  SHA256d (header_encode (b_header b)) = chain_hash n /\
  hex_of (core_genesis_root n) (rev (h_merkle (b_header b))) /\
  h_prev (b_header b) = repeat 0 32 /\
  validate SHA256d b = Ret (Ok (b, None)) /\
  header_target (b_header b) = Ret t /\ value t <= value (p_max_attainable_target (params_new n)) /\
  validate_pow SHA256d (b_header b) t = Ret (Ok (chain_hash n)).
Proof.
  intro n. exists {| b_header := g_header n; b_txs := [g_tx n] |}. cbn [b_header].
  exists (match header_target (g_header n) with Ret t => t | Panic => {| hi := 0; lo := 0 |} end).
  split; [apply genesis_all|]. split; [apply hash_all|]. split; [apply hex_of_pairs; destruct n; vm_compute; reflexivity|].
  split; [destruct n; reflexivity|]. split; [apply validate_all|].
  assert (E : header_target (g_header n) = Ret (match header_target (g_header n) with Ret t => t | Panic => {| hi := 0; lo := 0 |} end))
    by (destruct n; vm_compute; reflexivity).
  split; [exact E|]. split; [destruct n; vm_compute; discriminate|].
  unfold validate_pow. rewrite hash_all. rewrite E. cbn [rbind]. destruct n; vm_compute; reflexivity.
Qed.
(** Building it never panics, whatever the hash function. *)
Theorem C51_genesis_total : forall sha256d n, genesis_block sha256d n <> Panic.
Proof.
  intros H n. unfold genesis_block. rewrite g_tx_ok. cbn [rbind].
  assert (C : exists r, compute_merkle_root H [g_tx n] = Ret (Some r)) by (destruct n; eexists; reflexivity).
  destruct C as [r ->]. cbn [rbind]. rewrite wroot_all. cbn [rbind]. destruct (genesis_numbers n) as [[a b] c]. discriminate.
Qed.

(** Service flags print as the names of the named bits that are set, then the other bits in hex. *)
Theorem C51_services : forall set, set < 2 ^ 64 -> exists rest hex,
  (forall i, N.testbit rest i = N.testbit set i && negb (existsb (fun f => fst f =? i) service_names)) /\
  (rest <> 0 -> numeral digit16 16 hex rest) /\
  sf_display set = services_text set rest hex.
Proof.
  intros f L. exists (N.ldiff f 3151), (fmt_x false (N.ldiff f 3151)). split; [|split; [intros _; apply fmt_x_numeral|now apply sf_display_spec]].
  intro i. rewrite N.ldiff_spec. f_equal. f_equal. unfold service_names. cbn [existsb fst].
  destruct (N.lt_ge_cases i 12) as [K|K].
  - assert (E : i = 0 \/ i = 1 \/ i = 2 \/ i = 3 \/ i = 4 \/ i = 5 \/ i = 6 \/ i = 7 \/ i = 8 \/ i = 9 \/ i = 10 \/ i = 11) by lia.
    repeat destruct E as [-> |E]; try subst i; vm_compute; reflexivity.
  - assert (N.testbit 3151 i = false) as -> by (apply N.bits_above_log2; change (N.log2 3151) with 11; lia).
    symmetry. repeat (apply orb_false_iff; split); auto; apply N.eqb_neq; lia.
Qed.

Example C51_nonvacuous :
  from_core_arg (lit "main") = Ok Bitcoin /\ from_core_arg (lit "bitcoin") = Err (lit "bitcoin") /\
  net_of_magic [0xFA; 0xBF; 0xB5; 0xDA] = Ok Regtest /\
  magic_from_str (lit "F9beb4D9") = Ok (magic_of Bitcoin) /\
  sf_display 0 = lit "ServiceFlags(NONE)" /\ sf_display 9 = lit "ServiceFlags(NETWORK|WITNESS)" /\
  sf_display (2 ^ 12 + 8) = lit "ServiceFlags(WITNESS|0x1000)" /\ sf_display 0xf0 = lit "ServiceFlags(COMPACT_FILTERS|0xb0)".
Proof. vm_compute. repeat split. Qed.

Print Assumptions C51_core_arg.
Print Assumptions C51_display.
Print Assumptions C51_kind.
Print Assumptions C51_magic.
Print Assumptions C51_magic_text.
Print Assumptions C51_ports.
Print Assumptions C51_rpc_port_refuted.
Print Assumptions C51_chain_hash.
Print Assumptions C51_chain_hash_text.
Print Assumptions C51_genesis.
Print Assumptions C51_genesis_total.
Print Assumptions C51_services.
