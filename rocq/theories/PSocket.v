(** C64: the addresses of peers as socket addresses. *)
From Verif Require Import Base MDec LDec SDec SWire STx MP2p SP2p LCodec LDrive LBuilt LP2p2 PP2p MSocket SSocket.
Local Open Scope N_scope.

Lemma eight : forall s, v6_ok s -> exists a b c d e f g h, s = [a; b; c; d; e; f; g; h] /\ a < 65536 /\ b < 65536 /\ c < 65536 /\ d < 65536 /\ e < 65536 /\ f < 65536 /\ g < 65536 /\ h < 65536.
Proof.
  intros s [L F]. unfold lenN in L. do 8 (destruct s as [|? s]; [cbn in L; lia|]). destruct s; [|cbn [length] in L; lia].
  repeat match goal with H : Forall _ (_ :: _) |- _ => inversion H; clear H; subst end. change (2 ^ 16) with 65536 in *. repeat eexists; assumption.
Qed.
Lemma four : forall o, v4_ok o -> exists a b c d, o = [a; b; c; d] /\ a < 256 /\ b < 256 /\ c < 256 /\ d < 256.
Proof.
  intros s [L F]. unfold lenN in L. do 4 (destruct s as [|? s]; [cbn in L; lia|]). destruct s; [|cbn [length] in L; lia].
  repeat match goal with H : Forall _ (_ :: _) |- _ => inversion H; clear H; subst end. change (2 ^ 8) with 256 in *. repeat eexists; assumption.
Qed.
Lemma number8 : forall a b c d e f g h, v6_number [a; b; c; d; e; f; g; h] = ((((((a * 65536 + b) * 65536 + c) * 65536 + d) * 65536 + e) * 65536 + f) * 65536 + g) * 65536 + h.
Proof. intros. unfold v6_number. cbn [fold_left]. change (2 ^ 16) with 65536. lia. Qed.
Lemma hi6 : forall a b c d e f g h, g < 65536 -> h < 65536 -> v6_number [a; b; c; d; e; f; g; h] / 2 ^ 32 = ((((a * 65536 + b) * 65536 + c) * 65536 + d) * 65536 + e) * 65536 + f.
Proof.
  intros. rewrite number8. set (x := (((((a * 65536 + b) * 65536 + c) * 65536 + d) * 65536 + e) * 65536 + f)). clearbody x. change (2 ^ 32) with 4294967296. lia.
Qed.
Lemma hi3 : forall a b c d e f g h, d < 65536 -> e < 65536 -> f < 65536 -> g < 65536 -> h < 65536 -> v6_number [a; b; c; d; e; f; g; h] / 2 ^ 80 = (a * 65536 + b) * 65536 + c.
Proof.
  intros. rewrite number8. set (x := (a * 65536 + b) * 65536 + c). clearbody x. symmetry. apply (N.div_unique _ _ _ ((((d * 65536 + e) * 65536 + f) * 65536 + g) * 65536 + h)); change (2 ^ 80) with 1208925819614629174706176; lia.
Qed.
Lemma lo2 : forall a b c d e f g h, g < 65536 -> h < 65536 -> v6_number [a; b; c; d; e; f; g; h] mod 2 ^ 32 = g * 65536 + h.
Proof.
  intros. rewrite number8. set (x := (((((a * 65536 + b) * 65536 + c) * 65536 + d) * 65536 + e) * 65536 + f)). clearbody x. change (2 ^ 32) with 4294967296. lia.
Qed.
Lemma be2 : forall x, be_bytes 2 x = [(x / 256) mod 256; x mod 256].
Proof. intro x. reflexivity. Qed.
Lemma pair_number : forall g h, g < 65536 -> h < 65536 -> v4_ok (be_bytes 2 g ++ be_bytes 2 h) /\ v4_number (be_bytes 2 g ++ be_bytes 2 h) = g * 65536 + h.
Proof.
  intros g h G H. rewrite !be2. cbn [app]. split.
  - split; [reflexivity|]. change (2 ^ 8) with 256. repeat constructor; lia.
  - unfold v4_number. cbn [fold_left]. change (2 ^ 8) with 256. lia.
Qed.

(** Making an address from a socket address keeps the port and the services, and the number of the host: an IPv4 host is put in its mapped place. *)
Theorem C64_new : forall s services, socket_ok s -> is_u64 services ->
  let a := address_new s services in
  address_ok a /\ a_services a = services /\ a_port a = socket_port s /\
  v6_number (a_addr a) = match s with SockV4 o _ => 0xFFFF * 2 ^ 32 + v4_number o | SockV6 g _ _ _ => v6_number g end.
Proof.
  intros s sv S U. destruct s as [o p|g p f i]; cbn [address_new socket_port socket_ok] in *.
  - destruct S as [O P]. destruct (four o O) as (a & b & c & d & -> & A & B & C & D). unfold to_ipv6_mapped. cbn [segments app]. cbn [a_services a_addr a_port]. split; [|split; [reflexivity|split; [reflexivity|]]].
    + split; [exact U|]. split; [reflexivity|]. split; [|exact P]. cbn [a_addr]. unfold group_ok. change (2 ^ 16) with 65536. repeat constructor; lia.
    + rewrite number8. unfold v4_number. cbn [fold_left]. change (2 ^ 8) with 256. change (2 ^ 32) with 4294967296. lia.
  - destruct S as ([L F] & P & _). cbn [a_services a_addr a_port]. split; [|auto]. split; [exact U|]. split; [exact L|]. split; [exact F|exact P].
Qed.
Print Assumptions C64_new.

(** The socket address of an address: none in the OnionCat range, the IPv4 host for a mapped or compatible number, else the IPv6 host. *)
Theorem C64_socket : forall a, address_ok a ->
  let n := v6_number (a_addr a) in
  (onioncat n -> socket_addr a = Err UTorV2) /\
  (mapped n \/ compatible n -> exists o, socket_addr a = Ok (SockV4 o (a_port a)) /\ v4_ok o /\ v4_number o = n mod 2 ^ 32) /\
  (~ onioncat n -> ~ mapped n -> ~ compatible n -> socket_addr a = Ok (SockV6 (a_addr a) (a_port a) 0 0)) /\
  ~ (onioncat n /\ (mapped n \/ compatible n)).
Proof.
  intros x (_ & L & F & _). destruct (eight (a_addr x) (conj L F)) as (a & b & c & d & e & f & g & h & E & A & B & C & D & E' & F' & G & H). cbv zeta. unfold onioncat, mapped, compatible, socket_addr. rewrite E, hi6, hi3, lo2 by assumption. cbn [firstn to_ipv4].
  change 0xFD87D87EEB43 with 278759894608707. change 0xFFFF with 65535.
  assert (ON : Nlist_eqb [a; b; c] ONION = true <-> (a * 65536 + b) * 65536 + c = 278759894608707).
  { rewrite Nlist_eqb_eq. unfold ONION. split; [intro X; assert (a = 64903 /\ b = 55422 /\ c = 60227) as (-> & -> & ->) by (injection X; auto); reflexivity|]. intro X. assert (a = 64903 /\ b = 55422 /\ c = 60227) as (-> & -> & ->) by lia. reflexivity. }
  assert (V4 : (a =? 0) && (b =? 0) && (c =? 0) && (d =? 0) && (e =? 0) && ((f =? 0) || (f =? 65535)) = true <->
    ((((a * 65536 + b) * 65536 + c) * 65536 + d) * 65536 + e) * 65536 + f = 65535 \/ ((((a * 65536 + b) * 65536 + c) * 65536 + d) * 65536 + e) * 65536 + f = 0).
  { rewrite !andb_true_iff, orb_true_iff, !N.eqb_eq. split; [intros (((((-> & ->) & ->) & ->) & ->) & [-> | ->]); auto|]. intro X.
    assert (Y : (((a * 65536 + b) * 65536 + c) * 65536 + d) * 65536 + e = 0) by lia. assert (a = 0 /\ b = 0 /\ c = 0 /\ d = 0 /\ e = 0) as (-> & -> & -> & -> & ->) by lia. repeat split; try reflexivity. lia. }
  assert (X : ~ ((a * 65536 + b) * 65536 + c = 278759894608707 /\ (((((a * 65536 + b) * 65536 + c) * 65536 + d) * 65536 + e) * 65536 + f = 65535 \/ ((((a * 65536 + b) * 65536 + c) * 65536 + d) * 65536 + e) * 65536 + f = 0))).
  { intros [X1 X2]. rewrite X1 in X2. lia. }
  set (on := (a * 65536 + b) * 65536 + c = 278759894608707) in *. set (v1 := _ = 65535) in *. set (v0 := _ = 0) in *. clearbody on v1 v0. destruct (pair_number g h G H) as [P1 P2].
  split; [|split; [|split; [|exact X]]].
  - intro Y. apply ON in Y. now rewrite Y.
  - intro Y. assert (N1 : Nlist_eqb [a; b; c] ONION = false) by (apply not_true_is_false; intro Z; apply X; split; [now apply ON|exact Y]). apply V4 in Y. rewrite N1, Y. eexists. split; [reflexivity|]. split; [exact P1|exact P2].
  - intros N1 N2 N3. assert (N4 : Nlist_eqb [a; b; c] ONION = false) by (apply not_true_is_false; intro Z; apply N1; now apply ON). rewrite N4.
    assert (N5 : (a =? 0) && (b =? 0) && (c =? 0) && (d =? 0) && (e =? 0) && ((f =? 0) || (f =? 65535)) = false) by (apply not_true_is_false; intro Z; apply V4 in Z; tauto). now rewrite N5.
Qed.
Print Assumptions C64_socket.

Lemma number_inj : forall s s', v6_ok s -> v6_ok s' -> v6_number s = v6_number s' -> s = s'.
Proof.
  intros s s' O O'. destruct (eight s O) as (a & b & c & d & e & f & g & h & -> & ? & ? & ? & ? & ? & ? & ? & ?). destruct (eight s' O') as (a' & b' & c' & d' & e' & f' & g' & h' & -> & ? & ? & ? & ? & ? & ? & ? & ?).
  rewrite !number8. intro E. assert (h = h' /\ ((((((a * 65536 + b) * 65536 + c) * 65536 + d) * 65536 + e) * 65536 + f) * 65536 + g) = ((((((a' * 65536 + b') * 65536 + c') * 65536 + d') * 65536 + e') * 65536 + f') * 65536 + g')) as [-> E1] by (split; lia).
  assert (g = g' /\ (((((a * 65536 + b) * 65536 + c) * 65536 + d) * 65536 + e) * 65536 + f) = (((((a' * 65536 + b') * 65536 + c') * 65536 + d') * 65536 + e') * 65536 + f')) as [-> E2] by (split; lia).
  assert (f = f' /\ ((((a * 65536 + b) * 65536 + c) * 65536 + d) * 65536 + e) = ((((a' * 65536 + b') * 65536 + c') * 65536 + d') * 65536 + e')) as [-> E3] by (split; lia).
  assert (e = e' /\ (((a * 65536 + b) * 65536 + c) * 65536 + d) = (((a' * 65536 + b') * 65536 + c') * 65536 + d')) as [-> E4] by (split; lia).
  assert (d = d' /\ (a * 65536 + b) * 65536 + c = (a' * 65536 + b') * 65536 + c') as [-> E5] by (split; lia).
  assert (a = a' /\ b = b' /\ c = c') as (-> & -> & ->) by lia. reflexivity.
Qed.
Lemma number4_inj : forall s s', v4_ok s -> v4_ok s' -> v4_number s = v4_number s' -> s = s'.
Proof.
  intros s s' O O'. destruct (four s O) as (a & b & c & d & -> & ? & ? & ? & ?). destruct (four s' O') as (a' & b' & c' & d' & -> & ? & ? & ? & ?). unfold v4_number. cbn [fold_left]. change (2 ^ 8) with 256. intro E.
  assert (a = a' /\ b = b' /\ c = c' /\ d = d') as (-> & -> & -> & ->) by lia. reflexivity.
Qed.
Lemma number4_lt : forall o, v4_ok o -> v4_number o < 2 ^ 32.
Proof. intros o O. destruct (four o O) as (a & b & c & d & -> & ? & ? & ? & ?). unfold v4_number. cbn [fold_left]. change (2 ^ 8) with 256. change (2 ^ 32) with 4294967296. lia. Qed.

(** Every IPv4 socket address comes back; an IPv6 one comes back, without its flow information and scope, unless its number is mapped, compatible or of OnionCat. *)
Theorem C64_round_trip : forall s services, socket_ok s -> is_u64 services ->
  match s with
  | SockV4 _ _ => socket_addr (address_new s services) = Ok s
  | SockV6 g p _ _ => ~ onioncat (v6_number g) -> ~ mapped (v6_number g) -> ~ compatible (v6_number g) -> socket_addr (address_new s services) = Ok (SockV6 g p 0 0)
  end.
Proof.
  intros s sv S U. destruct (C64_new s sv S U) as (A & _ & P & NN). pose proof (C64_socket _ A) as Z. cbv zeta in Z. destruct Z as (_ & Z1 & Z2 & _). rewrite NN in Z1, Z2. destruct s as [o p|g p f i].
  - destruct S as [O _]. pose proof (number4_lt o O) as LT. destruct Z1 as (o' & E & O' & M). { left. unfold mapped. change (2 ^ 32) with 4294967296 in *. lia. }
    rewrite E, P. cbn [socket_port]. assert (o' = o) as ->; [|reflexivity]. apply number4_inj; auto. rewrite M. change (2 ^ 32) with 4294967296 in *. lia.
  - intros N1 N2 N3. rewrite (Z2 N1 N2 N3). reflexivity.
Qed.
Print Assumptions C64_round_trip.

(** From an address to a socket address and back: the same address, except that a compatible number becomes the mapped one. *)
Theorem C64_back : forall a s, address_ok a -> socket_addr a = Ok s ->
  socket_ok s /\ let b := address_new s (a_services a) in
  (~ compatible (v6_number (a_addr a)) -> b = a) /\
  (compatible (v6_number (a_addr a)) -> a_port b = a_port a /\ a_services b = a_services a /\ v6_number (a_addr b) = 0xFFFF * 2 ^ 32 + v6_number (a_addr a)).
Proof.
  intros a s A E. pose proof (C64_socket a A) as Z. cbv zeta in Z. destruct Z as (Z0 & Z1 & Z2 & _). pose proof A as (U & L & F & P). pose proof (conj L F : v6_ok (a_addr a)) as V6.
  assert (D : forall x y : N, {x = y} + {x <> y}) by exact N.eq_dec.
  destruct (D (v6_number (a_addr a) / 2 ^ 80) 0xFD87D87EEB43) as [ON|ON]; [rewrite (Z0 ON) in E; discriminate|].
  destruct (D (v6_number (a_addr a) / 2 ^ 32) 0xFFFF) as [MA|MA].
  { destruct (Z1 (or_introl MA)) as (o & E' & O & M). assert (s = SockV4 o (a_port a)) as -> by congruence. split; [split; [exact O|exact P]|]. cbv zeta.
    destruct (C64_new (SockV4 o (a_port a)) (a_services a) (conj O P) U) as (B & B1 & B2 & B3). split.
    - intros _. assert (a_addr (address_new (SockV4 o (a_port a)) (a_services a)) = a_addr a) as EA.
      { apply number_inj; [destruct B as (_ & X & Y & _); split; assumption|exact V6|]. rewrite B3, M. unfold mapped in MA. change (2 ^ 32) with 4294967296 in *. lia. }
      destruct a as [sv ad po]. cbn [a_services a_addr a_port address_new] in *. now rewrite EA.
    - intro CO. unfold compatible in CO. rewrite MA in CO. discriminate. }
  destruct (D (v6_number (a_addr a) / 2 ^ 32) 0) as [CO|CO].
  { destruct (Z1 (or_intror CO)) as (o & E' & O & M). assert (s = SockV4 o (a_port a)) as -> by congruence. split; [split; [exact O|exact P]|]. cbv zeta.
    destruct (C64_new (SockV4 o (a_port a)) (a_services a) (conj O P) U) as (B & B1 & B2 & B3). split; [intro NC; now contradict NC|]. intros _. split; [exact B2|]. split; [exact B1|]. rewrite B3, M. unfold compatible in CO. change (2 ^ 32) with 4294967296 in *. lia. }
  rewrite (Z2 ON MA CO) in E. assert (s = SockV6 (a_addr a) (a_port a) 0 0) as -> by congruence. split; [split; [exact V6|split; [exact P|split; reflexivity]]|]. cbv zeta. split; [intros _; destruct a; reflexivity|intro CO'; contradiction].
Qed.
Print Assumptions C64_back.

(** The loopback address of IPv6 is taken for the IPv4 address 0.0.0.1, and the unspecified one for 0.0.0.0. *)
Theorem C64_loopback_refuted : exists s, socket_ok s /\ s = SockV6 [0; 0; 0; 0; 0; 0; 0; 1] 8333 0 0 /\
  socket_addr (address_new s 1) = Ok (SockV4 [0; 0; 0; 1] 8333).
Proof. eexists. split; [|split; [reflexivity|vm_compute; reflexivity]]. repeat split. repeat constructor. Qed.
Print Assumptions C64_loopback_refuted.

(** BIP155 addresses: exactly the IP ones have an IP address, it comes back unchanged, and so does the socket address, whatever the number. *)
Theorem C64_v2 : 
  (forall i, v2_to_ip (v2_of_ip i) = Ok i) /\ (forall a i, v2_to_ip a = Ok i -> a = v2_of_ip i) /\
  (forall a o, v2_to_ipv4 a = Ok o <-> a = v2_of_ipv4 o) /\ (forall a s, v2_to_ipv6 a = Ok s <-> a = v2_of_ipv6 s) /\
  (forall m, v2_socket_addr m = match v2_to_ip (am_addr m) with
                                | Ok (V4 o) => Ok (SockV4 o (am_port m)) | Ok (V6 s) => Ok (SockV6 s (am_port m) 0 0) | Err e => Err e end) /\
  (forall a e, v2_to_ip a = Err e -> v2_to_ipv4 a = Err e /\ v2_to_ipv6 a = Err e /\
     match e with UTorV3 => exists b, a = TorV3 b | UI2p => exists b, a = I2p b | UCjdns => exists s, a = Cjdns s | UUnknown => exists n b, a = NetUnknown n b | _ => False end).
Proof.
  split; [intros [o|s]; reflexivity|]. split; [intros [] i H; cbn in H; try discriminate; now inversion H|].
  split; [intros [] o0; cbn; split; intro H; try discriminate; try (inversion H; reflexivity)|].
  split; [intros [] s0; cbn; split; intro H; try discriminate; try (inversion H; reflexivity)|].
  split; [intros [t sv [] p]; reflexivity|].
  intros [] e H; cbn in H; try discriminate; assert (H' := f_equal (fun r => match r with Err x => x | Ok _ => e end) H); cbn in H'; subst e; cbn; eauto 6.
Qed.
Print Assumptions C64_v2.

Lemma codec_back : forall A E (D : decoder A E) enc (wf : A -> Prop), codec D enc wf -> forall v, wf v -> decode_from_slice D (enc v) = Ret (Ok v).
Proof.
  intros A E D enc wf (g & den & L & _ & RT & _) v W. pose proof (slice_unbounded_den D g den L (enc v ++ [])) as K. rewrite RT in K by exact W. rewrite app_nil_r in K. unfold decode_from_slice. rewrite K. reflexivity.
Qed.
(** Sent and received: the receiver gets the address, so the same socket address. *)
Theorem C64_wire : 
  (forall s services, socket_ok s -> is_u64 services ->
     decode_from_slice address_dec (address_encode (address_new s services)) = Ret (Ok (address_new s services))) /\
  (forall i time services port, match i with V4 o => v4_ok o | V6 g => v6_ok g /\ ~ onioncat (v6_number g) /\ ~ mapped (v6_number g) end ->
     is_u32 time -> is_u64 services -> port < 2 ^ 16 ->
     let m := mk_av2 time services (v2_of_ip i) port in decode_from_slice addr_v2_msg_dec (addr_v2_msg_encode m) = Ret (Ok m)).
Proof.
  split.
  - intros s sv S U. destruct (C64_new s sv S U) as (A & _). exact (codec_back _ _ _ _ _ address_codec _ A).
  - intros i t sv p I T U P m. assert (M : addr_v2_msg_ok m); [|exact (codec_back _ _ _ _ _ addr_v2_msg_codec _ M)].
    split; [exact T|]. split; [exact U|]. split; [|exact P]. destruct i as [o|g]; cbn [m am_addr v2_of_ip addr_v2_ok].
    + exact I.
    + destruct I as ([L F] & ON & MA). split; [exact L|]. split; [exact F|]. destruct (eight g (conj L F)) as (a & b & c & d & e & f & g' & h & -> & ? & ? & ? & ? & ? & ? & ? & ?). cbn [firstn]. unfold onioncat, mapped in *. rewrite hi3 in ON by assumption. rewrite hi6 in MA by assumption.
      split; intro X; [apply ON|apply MA]; injection X; intros; subst; reflexivity.
Qed.
Print Assumptions C64_wire.

(** The placeholder address is the unspecified one with no services: it is written as 26 zeros. *)
Theorem C64_useless : (forall flow scope, address_useless = address_new (SockV6 (repeat 0 8) 0 flow scope) 0) /\ address_encode address_useless = repeat 0 26.
Proof. split; reflexivity. Qed.
Print Assumptions C64_useless.
Example C64_ex : socket_addr (address_new (SockV4 [192; 0; 2; 1] 8333) 9) = Ok (SockV4 [192; 0; 2; 1] 8333) /\
  socket_addr (address_new (SockV6 [8193; 3512; 0; 0; 0; 0; 0; 1] 18333 7 2) 9) = Ok (SockV6 [8193; 3512; 0; 0; 0; 0; 0; 1] 18333 0 0) /\
  socket_addr (mk_addr 0 [64903; 55422; 60227; 1; 2; 3; 4; 5] 1) = Err UTorV2 /\ socket_addr address_useless = Ok (SockV4 [0; 0; 0; 0] 0) /\
  to_socket_addrs (socket_addr (mk_addr 0 [0; 0; 0; 0; 0; 65535; 49320; 257] 5)) = Ok [SockV4 [192; 168; 1; 1] 5] /\
  v6_number [0; 0; 0; 0; 0; 65535; 49320; 257] = 281473913979137.
Proof. repeat split; vm_compute; reflexivity. Qed.
