(** C55: the case of the digits of every hexadecimal text. *)
From Verif Require Import Base MDec LDec MText SText LText MWitness MTx SWire LWire MSig SSig LSig PSig MNetwork MHex SHex LHex.
Local Open Scope N_scope.

(** Scripts are always written in small letters, with or without their length in front; *)
Theorem C55_script_case : forall x s, bytes_ok x ->
  (script_to_hex_no_length_prefix x = s <-> spells false s x) /\
  (script_to_hex_prefixed x = s <-> spells false s (wire_bytes x)).
Proof.
  intros x s B. split.
  - unfold script_to_hex_no_length_prefix. split; [intros <-; now apply hex_spells|intro H; symmetry; now apply spells_hex].
  - unfold script_to_hex_prefixed. rewrite <- wire_bytes_eq. change (flat_map _ (script_encode x)) with (hex_bytes false (script_encode x)).
    split; [intros <-; apply hex_spells; now apply script_encode_ok|intro H; symmetry; now apply spells_hex].
Qed.
Print Assumptions C55_script_case.
(** hashes, network magics, chain hashes and signatures in the case asked for. *)
Theorem C55_case : forall up,
  (forall backward h s, bytes_ok h -> hash_display backward up h = s <-> spells up s (if backward then rev h else h)) /\
  (forall m s, bytes_ok m -> magic_display up m = s <-> spells up s m) /\
  (forall h s, bytes_ok h -> chain_display up h = s <-> spells up s h) /\
  (forall C x s, ecurve_ok C -> es_display C up x = Ret s <-> spells up s (ecdsa_bytes C x)) /\
  (forall x s, lenN (ts_sig x) = 64 -> bytes_ok (ts_sig x) -> ts_display up x = Ret s <-> spells up s (tap_bytes x)).
Proof.
  intro up. assert (G : forall b s, bytes_ok b -> hex_bytes up b = s <-> spells up s b).
  { intros b s B. split; [intros <-; now apply hex_spells|intro H; symmetry; now apply spells_hex]. }
  assert (G' : forall b s, bytes_ok b -> Ret (hex_bytes up b) = Ret s <-> spells up s b).
  { intros b s B. rewrite <- (G b s B). split; [congruence|now intros ->]. }
  split; [|split; [|split; [|split]]].
  - intros bw h s B. unfold hash_display. apply G. destruct bw; [now apply Forall_rev|exact B].
  - intros m s B. now apply G.
  - intros m s B. now apply G.
  - intros C x s OK. destruct (C50_ecdsa_write C x OK) as (y & E & B & _). unfold es_display. rewrite E. cbn [rbind]. rewrite B. cbn [rbind].
    apply G'. unfold ecdsa_bytes. apply bytes_ok_app. split; [apply (e_bytes C OK)|constructor; [destruct (es_type C x); reflexivity|constructor]].
  - intros x s L OK. destruct (ts_ser_spec x L) as (y & E & B & LX & _). unfold ts_display. rewrite E. cbn [rbind]. unfold ts_fmt. rewrite B. cbn [rbind]. rewrite LX, (tap_len x L).
    assert (X : bytes_ok (tap_bytes x)) by (unfold tap_bytes; apply bytes_ok_app; split; [exact OK|destruct (ts_type x); constructor; reflexivity || constructor]).
    rewrite <- (G' (tap_bytes x) s X). destruct (is_tdefault (ts_type x)); reflexivity.
Qed.
Print Assumptions C55_case.
Example C55_case_ex : script_to_hex_no_length_prefix [171; 9] = [97; 98; 48; 57] /\ magic_display true [249; 190; 180; 217] = [70; 57; 66; 69; 66; 52; 68; 57].
Proof. vm_compute. auto. Qed.
