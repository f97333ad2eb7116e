(** C75: typing errors in segwit addresses.  The text of an address is read by addresses/src/lib.rs (MAddress.v) and the bech32
    crate (MBech32.v); the number of places where two texts differ is [differences] of SAddress.v. *)
From Coq Require Import String.
From Verif Require Import Base MDec LDec MText SBip158 SBech32 MBech32 LBech32b MScript SScript MAddress SAddress LAddress LAddress2 LAddress3 PBase58.
Local Open Scope N_scope.

Lemma read_segwit : forall sha256d s w k, (forall m, SWire.hash_ok (sha256d m)) -> from_str sha256d s = Ret (Ok (ASegwit w k)) ->
  bytes_ok (wp_program w) /\ program_valid (wp_version w) (wp_program w) /\ segwit_text (prefix_text k) (wp_version w) (wp_program w) (lower s).
Proof.
  intros sha s [v p] k SHA A. apply (from_str_spec sha SHA) in A. destruct A as ((OP & PV) & x & T & X). cbn [address_text wp_version wp_program] in *. split; [exact OP|]. split; [exact PV|].
  rewrite (lower_text k v p x s T); [exact T|]. destruct X as [X|[_ X]]; auto.
Qed.
Lemma lower_len : forall s, lenN (lower s) = lenN s.
Proof. intro s. unfold lenN, lower. rewrite map_length. reflexivity. Qed.

(** Up to four wrong characters, anywhere in the text (the prefix and the version included), never turn the text of a segwit
    address into that of another one, of whatever network, as long as the version stays 0 or stays not 0; *)
Theorem C75_four_errors : forall sha256d s t w w' k k', (forall m, SWire.hash_ok (sha256d m)) ->
  from_str sha256d s = Ret (Ok (ASegwit w k)) -> from_str sha256d t = Ret (Ok (ASegwit w' k')) ->
  (wp_version w = 0 <-> wp_version w' = 0) -> lenN s = lenN t -> differences (lower s) (lower t) <= 4 -> ASegwit w k = ASegwit w' k'.
Proof.
  intros sha s t w w' k k' SHA A B Z L D. apply read_segwit in A; [|exact SHA]. apply read_segwit in B; [|exact SHA]. destruct A as (OP & PV & T1), B as (OQ & PW & T2).
  destruct (text_four k k' _ _ _ _ _ _ OP OQ PV PW T1 T2) as (-> & E1 & E2); [rewrite !lower_len; exact L|exact D|left; exact Z|]. destruct w, w'. cbn in E1, E2. congruence.
Qed.
Print Assumptions C75_four_errors.
(** and up to three wrong characters never do, whatever the versions. *)
Theorem C75_three_errors : forall sha256d s t w w' k k', (forall m, SWire.hash_ok (sha256d m)) ->
  from_str sha256d s = Ret (Ok (ASegwit w k)) -> from_str sha256d t = Ret (Ok (ASegwit w' k')) ->
  lenN s = lenN t -> differences (lower s) (lower t) <= 3 -> ASegwit w k = ASegwit w' k'.
Proof.
  intros sha s t w w' k k' SHA A B L D. apply read_segwit in A; [|exact SHA]. apply read_segwit in B; [|exact SHA]. destruct A as (OP & PV & T1), B as (OQ & PW & T2).
  destruct (text_four k k' _ _ _ _ _ _ OP OQ PV PW T1 T2) as (-> & E1 & E2); [rewrite !lower_len; exact L|lia|right; exact D|]. destruct w, w'. cbn in E1, E2. congruence.
Qed.
Print Assumptions C75_three_errors.
(** So two characters that changed places, neighbours or not, give no other address: *)
Lemma differences_refl : forall s, differences s s = 0.
Proof. induction s as [|a s IH]; [reflexivity|]. cbn [differences]. rewrite N.eqb_refl, IH. reflexivity. Qed.
Lemma differences_app2 : forall a b c d, length a = length b -> differences (a ++ c) (b ++ d) = differences a b + differences c d.
Proof. induction a as [|x a IH]; intros [|y b] c d L; try discriminate L; [reflexivity|]. cbn [app differences]. rewrite IH by (cbn in L; lia). lia. Qed.
Theorem C75_swap : forall sha256d a b c x y w w' k k', (forall m, SWire.hash_ok (sha256d m)) ->
  from_str sha256d (a ++ [x] ++ b ++ [y] ++ c) = Ret (Ok (ASegwit w k)) -> from_str sha256d (a ++ [y] ++ b ++ [x] ++ c) = Ret (Ok (ASegwit w' k')) ->
  ASegwit w k = ASegwit w' k'.
Proof.
  intros sha a b c x y w w' k k' SHA A B. apply (C75_three_errors sha _ _ w w' k k' SHA A B).
  - unfold lenN. rewrite !app_length. reflexivity.
  - unfold lower. rewrite !map_app. rewrite !differences_app2, !differences_refl by (rewrite ?map_length; reflexivity). cbn [map differences]. destruct (_ =? _), (_ =? _); cbn; lia.
Qed.
Print Assumptions C75_swap.
(** Of version 0 there are texts of two lengths only, twenty characters apart, so that no character lost or added gives another
    address of version 0. *)
Theorem C75_lengths : forall sha256d s w k, (forall m, SWire.hash_ok (sha256d m)) -> from_str sha256d s = Ret (Ok (ASegwit w k)) -> wp_version w = 0 ->
  lenN s = lenN (prefix_text k) + 40 \/ lenN s = lenN (prefix_text k) + 60.
Proof.
  intros sha s w k SHA A Z. apply read_segwit in A; [|exact SHA]. destruct A as (OP & PV & T). destruct (text_symbols k _ _ _ PV T) as (l & E & _ & _ & _ & _ & L). specialize (L Z). rewrite <- (lower_len s), E.
  unfold lenN. rewrite !app_length, map_length. cbn [length]. change (length (lit "1")) with 1%nat. lia.
Qed.
Print Assumptions C75_lengths.
(** Finding: BIP173 promises that up to four wrong characters are found.  With one of them in the version this fails, as version 0
    and the later ones have different checksums (BIP350): four wrong characters turn a P2WSH address into a P2TR address. *)
Theorem C75_four_errors_refuted : forall sha256d, (forall m, SWire.hash_ok (sha256d m)) -> exists s t w w' k,
  from_str sha256d s = Ret (Ok (ASegwit w k)) /\ from_str sha256d t = Ret (Ok (ASegwit w' k)) /\ lenN s = lenN t /\ differences (lower s) (lower t) = 4 /\
  type_of (ASegwit w k) = Some TyP2wsh /\ type_of (ASegwit w' k) = Some TyP2tr.
Proof.
  intros sha _. exists (lit "bc1qrp33g0q5c5txsp9arysrx4k6zdkfs4nce4xj0gdcccefvpysxf3qccfmv3"), (lit "bc1prp33g0q5c5txxp9arysrx2k6zdkfs4nce4xj0gdccpefvpysxf3qccfmv3").
  do 2 eexists. exists HMainnet. split; [vm_compute; reflexivity|]. split; [vm_compute; reflexivity|]. repeat split; vm_compute; reflexivity.
Qed.
Print Assumptions C75_four_errors_refuted.

(** The hypotheses are met: the same address in lower and upper case; and each kind of error is reported. *)
Example C75_ex :
  let a := ASegwit {| wp_version := 0; wp_program := [117; 30; 118; 232; 25; 145; 150; 212; 84; 148; 28; 69; 209; 179; 163; 35; 241; 67; 59; 214] |} HMainnet in
  (forall m, SWire.hash_ok (toy_sha m)) /\
  from_str toy_sha (lit "bc1qw508d6qejxtdg4y5r3zarvary0c5xw7kv8f3t4") = Ret (Ok a) /\ from_str toy_sha (lit "BC1QW508D6QEJXTDG4Y5R3ZARVARY0C5XW7KV8F3T4") = Ret (Ok a) /\
  from_str toy_sha (lit "tb1qw508d6qejxtdg4y5r3zarvary0c5xw7kv8f3tq") = Ret (Err (PBech32 ParseBech32)) /\
  from_str toy_sha (lit "bc1qw508d6qejxtdg4y5r3zarvary0c5xw7kv8f34t") = Ret (Err (PBech32 ParseBech32)) /\
  from_str toy_sha (lit "bc1pw508d6qejxtdg4y5r3zarvary0c5xw7kv8f3t4") = Ret (Err (PBech32 ParseBech32)).
Proof. split; [exact toy_sha_ok|]. repeat split; vm_compute; reflexivity. Qed.
