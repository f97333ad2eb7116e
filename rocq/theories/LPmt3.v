(** The wire format of partial Merkle trees. *)
From Verif Require Import Base MDec LDec LDec2 LCompact MWitness MTx MMerkle MPmt SWire SMerkle SPmt LCodec LWire LTx2.
Local Open Scope N_scope.

Lemma pack_full : forall a b c d e f g h, pack_byte 0 [a; b; c; d; e; f; g; h] = byte_of [a; b; c; d; e; f; g; h].
Proof. intros [] [] [] [] [] [] [] []; reflexivity. Qed.
Lemma short_cases : forall (l : list bool), 1 <= lenN l < 8 -> pack_bits l = [byte_of l] /\ byte_of l < 256 /\
  unpack_byte (byte_of l) = l ++ repeat false (8 - length l).
Proof.
  intros l H. destruct l as [|a [|b [|c [|d [|e [|f [|g [|h l]]]]]]]]; unfold lenN in H; cbn [length] in H; try lia;
  repeat match goal with x : bool |- _ => destruct x end; (split; [reflexivity|split; reflexivity]).
Qed.
Lemma full_cases : forall (l : list bool), lenN l = 8 -> (forall r, pack_bits (l ++ r) = byte_of l :: pack_bits r) /\ byte_of l < 256 /\ unpack_byte (byte_of l) = l.
Proof.
  intros l H. destruct l as [|a [|b [|c [|d [|e [|f [|g [|h [|i l]]]]]]]]]; unfold lenN in H; cbn [length] in H; try lia.
  split; [intro r; cbn [app pack_bits]; now rewrite pack_full|]. destruct a, b, c, d, e, f, g, h; split; reflexivity.
Qed.
Lemma byte_back : forall b, b < 256 -> byte_of (unpack_byte b) = b.
Proof.
  assert (K : forallb (fun b => byte_of (unpack_byte b) =? b) (map N.of_nat (seq 0 256)) = true) by (vm_compute; reflexivity).
  rewrite forallb_forall in K. intros b Hb. apply N.eqb_eq. apply K. rewrite <- (N2Nat.id b). apply in_map, in_seq. lia.
Qed.
Lemma bits_split : forall (l : list bool), l = [] \/ 1 <= lenN l < 8 \/ exists a r, l = a ++ r /\ lenN a = 8 /\ lenN r + 8 = lenN l.
Proof.
  intro l. destruct (N.ltb_spec (lenN l) 8).
  - destruct l; [auto|]. right. left. rewrite lenN_cons in *. lia.
  - right. right. exists (takeN 8 l), (dropN 8 l). rewrite takeN_dropN, lenN_takeN, lenN_dropN. repeat split; lia.
Qed.
Lemma bits_ind : forall P : list bool -> Prop, P [] -> (forall l, 1 <= lenN l < 8 -> P l) -> (forall a r, lenN a = 8 -> P r -> P (a ++ r)) -> forall l, P l.
Proof.
  intros P H0 H1 H2 l. remember (N.to_nat (lenN l)) as k eqn:E. revert l E. induction k as [k IH] using lt_wf_ind. intros l E.
  destruct (bits_split l) as [->|[K|(a & r & -> & K1 & K2)]]; auto. apply H2; auto. apply (IH (N.to_nat (lenN r))); auto. lia.
Qed.
Lemma pack_spec : forall l, bit_bytes l (pack_bits l).
Proof.
  induction l as [|l H|a r H IH] using bits_ind; [constructor| |].
  - destruct (short_cases l H) as [-> _]. now constructor.
  - destruct (full_cases a H) as [-> _]. now constructor.
Qed.
Lemma pack_unique : forall l bs, bit_bytes l bs -> bs = pack_bits l.
Proof.
  induction 1 as [|l H|l rest bs H B IH]; [reflexivity| |].
  - now destruct (short_cases l H) as [-> _].
  - destruct (full_cases l H) as [-> _]. now rewrite IH.
Qed.
Definition pad_len (l : list bool) : nat := N.to_nat (8 * div_ceil8 (lenN l) - lenN l).
Lemma div_ceil_full : forall x, div_ceil8 (8 + x) = 1 + div_ceil8 x.
Proof. intro x. unfold div_ceil8. replace (8 + x + 7) with (1 * 8 + (x + 7)) by lia. now rewrite N.div_add_l. Qed.
Lemma pack_len : forall l, lenN (pack_bits l) = div_ceil8 (lenN l).
Proof.
  induction l as [|l H|a r H IH] using bits_ind; [reflexivity| |].
  - destruct (short_cases l H) as [-> _]. change (lenN [byte_of l]) with 1. unfold div_ceil8. apply N.div_unique with (lenN l - 1); lia.
  - destruct (full_cases a H) as [-> _]. rewrite lenN_cons, lenN_app, IH, H, div_ceil_full. lia.
Qed.
Lemma pack_ok : forall l, bytes_ok (pack_bits l).
Proof.
  induction l as [|l H|a r H IH] using bits_ind; [constructor| |].
  - destruct (short_cases l H) as (-> & B & _). constructor; [exact B|constructor].
  - destruct (full_cases a H) as (-> & B & _). now constructor.
Qed.
Lemma unpack_pack : forall l, unpack_bits (pack_bits l) = l ++ repeat false (pad_len l).
Proof.
  induction l as [|l H|a r H IH] using bits_ind; [reflexivity| |].
  - destruct (short_cases l H) as (-> & B & U). unfold unpack_bits. cbn [flat_map]. rewrite U, app_nil_r. do 2 f_equal. unfold pad_len.
    assert (div_ceil8 (lenN l) = 1) as -> by (unfold div_ceil8; symmetry; apply N.div_unique with (lenN l - 1); lia). unfold lenN in *. lia.
  - destruct (full_cases a H) as (-> & B & U). unfold unpack_bits in *. cbn [flat_map]. rewrite U, IH, <- app_assoc. do 3 f_equal. unfold pad_len.
    rewrite lenN_app, H, div_ceil_full. lia.
Qed.
Lemma unpack_len : forall l, lenN (unpack_bits l) = 8 * lenN l.
Proof. induction l as [|b l IH]; [reflexivity|]. unfold unpack_bits in *. cbn [flat_map]. rewrite lenN_app, IH, lenN_cons. change (lenN (unpack_byte b)) with 8. lia. Qed.
Lemma pack_unpack : forall l, bytes_ok l -> pack_bits (unpack_bits l) = l.
Proof.
  induction l as [|b l IH]; intro H; [reflexivity|]. inv H. unfold unpack_bits in *. cbn [flat_map].
  destruct (full_cases (unpack_byte b) eq_refl) as (-> & _ & _). rewrite byte_back by assumption. now rewrite IH.
Qed.
Lemma ceil_mult : forall x, x mod 8 = 0 -> 8 * div_ceil8 x = x.
Proof. intros x H. unfold div_ceil8. pose proof (N.div_mod x 8 ltac:(lia)) as E. rewrite H in E. replace (x + 7) with (x / 8 * 8 + 7) by lia. rewrite N.div_add_l by lia. change (7 / 8) with 0. lia. Qed.

Definition pmt_full (p : pmt bytes) : Prop := pmt_ok p /\ lenN (pm_bits p) mod 8 = 0.
Lemma pmt_codec : codec pmt_dec pmt_encode pmt_full.
Proof.
  unfold pmt_dec. eapply newtype_codec; [apply dec3_codec; [apply array_codec; lia|apply vec_codec; [reflexivity|apply hash_codec]|apply bytevec_codec; reflexivity]| |].
  - intros [n bits hs] ((W1 & W2 & W3 & W4) & W5). cbn [pm_num pm_bits pm_hashes] in *. exists (le_bytes 4 n, hs, pack_bits bits). cbn [fst snd]. split; [|split].
    + split; [split; [unfold lenN; now rewrite le_bytes_length|apply le_bytes_ok]|]. split; [split; [exact W3|exact W2]|]. split; [|apply pack_ok].
      rewrite pack_len. exact W4.
    + rewrite le_val_bytes by exact W1. rewrite unpack_pack. unfold pad_len. rewrite ceil_mult, N.sub_diag by exact W5. cbn [repeat N.to_nat]. now rewrite app_nil_r.
    + unfold pmt_encode. cbn [pm_num pm_bits pm_hashes]. now rewrite pack_len.
  - intros [[n hs] pk] b ((A1 & A2) & (B1 & B2) & (C1 & C2)) H. inv H. cbn [fst snd] in *. split.
    + split; [|cbn [pm_bits]; rewrite unpack_len, N.mul_comm; now apply N.mod_mul]. unfold pmt_ok. cbn [pm_num pm_bits pm_hashes].
      split; [|split; [exact B2|split; [exact B1|]]].
      * apply le_val_lt in A2. rewrite A1 in A2. exact A2.
      * rewrite unpack_len. change ((8 * lenN pk + 7) / 8) with (div_ceil8 (8 * lenN pk)). pose proof (ceil_mult (8 * lenN pk) ltac:(rewrite N.mul_comm; now apply N.mod_mul)). unfold MAX_VEC_SIZE in C1. lia.
    + unfold pmt_encode. cbn [pm_num pm_bits pm_hashes]. rewrite unpack_len, pack_unpack by exact C2.
      pose proof (ceil_mult (8 * lenN pk) ltac:(rewrite N.mul_comm; now apply N.mod_mul)). replace (div_ceil8 (8 * lenN pk)) with (lenN pk) by lia.
      now rewrite (le_bytes_of_val 4).
Qed.
Lemma mb_codec : codec mb_dec mb_encode (fun m => header_ok (mb_header m) /\ pmt_full (mb_txn m)).
Proof.
  unfold mb_dec. eapply newtype_codec; [apply dec2_codec; [apply header_codec|apply pmt_codec]| |].
  - intros [h t] [W1 W2]. exists (h, t). auto.
  - intros [h t] b [W1 W2] H. inv H. split; [split; auto|reflexivity].
Qed.
Lemma encode_wire : forall p w, wire_pmt p w <-> w = pmt_encode p.
Proof.
  intros p w. unfold wire_pmt, pmt_encode. rewrite (wire_list_eq _ (fun h => h) (fun h => h)) by reflexivity. split.
  - intros (pk & B & ->). apply pack_unique in B as ->. rewrite <- wire_bytes_eq. unfold script_encode. now rewrite pack_len.
  - intros ->. exists (pack_bits (pm_bits p)). split; [apply pack_spec|]. rewrite <- wire_bytes_eq. unfold script_encode. now rewrite pack_len.
Qed.
Definition padded (p : pmt bytes) : pmt bytes :=
  {| pm_num := pm_num p; pm_bits := pm_bits p ++ repeat false (pad_len (pm_bits p)); pm_hashes := pm_hashes p |}.
Lemma ceil_ge : forall x, x <= 8 * div_ceil8 x.
Proof. intro x. unfold div_ceil8. pose proof (N.div_mod (x + 7) 8 ltac:(lia)). pose proof (N.mod_lt (x + 7) 8 ltac:(lia)). lia. Qed.
Lemma padded_len : forall p, lenN (pm_bits (padded p)) = 8 * div_ceil8 (lenN (pm_bits p)).
Proof. intro p. cbn [padded pm_bits]. rewrite lenN_app. unfold lenN at 2. rewrite repeat_length. unfold pad_len. pose proof (ceil_ge (lenN (pm_bits p))). lia. Qed.
Lemma padded_ceil : forall p, div_ceil8 (lenN (pm_bits (padded p))) = div_ceil8 (lenN (pm_bits p)).
Proof. intro p. rewrite padded_len. assert (8 * div_ceil8 (8 * div_ceil8 (lenN (pm_bits p))) = 8 * div_ceil8 (lenN (pm_bits p))); [|lia]. apply ceil_mult. rewrite N.mul_comm. now apply N.mod_mul. Qed.
Lemma padded_encode : forall p, pmt_encode (padded p) = pmt_encode p.
Proof.
  intro p. unfold pmt_encode. rewrite padded_ceil. cbn [padded pm_num pm_bits pm_hashes].
  rewrite <- (unpack_pack (pm_bits p)), pack_unpack by apply pack_ok. reflexivity.
Qed.
Lemma padded_full : forall p, pmt_ok p -> pmt_full (padded p).
Proof.
  intros p (W1 & W2 & W3 & W4). split; [|rewrite padded_len, N.mul_comm; now apply N.mod_mul].
  unfold pmt_ok. split; [exact W1|]. split; [exact W2|]. split; [exact W3|]. pose proof (padded_ceil p) as E. unfold div_ceil8 in E. now rewrite E.
Qed.
