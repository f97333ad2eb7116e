(** C31, continued: the unused bits of the last byte of flags. *)
From Verif Require Import Base MDec LDec MWitness MTx MMerkle MPmt SWire SMerkle SPmt LBuilt LWitness LHex LPmt LPmt3 PPmt SBlock.
Local Open Scope N_scope.

(** Whatever bits are added up to the next full byte, the proof is read the same way: they are not looked at. *)
Theorem C31_padding : forall H p pad a b x ms ixs,
  (lenN (pm_bits p ++ pad) + 7) / 8 = (lenN (pm_bits p) + 7) / 8 -> lenN (pm_bits p) + 8 < 2 ^ 32 -> lenN (pm_hashes p) < 2 ^ 32 ->
  extract_matches beqb (node H) p ms ixs = Ret (a, b, Ok x) ->
  extract_matches beqb (node H) {| pm_num := pm_num p; pm_bits := pm_bits p ++ pad; pm_hashes := pm_hashes p |} ms ixs = Ret (a, b, Ok x).
Proof.
  intros H p pad a b x ms ixs E Lb Lh X. assert (LR : lenN (pm_bits p ++ pad) = lenN (pm_bits p) + lenN pad) by apply lenN_app.
  assert (Hk : lenN pad < 8). { rewrite LR in E. pose proof (N.div_mod (lenN (pm_bits p) + lenN pad + 7) 8 ltac:(lia)). pose proof (N.div_mod (lenN (pm_bits p) + 7) 8 ltac:(lia)). pose proof (N.mod_lt (lenN (pm_bits p) + lenN pad + 7) 8 ltac:(lia)). pose proof (N.mod_lt (lenN (pm_bits p) + 7) 8 ltac:(lia)). lia. }
  apply (C31_accepts beqb beqb_spec) in X as (Hn & h & t & pd & TH & F & D & (W1 & W2 & W3) & K); [|lia|exact Lh].
  apply (C31_accepts beqb beqb_spec); cbn [pm_num pm_bits pm_hashes]; [lia|exact Lh|]. split; [exact Hn|]. exists h, t, (pd ++ pad). split; [exact TH|]. split; [exact F|]. split; [exact D|]. split; [|exact K].
  split; [cbn [pm_bits]; rewrite W1; now rewrite app_assoc|]. split; [exact W2|]. cbn [pm_bits]. congruence.
Qed.
(** "A proof has one encoding" fails: for every block of one transaction there are two messages that prove it. *)
Theorem C31_one_message_refuted : forall H hd, header_ok hd -> exists m w m' w',
  decode_from_slice_unbounded mb_dec w = Ret (Ok m, []) /\ decode_from_slice_unbounded mb_dec w' = Ret (Ok m', []) /\ w <> w' /\
  mb_header m = hd /\ mb_header m' = hd /\
  mb_extract H m [] [] = Ret ([h_merkle hd], [0], Ok tt) /\ mb_extract H m' [] [] = Ret ([h_merkle hd], [0], Ok tt).
Proof.
  intros H hd OK. set (t k := {| pm_num := 1; pm_bits := true :: k :: repeat false 6; pm_hashes := [h_merkle hd] |}).
  assert (HM : hash_ok (h_merkle hd)) by apply OK.
  assert (P : forall k, pmt_ok (t k)). { intro k. split; [reflexivity|]. split; [repeat constructor; apply HM|]. split; vm_compute; discriminate. }
  assert (D : forall k, decode_from_slice_unbounded mb_dec (mb_encode {| mb_header := hd; mb_txn := t k |}) = Ret (Ok {| mb_header := hd; mb_txn := t k |}, [])).
  { intro k. apply C31_block_codec.
    - unfold mb_encode, pmt_encode. cbn [mb_header mb_txn]. apply bytes_ok_app. split; [now apply header_encode_ok|]. unfold t. cbn [pm_num pm_hashes pm_bits].
      apply bytes_ok_app. split; [apply le_bytes_ok|]. apply bytes_ok_app. split; [|destruct k; repeat constructor].
      change (slice_encode (fun h : bytes => h) [h_merkle hd]) with (1 :: h_merkle hd ++ []). rewrite app_nil_r. constructor; [reflexivity|apply HM].
    - exists (pmt_encode (t k)). cbn [mb_header mb_txn]. split; [now apply C31_encode|]. rewrite app_nil_r. split; [reflexivity|]. split; [exact OK|]. split; [apply P|reflexivity]. }
  exists {| mb_header := hd; mb_txn := t false |}, (mb_encode {| mb_header := hd; mb_txn := t false |}), {| mb_header := hd; mb_txn := t true |}, (mb_encode {| mb_header := hd; mb_txn := t true |}).
  split; [apply D|]. split; [apply D|]. split.
  { intro E. pose proof (D false) as A. rewrite E, (D true) in A. discriminate A. }
  split; [reflexivity|]. split; [reflexivity|]. split; unfold mb_extract; cbn [mb_header mb_txn]; unfold t;
    match goal with |- rbind ?e _ = _ => change e with (Ret ([h_merkle hd], [0], Ok (E := mb_err) (h_merkle hd))) end; cbn [rbind]; rewrite (proj2 (beqb_spec _ _) eq_refl); reflexivity.
Qed.
Example C31_padding_ex : header_ok {| h_version := 1; h_prev := repeat 3 32; h_merkle := repeat 5 32; h_time := 9; h_bits := 2; h_nonce := 7 |} /\ let p := {| pm_num := 1; pm_bits := [true]; pm_hashes := [repeat 5 32] |} in
  extract_matches beqb (node (fun x => x)) p [] [] = Ret ([repeat 5 32], [0], Ok (repeat 5 32)) /\ (lenN (pm_bits p ++ [true; false; true]) + 7) / 8 = (lenN (pm_bits p) + 7) / 8.
Proof. split; [|split; reflexivity]. repeat split; try reflexivity; repeat constructor. Qed.
Print Assumptions C31_padding.
Print Assumptions C31_one_message_refuted.
