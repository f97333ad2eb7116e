(** C16: witness versions as numbers, opcodes, texts and script instructions. *)
From Coq Require Import String.
From Verif Require Import Base MDec LDec MText SText LText PText MScript SScript LScript LScript3 LScript4 PScript MWitVer.
Local Open Scope N_scope.

(** An opcode is that of a version exactly if it is 0 or one of OP_1 to OP_16; the error carries the number or opcode refused. *)
Theorem C16_version_opcode : forall op,
  (forall v, wv_try_from_opcode op = Ok v <-> v <= 16 /\ op = version_op v) /\
  (forall e, wv_try_from_opcode op = Err e <-> e = op /\ forall v, v <= 16 -> op <> version_op v) /\
  (forall v, v <= 16 -> version_to_opcode v = version_op v) /\
  (forall v, wv_try_from_u8 op = Ok v <-> v = op /\ v <= 16) /\ (forall e, wv_try_from_u8 op = Err e <-> e = op /\ 16 < e).
Proof.
  intro op. unfold version_op, version_to_opcode, wv_try_from_opcode, wv_try_from_u8, OP_1, OP_16, OP_PUSHBYTES_0.
  assert (C : (op = 0 /\ (if op =? 0 then Ok 0 else if (81 <=? op) && (op <=? 96) then if op - 81 + 1 <=? 16 then Ok (op - 81 + 1) else Err (op - 81 + 1) else Err op) = @Ok N N 0) \/
    (81 <= op <= 96 /\ (if op =? 0 then Ok 0 else if (81 <=? op) && (op <=? 96) then if op - 81 + 1 <=? 16 then Ok (op - 81 + 1) else Err (op - 81 + 1) else Err op) = @Ok N N (op - 80)) \/
    (op <> 0 /\ ~ 81 <= op <= 96 /\ (if op =? 0 then Ok 0 else if (81 <=? op) && (op <=? 96) then if op - 81 + 1 <=? 16 then Ok (op - 81 + 1) else Err (op - 81 + 1) else Err op) = @Err N N op)).
  { destruct (N.eqb_spec op 0) as [->|Z]; [left; auto|]. right. destruct (N.leb_spec 81 op), (N.leb_spec op 96); cbn [andb]; try (right; split; [exact Z|]; split; [lia|reflexivity]).
    left. split; [lia|]. replace (op - 81 + 1) with (op - 80) by lia. destruct (N.leb_spec (op - 80) 16); [reflexivity|lia]. }
  split; [|split; [|split; [|split]]].
  - intros v. destruct C as [[Z ->]|[[R ->]|(Z & R & ->)]]; split.
    + intro K. assert (v = 0) as -> by congruence. split; [lia|exact Z].
    + intros [L K]. destruct (N.eqb_spec v 0); [congruence|lia].
    + intro K. assert (v = op - 80) as -> by congruence. split; [lia|]. destruct (N.eqb_spec (op - 80) 0); lia.
    + intros [L K]. f_equal. destruct (N.eqb_spec v 0); lia.
    + discriminate.
    + intros [L K]. destruct (N.eqb_spec v 0); lia.
  - intros e. destruct C as [[Z ->]|[[R ->]|(Z & R & ->)]]; split.
    + discriminate.
    + intros [_ K]. exfalso. apply (K 0); [lia|exact Z].
    + discriminate.
    + intros [_ K]. exfalso. apply (K (op - 80)); [lia|]. destruct (N.eqb_spec (op - 80) 0); lia.
    + intro K. split; [congruence|]. intros v L Q. destruct (N.eqb_spec v 0); lia.
    + intros [-> _]. reflexivity.
  - intros v L. destruct (N.eqb_spec v 0); lia.
  - intros v. destruct (N.leb_spec op 16); split; [intro K; assert (v = op) by congruence; lia|intros [-> _]; reflexivity|discriminate|intros [-> K]; lia].
  - intros e. destruct (N.leb_spec op 16); split; [discriminate|intros [-> K]; lia|intro K; assert (e = op) by congruence; lia|intros [-> _]; reflexivity].
Qed.
Print Assumptions C16_version_opcode.

(** As text: the decimal numerals up to 16, with the leading zeros and the plus sign that parsing of numbers allows; numbers from 17
    to 255 are refused as versions, all other texts as numbers.  What is displayed reads back. *)
Theorem C16_version_text : forall s,
  (forall v, wv_from_str s = Ok v <-> int_text digit10 10 false s (Z.of_N v) /\ v <= 16) /\
  (forall no, wv_from_str s = Err (WvInvalid no) <-> int_text digit10 10 false s (Z.of_N no) /\ 17 <= no <= 255) /\
  (forall v, v <= 16 -> wv_from_str (wv_display v) = Ok v).
Proof.
  assert (I : forall s z, int_from_str U8t s = Ok z <-> int_text digit10 10 false s z /\ (0 <= z < 256)%Z).
  { intros s z. rewrite int_ok by (cbn; lia). unfold int_range. cbn. reflexivity. }
  assert (A : forall s v, wv_from_str s = Ok v <-> int_text digit10 10 false s (Z.of_N v) /\ v <= 16).
  { intros s v. unfold wv_from_str, wv_try_from_u8. specialize (I s). destruct (int_from_str U8t s) as [z|e].
    - destruct (proj1 (I z) eq_refl) as [T R]. destruct (N.leb_spec (Z.to_N z) 16); split.
      + intro K. assert (v = Z.to_N z) as -> by congruence. rewrite Z2N.id by lia. auto.
      + intros [T' L]. assert (K : @Ok Z parse_int_error z = Ok (Z.of_N v)) by (apply I; split; [exact T'|lia]). assert (z = Z.of_N v) as -> by congruence. now rewrite N2Z.id.
      + discriminate.
      + intros [T' L]. assert (K : @Ok Z parse_int_error z = Ok (Z.of_N v)) by (apply I; split; [exact T'|lia]). assert (z = Z.of_N v) as -> by congruence. lia.
    - split; [discriminate|]. intros [T' L]. assert (K : @Err Z parse_int_error e = Ok (Z.of_N v)) by (apply I; split; [exact T'|lia]). discriminate. }
  intros s. split; [apply A|]. split.
  - intros v. unfold wv_from_str, wv_try_from_u8. specialize (I s). destruct (int_from_str U8t s) as [z|e].
    + destruct (proj1 (I z) eq_refl) as [T R]. destruct (N.leb_spec (Z.to_N z) 16); split.
      * discriminate.
      * intros [T' L]. assert (K : @Ok Z parse_int_error z = Ok (Z.of_N v)) by (apply I; split; [exact T'|lia]). assert (z = Z.of_N v) as -> by congruence. lia.
      * intro K. assert (v = Z.to_N z) as -> by congruence. rewrite Z2N.id by lia. split; [exact T|lia].
      * intros [T' L]. assert (K : @Ok Z parse_int_error z = Ok (Z.of_N v)) by (apply I; split; [exact T'|lia]). assert (z = Z.of_N v) as -> by congruence. now rewrite N2Z.id.
    + split; [discriminate|]. intros [T' L]. assert (K : @Err Z parse_int_error e = Ok (Z.of_N v)) by (apply I; split; [exact T'|lia]). discriminate.
  - intros v L. apply A. split; [|exact L]. unfold wv_display. constructor. apply fmt_u_canonical.
Qed.
Print Assumptions C16_version_text.

(** The first instruction of a witness output script gives its version, the second its program; an instruction of another kind
    is no version. *)
Theorem C16_version_instruction : forall i v,
  (wv_try_from_instruction i = Ok v <-> v <= 16 /\ (i = Op (version_op v) \/ v = 0 /\ i = PushBytes [])) /\
  (forall s, bytes_ok s -> witness_version s = Some v ->
     exists first p, instructions s = Ret [Ok first; Ok (PushBytes p)] /\ wv_try_from_instruction first = Ok v /\ s = t_witness v p).
Proof.
  assert (A : forall i v, wv_try_from_instruction i = Ok v <-> v <= 16 /\ (i = Op (version_op v) \/ v = 0 /\ i = PushBytes [])).
  { intros i v. destruct i as [d|op]; cbn [wv_try_from_instruction].
    - destruct d; split; [intro K; assert (v = 0) as -> by congruence; split; [lia|auto]|intros [_ [K|[-> _]]]; [discriminate|reflexivity]|discriminate|intros [_ [K|[_ K]]]; discriminate].
    - destruct (C16_version_opcode op) as (B & _). destruct (wv_try_from_opcode op) as [w|e]; split.
      + intro K. assert (w = v) as -> by congruence. destruct (proj1 (B v) eq_refl) as [L ->]. auto.
      + intros [L [K|[_ K]]]; [|discriminate]. assert (Q : @Ok N N w = Ok v) by (apply B; split; [exact L|congruence]). congruence.
      + discriminate.
      + intros [L [K|[_ K]]]; [|discriminate]. assert (Q : @Err N N e = Ok v) by (apply B; split; [exact L|congruence]). discriminate. }
  intros i v. split; [apply A|]. intros s Hs W. apply C16_witness_version in W as (p & [L P] & ->).
  assert (F : exists first e, version_op v :: lenN p :: p = e ++ (lenN p :: p) /\ encodes first e /\ wv_try_from_instruction first = Ok v).
  { destruct (N.eqb_spec v 0) as [->|Z].
    - exists (PushBytes []), [0]. split; [reflexivity|]. split; [apply (enc_direct []); cbn; lia|reflexivity].
    - exists (Op (version_op v)), [version_op v]. split; [reflexivity|]. split; [constructor; unfold version_op; destruct (N.eqb_spec v 0); lia|]. apply A. auto. }
  destruct F as (first & e & Q & En & Tr). exists first, p. split; [|split; [exact Tr|reflexivity]].
  refine (proj2 (proj1 (built_reads false (t_witness v p) [first; PushBytes p]) _)). split; [exact Hs|]. exists [e; lenN p :: p]. split; [cbn [concat]; rewrite app_nil_r; exact Q|].
  constructor; [split; [exact En|discriminate]|]. constructor; [|constructor]. split; [apply enc_direct; lia|discriminate].
Qed.
Print Assumptions C16_version_instruction.
Example C16_version_ex : wv_from_str (lit "+016") = Ok 16 /\ wv_from_str (lit "17") = Err (WvInvalid 17) /\
  (match wv_from_str (lit "256") with Err (WvUnparsable _) => True | _ => False end) /\
  wv_try_from_opcode 96 = Ok 16 /\ wv_try_from_opcode 97 = Err 97 /\
  wv_try_from_instruction (PushBytes [1]) = Err WvDataPush /\ witness_version (t_witness 1 [78; 115]) = Some 1.
Proof. vm_compute. auto 10. Qed.
