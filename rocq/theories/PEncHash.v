(** Property C73: hashing an object is hashing its serialization.  Model: MEncHash.v; the hash functions are those of SSha2.v and
    SHash2.v, encoders with their content those of SEnc.v. *)
From Verif Require Import Base MDec MTx MHash MSha2 MHash2 MHmac MEnc MEncHash SEnc SSha2 SHash SHash2 SHmac SWire LTx2 LEnc LHmac LHashP PEnc PHash LTxEx.
From Verif Require LHex LTxEx LSha2c.
Local Open Scope N_scope.

(** The pieces that an encoder hands over one after the other make up its content, and feeding them is all the loop does. *)
Lemma drain_pieces : forall G (input : G -> bytes -> rust G) fuel e, sound e -> (steps e <= fuel)%nat ->
  exists pieces, concat pieces = content e /\ forall g, drain_to_engine input fuel e g =
    Some ((fix go (g : G) (ps : list bytes) : rust G := match ps with [] => Ret g | p :: ps => rbind (input g p) (fun g => go g ps) end) g pieces).
Proof.
  intros G input. induction fuel as [|f IH]; intros e SD Hf; [pose proof (steps_pos e SD); lia|]. destruct (adv_law e SD) as (ch & Hc & A). cbn [drain_to_engine]. rewrite Hc.
  destruct (adv e) as [[e' [|]]|] eqn:E; [| |contradiction].
  - destruct A as (C & SD' & L). destruct (IH e' SD' ltac:(lia)) as (ps & CP & K). exists (ch :: ps). split; [cbn [concat]; now rewrite CP, C|]. intro g. destruct (input g ch); cbn [rbind]; [apply K|reflexivity].
  - destruct A as (C & _). exists [ch]. split; [cbn [concat]; rewrite app_nil_r; now symmetry|]. intro g. destruct (input g ch); reflexivity.
Qed.
Lemma drain_feed : forall h fuel e, sound e -> (steps e <= fuel)%nat ->
  exists pieces, concat pieces = content e /\ forall g, drain_to_engine (h_input h) fuel e g = Some (feed h g pieces).
Proof.
  intros h fuel e SD Hf. destruct (drain_pieces _ (h_input h) fuel e SD Hf) as (ps & C & K). exists ps. split; [exact C|]. intro g. rewrite K. f_equal. clear. revert g.
  induction ps as [|p ps IH]; intro g; [reflexivity|]. cbn [feed]. destruct (h_input h g p); cbn [rbind]; [apply IH|reflexivity].
Qed.

(** * Hashing an object *)
(** For every hash function, every encoder and every way it cuts its content into chunks: the hash is the standard one of the content. *)
Theorem C73_hash : forall h H e, In (h, H) hashers -> sound e -> bytes_ok (content e) -> lenN (content e) < 2 ^ 61 ->
  forall fuel, (steps e <= fuel)%nat -> drain_to_hash h fuel e = Some (Ret (H (content e))) /\ encode_to_hash h fuel (Ret e) = Some (Ret (H (content e))).
Proof.
  intros h H e I SD OK L fuel Hf. assert (K : drain_to_hash h fuel e = Some (Ret (H (content e)))).
  { unfold drain_to_hash. destruct (drain_feed h fuel e SD Hf) as (ps & C & K). rewrite K. f_equal. pose proof all_compute as A. rewrite Forall_forall in A. specialize (A _ I). cbn [fst snd] in A.
    specialize (A ps). rewrite C in A. exact (A OK L). }
  split; [exact K|exact K].
Qed.
(** In the middle of other input, any objects and bytes in any order: the hash of everything put end to end. *)
Inductive part := Bytes (b : bytes) | Object (e : enc).
Definition part_bytes (p : part) : bytes := match p with Bytes b => b | Object e => content e end.
Definition part_sound (p : part) : Prop := match p with Bytes _ => True | Object e => sound e end.
Definition put (h : hasher) (p : part) (g : engine256) : option (rust engine256) :=
  match p with Bytes b => Some (h_input h g b) | Object e => drain_to_engine (h_input h) (steps e) e g end.
Fixpoint put_all (h : hasher) (ps : list part) (g : engine256) : option (rust engine256) :=
  match ps with
  | [] => Some (Ret g)
  | p :: ps => match put h p g with Some (Ret g) => put_all h ps g | r => r end
  end.
Lemma put_feed : forall h ps, Forall part_sound ps -> exists pieces, concat pieces = concat (map part_bytes ps) /\ forall g, put_all h ps g = Some (feed h g pieces).
Proof.
  intros h. induction ps as [|p ps IH]; intro F; [now exists []|]. inv F. destruct (IH H2) as (qs & C & K).
  assert (A : exists rs, concat rs = part_bytes p /\ forall g, put h p g = Some (feed h g rs)).
  { destruct p as [b|e]; cbn [put part_bytes part_sound] in *; [|now apply drain_feed]. exists [b]. split; [apply app_nil_r|]. intro g. cbn [feed]. now destruct (h_input h g b). }
  destruct A as (rs & CR & KR). exists (rs ++ qs). split; [rewrite concat_app; cbn [map concat]; now rewrite CR, C|]. intro g. cbn [put_all]. rewrite KR, feed_app. destruct (feed h g rs); cbn [rbind]; [apply K|reflexivity].
Qed.
Theorem C73_parts : forall h H ps, In (h, H) hashers -> Forall part_sound ps -> bytes_ok (concat (map part_bytes ps)) -> lenN (concat (map part_bytes ps)) < 2 ^ 61 ->
  exists g, put_all h ps (h_default h) = Some (Ret g) /\ h_finalize h g = Ret (H (concat (map part_bytes ps))) /\ n_bytes_hashed g = lenN (concat (map part_bytes ps)).
Proof.
  intros h H ps I F OK L. destruct (put_feed h ps F) as (qs & C & K). rewrite K. pose proof all_compute as A. rewrite Forall_forall in A. specialize (A _ I). cbn [fst snd] in A. specialize (A qs). rewrite C in A. specialize (A OK L).
  unfold hash_byte_chunks in A. destruct (feed h (h_default h) qs) as [g|] eqn:E; [|discriminate]. cbn [rbind] in A. exists g. split; [reflexivity|]. split; [exact A|].
  assert (N : forall xs a b, feed h a xs = Ret b -> e_n b = e_n a + lenN (concat xs)).
  { assert (ST : exists bs comp, h_input h = input bs comp) by (unfold hashers in I; cbn [In] in I; repeat (destruct I as [I|I]; [injection I as <- _; do 2 eexists; reflexivity|]); contradiction). destruct ST as (bs & comp & ST).
    assert (ONE : forall a x b, h_input h a x = Ret b -> e_n b = e_n a + lenN x).
    { rewrite ST. intros a x b. unfold input, u64_ck. destruct (e_n a + lenN x <? 2 ^ 64); [|discriminate]. cbn [rbind]. destruct (incomplete_block_len bs a + lenN x <? bs).
      - destruct (copy_in _ _ _); [|discriminate]. cbn [rbind]. intro Z. injection Z as <-. reflexivity.
      - match goal with |- rbind ?m _ = _ -> _ => destruct m as [[[b' h'] i']|] end; [|discriminate]. cbn [rbind]. match goal with |- rbind ?m _ = _ -> _ => destruct m end; [|discriminate]. cbn [rbind]. destruct (copy_in _ _ _); [|discriminate]. cbn [rbind]. intro Z. injection Z as <-. reflexivity. }
    induction xs as [|x xs IH]; intros a b; cbn [feed concat].
    - intro Z. injection Z as <-. change (lenN (@nil N)) with 0. lia.
    - destruct (h_input h a x) as [a'|] eqn:Q; [|discriminate]. cbn [rbind]. intro Z. apply IH in Z. apply ONE in Q. rewrite lenN_app. lia. }
  unfold n_bytes_hashed. rewrite (N _ _ _ E), C. unfold hashers in I. cbn [In] in I. repeat (destruct I as [I|I]; [injection I as <- _; reflexivity|]). contradiction.
Qed.

Lemma input_count : forall bs comp (a : engine256) x b, input bs comp a x = Ret b -> e_n b = e_n a + lenN x.
Proof.
  intros bs comp a x b. unfold input, u64_ck. destruct (e_n a + lenN x <? 2 ^ 64); [|discriminate]. cbn [rbind]. destruct (incomplete_block_len bs a + lenN x <? bs).
  - destruct (copy_in _ _ _); [|discriminate]. cbn [rbind]. intro Z. injection Z as <-. reflexivity.
  - match goal with |- rbind ?m _ = _ -> _ => destruct m as [[[b' h'] i']|] end; [|discriminate]. cbn [rbind]. match goal with |- rbind ?m _ = _ -> _ => destruct m end; [|discriminate]. cbn [rbind]. destruct (copy_in _ _ _); [|discriminate]. cbn [rbind]. intro Z. injection Z as <-. reflexivity.
Qed.
Lemma in_input : forall h H, In (h, H) hashers -> exists bs comp, h_input h = input bs comp.
Proof. intros h H I. unfold hashers in I. cbn [In] in I. repeat (destruct I as [I|I]; [injection I as <- _; do 2 eexists; reflexivity|]). contradiction. Qed.
Lemma feed_count : forall h bs comp, h_input h = input bs comp -> forall xs a b, feed h a xs = Ret b -> e_n b = e_n a + lenN (concat xs).
Proof.
  intros h bs comp ST. induction xs as [|x xs IH]; intros a b; cbn [feed concat].
  - intro Z. injection Z as <-. change (lenN (@nil N)) with 0. lia.
  - destruct (h_input h a x) as [a'|] eqn:Q; [|discriminate]. cbn [rbind]. intro Z. apply IH in Z. rewrite ST in Q. apply input_count in Q. rewrite lenN_app. lia.
Qed.

(** * The objects that the library hashes so *)
(** Block hashes (primitives/src/block.rs:493) and transaction ids. *)
Theorem C73_transaction : forall h H tx, In (h, H) hashers -> tx_shape tx -> lenN (tx_encode tx) < 2 ^ 61 -> exists fuel,
  forall more, encode_to_hash h (fuel + more) (tx_encoder tx) = Some (Ret (H (tx_encode tx))).
Proof.
  intros h H tx I SH L. destruct (C04_transaction tx SH) as (e & E & SD & C & _). exists (steps e). intro more. rewrite E, <- C. apply C73_hash; auto; [|now rewrite C|lia]. rewrite C. now apply LHex.tx_encode_ok.
Qed.

(** * The counter *)
(** A plain engine counts what it was given, in any pieces. *)
Theorem C73_count : forall h H pieces g, In (h, H) hashers -> feed h (h_default h) pieces = Ret g -> n_bytes_hashed g = lenN (concat pieces).
Proof.
  intros h H ps g I E. destruct (in_input h H I) as (bs & comp & ST). unfold n_bytes_hashed. rewrite (feed_count h bs comp ST _ _ _ E).
  unfold hashers in I. cbn [In] in I. repeat (destruct I as [I|I]; [injection I as <- _; reflexivity|]). contradiction.
Qed.
(** An HMAC engine counts one block more, and a tagged engine the 64 bytes of the tag. *)
Theorem C73_count_more : (forall h H K pieces i g, In (h, H) hashers -> h_block h <= 128 -> bytes_ok K -> lenN K < 2 ^ 61 ->
    hmac_new h K = Ret i -> hmac_feed h i pieces = Ret g -> hmac_n_bytes_hashed g = h_block h + lenN (concat pieces)) /\
  (forall tag s pieces g, bytes_ok tag -> lenN tag < 2 ^ 61 -> hash_tag tag = Ret s -> feed (sha256t_h s) (h_default (sha256t_h s)) pieces = Ret g -> n_bytes_hashed g = 64 + lenN (concat pieces)).
Proof.
  split.
  - intros h H K ps i g I HB OK L EN EF. rewrite hmac_feed_spec in EF. destruct (feed h (iengine i) ps) as [j|] eqn:EJ; [|discriminate]. injection EF as <-. unfold hmac_n_bytes_hashed, n_bytes_hashed. cbn [iengine].
    destruct (in_input h H I) as (bs & comp & ST). rewrite (feed_count h bs comp ST _ _ _ EJ). f_equal.
    pose proof all_compute as AC. rewrite Forall_forall in AC. specialize (AC _ I). pose proof all_sized as AS. rewrite Forall_forall in AS. specialize (AS _ I). cbn [fst snd] in AC, AS.
    assert (LB : h_len h <= h_block h) by (unfold hashers in I; cbn [In] in I; repeat (destruct I as [I|I]; [injection I as <- _; vm_compute; discriminate|]); contradiction).
    destruct (hmac_new_spec h H K AC AS LB HB OK L) as (i' & o & E & EI & _). rewrite EN in E. injection E as ->. cbn [iengine].
    rewrite ST in EI. apply input_count in EI. rewrite EI. assert (Z : e_n (h_default h) = 0) by (unfold hashers in I; cbn [In] in I; repeat (destruct I as [I|I]; [injection I as <- _; reflexivity|]); contradiction).
    rewrite Z, map_lenN. apply (key_block_facts h H K AS LB OK).
  - intros tag s ps g OT LT E EF. rewrite LSha2c.hash_tag_spec in E by assumption. injection E as <-. unfold n_bytes_hashed. match type of EF with feed ?h _ _ = _ => destruct (ltac:(do 2 eexists; reflexivity) : exists bs comp, h_input h = input bs comp) as (bs & comp & ST) end. rewrite (feed_count _ bs comp ST _ _ _ EF). f_equal.
    cbn [sha256t_h h_default to_engine e_n]. unfold SHashApi.midstate_of. cbn [mid_n]. rewrite lenN_app. destruct (LSha2c.SHA256_len tag OT) as [A _]. rewrite A. reflexivity.
Qed.

(** FINDING: "the number of bytes already input into the engine" is not what those two count: with nothing input it is not 0. *)
Theorem C73_count_refuted : ~ (forall h H K i, In (h, H) hashers -> hmac_new h K = Ret i -> hmac_n_bytes_hashed i = 0) /\
  ~ (forall tag s, hash_tag tag = Ret s -> n_bytes_hashed (h_default (sha256t_h s)) = 0).
Proof.
  assert (I : In (sha256_h, SHA256) hashers) by (left; reflexivity). split; intro A.
  - pose proof all_compute as AC. rewrite Forall_forall in AC. specialize (AC _ I). pose proof all_sized as AS. rewrite Forall_forall in AS. specialize (AS _ I). cbn [fst snd] in AC, AS.
    destruct (hmac_new_spec sha256_h SHA256 [] AC AS ltac:(discriminate) ltac:(discriminate) ltac:(constructor) ltac:(reflexivity)) as (i & o & E & _).
    pose proof (proj1 C73_count_more sha256_h SHA256 [] [] _ _ I ltac:(discriminate) ltac:(constructor) ltac:(reflexivity) E eq_refl) as B. rewrite (A _ _ _ _ I E) in B. discriminate.
  - pose proof (LSha2c.hash_tag_spec [] ltac:(constructor) ltac:(reflexivity)) as E. pose proof (proj2 C73_count_more [] _ [] _ ltac:(constructor) ltac:(reflexivity) E eq_refl) as B. rewrite (A _ _ E) in B. discriminate.
Qed.

(** * Non-vacuity *)
Example C73_ex_tx : exists fuel, encode_to_hash sha256d_h fuel (tx_encoder ex_tx) = Some (Ret (SHA256d (tx_encode ex_tx))).
Proof.
  destruct (C73_transaction sha256d_h SHA256d ex_tx) as (f & A); [right; left; reflexivity|apply C04_witness|vm_compute; reflexivity|]. exists (f + 0)%nat. apply A.
Qed.

Print Assumptions C73_hash. Print Assumptions C73_parts. Print Assumptions C73_transaction. Print Assumptions C73_count. Print Assumptions C73_count_more. Print Assumptions C73_count_refuted.
