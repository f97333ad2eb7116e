(** Model of the size and weight computations of bitcoin/src/blockdata/transaction.rs.  All sums of
    usize values there have non-negative terms, so a partial sum overflows exactly when the whole
    does: the model checks the whole ([usz]). *)
From Verif Require Import Base MDec MWitness MTx MAmount.
Local Open Scope N_scope.

(** a usize (or u64) expression with overflow checks *)
Definition usz (v : N) : rust N := if v <? USIZE then Ret v else Panic.
Definition u32c (v : N) : rust N := if v <=? U32_MAX then Ret v else Panic.
Definition u32_sat_add (a b : N) : N := N.min (a + b) U32_MAX.

Fixpoint sumN (l : list N) : N := match l with [] => 0 | x :: l' => x + sumN l' end.
Fixpoint rmap {A B} (f : A -> rust B) (l : list A) : rust (list B) :=
  match l with
  | [] => Ret []
  | x :: l' => rbind (f x) (fun y => rbind (rmap f l') (fun ys => Ret (y :: ys)))
  end.

(** blockdata/transaction.rs:146-153; OutPoint::SIZE = 36, Sequence::SIZE = 4 *)
Definition txin_base_size (i : txin) : rust N :=
  usz (36 + cs_encoded_size (lenN (ti_script i)) + lenN (ti_script i) + 4).
(** :162 *)
Definition txin_total_size (i : txin) : rust N :=
  rbind (txin_base_size i) (fun b => rbind (wit_size (ti_witness i)) (fun w => usz (b + w))).
(** :115-117, Weight::from_vb(..).unwrap() *)
Definition txin_legacy_weight (i : txin) : rust N := rbind (txin_base_size i) (fun b => usz (b * 4)).
(** :134-137 *)
Definition txin_segwit_weight (i : txin) : rust N :=
  rbind (txin_base_size i) (fun b => rbind (usz (b * 4)) (fun wu =>
  rbind (wit_size (ti_witness i)) (fun w => usz (wu + w)))).
(** :188, 224-227; Amount::SIZE = 8 *)
Definition txout_size (o : txout) : rust N :=
  usz (8 + cs_encoded_size (lenN (to_script o)) + lenN (to_script o)).
(** :179-183 *)
Definition txout_weight (o : txout) : rust N := rbind (txout_size o) (fun s => usz (s * 4)).

(** :364-374 *)
Definition tx_base_size (tx : transaction) : rust N :=
  rbind (rmap txin_base_size (tx_inputs tx)) (fun is_ =>
  rbind (rmap txout_size (tx_outputs tx)) (fun os =>
  usz (4 + cs_encoded_size (lenN (tx_inputs tx)) + sumN is_ +
       cs_encoded_size (lenN (tx_outputs tx)) + sumN os + 4))).
(** :377-396; uses_segwit_serialization (:572-579) is the same test as in primitives *)
Definition tx_total_size (tx : transaction) : rust N :=
  let sw := uses_segwit tx in
  rbind (rmap (fun i => if sw then txin_total_size i else txin_base_size i) (tx_inputs tx)) (fun is_ =>
  rbind (rmap txout_size (tx_outputs tx)) (fun os =>
  usz (4 + (if sw then 2 else 0) + cs_encoded_size (lenN (tx_inputs tx)) + sumN is_ +
       cs_encoded_size (lenN (tx_outputs tx)) + sumN os + 4))).
(** :358-362 *)
Definition tx_weight (tx : transaction) : rust N :=
  rbind (tx_base_size tx) (fun b => rbind (tx_total_size tx) (fun t => usz (b * 3 + t))).
(** :399-402 *)
Definition tx_vsize (tx : transaction) : rust N :=
  rbind (tx_weight tx) (fun w => Ret (Z.to_N (weight_to_vb_ceil (Z.of_N w)))).

(** ** Weight prediction *)
(** :745-749 *)
Record iwp := { iwp_script : N; iwp_witness : N }.
(** :811-817 *)
Definition saturate_to_u32 (x : N) : N := if U32_MAX <? x then U32_MAX else x.
(** :819-826 *)
Definition iwp_encoded_size (v : N) : N :=
  if v <=? 252 then 1 else if v <=? 65535 then 3 else if v <=? 4294967295 then 5 else 9.
(** :898-903, 921-927: the accumulation over the element lengths *)
Fixpoint iwp_total (lens : list N) (total : N) : N :=
  match lens with
  | [] => total
  | e :: lens' =>
      iwp_total lens' (u32_sat_add total (u32_sat_add (saturate_to_u32 e) (iwp_encoded_size e)))
  end.
(** :891-910 *)
Definition iwp_new (script_len : N) (lens : list N) : rust iwp :=
  rbind (if 0 <? lenN lens then u32c (iwp_total lens 0 + iwp_encoded_size (lenN lens)) else Ret 0) (fun w =>
  rbind (u32c (saturate_to_u32 script_len + iwp_encoded_size script_len)) (fun s =>
  Ret {| iwp_script := s; iwp_witness := w |})).
(** :917-937 *)
Definition iwp_from_slice (script_len : N) (lens : list N) : iwp :=
  {| iwp_script := u32_sat_add (saturate_to_u32 script_len) (iwp_encoded_size script_len);
     iwp_witness := match lens with
                    | [] => 0
                    | _ => u32_sat_add (iwp_total lens 0) (iwp_encoded_size (lenN lens))
                    end |}.
(** :968-972 *)
Definition iwp_witness_weight (p : iwp) : rust N := u32c (iwp_script p * 4 + iwp_witness p).
(** :954-959; TX_IN_BASE_WEIGHT (:85) = 4 * (OutPoint::SIZE + Sequence::SIZE) *)
Definition iwp_total_weight (p : iwp) : rust N := rbind (iwp_witness_weight p) (fun w => usz (160 + w)).

(** :677-697 *)
Definition predict_weight_internal (ic iw iww oc oss : N) : rust N :=
  let output_size := 8 * oc + oss in
  let nis := 4 + cs_encoded_size ic + cs_encoded_size oc + output_size + 4 in
  if iww =? 0 then usz (nis * 4 + iw)
  else rbind (usz (nis * 4 + iw + ic)) (fun s => if s <? iww then Panic else usz (s - iww + 2)).
(** :649-675 *)
Definition predict_weight (ins : list iwp) (lens : list N) : rust N :=
  rbind (rmap iwp_total_weight ins) (fun ws =>
  rbind (usz (sumN ws)) (fun iw =>
  rbind (usz (sumN (map (fun l => l + cs_encoded_size l) lens))) (fun oss =>
  predict_weight_internal (lenN ins) iw (lenN (filter (fun p => 0 <? iwp_witness p) ins)) (lenN lens) oss))).
(** :706-738: the same accumulation with explicit indices *)
Fixpoint pws_inputs (ins : list iwp) (iw iww : N) : rust (N * N) :=
  match ins with
  | [] => Ret (iw, iww)
  | p :: ins' => rbind (iwp_total_weight p) (fun w => rbind (usz (iw + w)) (fun iw' =>
                 pws_inputs ins' iw' (iww + (if 0 <? iwp_witness p then 1 else 0))))
  end.
Fixpoint pws_outputs (lens : list N) (oss : N) : rust N :=
  match lens with
  | [] => Ret oss
  | l :: lens' => rbind (usz (oss + (l + cs_encoded_size l))) (fun oss' => pws_outputs lens' oss')
  end.
Definition predict_weight_from_slices (ins : list iwp) (lens : list N) : rust N :=
  rbind (pws_inputs ins 0 0) (fun '(iw, iww) =>
  rbind (pws_outputs lens 0) (fun oss =>
  predict_weight_internal (lenN ins) iw iww (lenN lens) oss)).
