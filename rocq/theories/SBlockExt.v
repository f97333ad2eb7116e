(** Specification of the height in a coinbase (BIP34) and of version bits (BIP9). *)
From Verif Require Import Base MDec MWitness MTx MScript SWire SScript MBlockExt.
Local Open Scope N_scope.

(** Bitcoin Core's [CScript() << height]: OP_0, OP_1 to OP_16, or a direct push of the shortest script number. *)
Definition height_script (h : N) (e : bytes) : Prop :=
  (h = 0 /\ e = [0]) \/ (1 <= h <= 16 /\ e = [80 + h]) \/
  (17 <= h /\ exists d, bytes_ok d /\ num_minimal d /\ num_val d = Z.of_N h /\ e = lenN d :: d).

(** What reading the height from the element pushed first must answer. *)
Inductive element_height (d : bytes) : result N bip34_err -> Prop :=
| eh_long : 4 < lenN d -> element_height d (Err B34NotPresent)
| eh_non_minimal : lenN d <= 4 -> ~ num_minimal d -> element_height d (Err B34NonMinimalPush)
| eh_negative : lenN d <= 4 -> num_minimal d -> (num_val d < 0)%Z -> element_height d (Err B34NegativeHeight)
| eh_ok : forall h, lenN d <= 4 -> num_minimal d -> num_val d = Z.of_N h -> element_height d (Ok h).
(** ... and from the script of the coinbase input. *)
Inductive script_height : bytes -> result N bip34_err -> Prop :=
| sh_empty : script_height [] (Err B34NotPresent)
| sh_stuck : forall s, s <> [] -> stuck s -> ~ short_header s -> script_height s (Err B34NotPresent)
| sh_stuck_short : forall s, stuck s -> short_header s -> script_height s (Err B34NonMinimalPush)
| sh_long_form : forall i e s, encodes i e -> ~ shortest i e -> script_height (e ++ s) (Err B34NonMinimalPush)
| sh_no_push : forall i e s, encodes i e -> pushed i = None -> script_height (e ++ s) (Err B34NotPresent)
| sh_push : forall i e s d r, encodes i e -> shortest i e -> pushed i = Some d -> element_height d r -> script_height (e ++ s) r.

(** the version as a signed number of 32 bits *)
Definition signed (v : N) : Z := if v <? 2 ^ 31 then Z.of_N v else (Z.of_N v - 2 ^ 32)%Z.
(** BIP9: the top three bits are 001 *)
Definition version_bits (v : N) : Prop := v / 2 ^ 29 = 1.
(** the block without witnesses *)
Definition stripped (b : block) : bytes := wire_header (b_header b) ++ wire_list wire_legacy (b_txs b).
