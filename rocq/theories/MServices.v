(** The operators of service flags: p2p/src/lib.rs.  Flags are their u64. *)
From Verif Require Import Base MP2p.
Local Open Scope N_scope.

(** BitOr, BitOrAssign p2p/src/lib.rs:282-290: both are [add] *)
Definition sf_bitor (a b : N) : N := sf_add a b.
(** BitXor, BitXorAssign p2p/src/lib.rs:292-300: both are [remove] *)
Definition sf_bitxor (a b : N) : N := sf_remove a b.
