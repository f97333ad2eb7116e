(** What the errors of lock times say: Display of units/src/locktime/relative/error.rs and units/src/locktime/absolute/error.rs.
    The errors themselves are MLock.v's; the wrappers that put "blocks", "time", "satisfaction" or "incompatible" in front
    are not modelled. *)
From Coq Require Import String.
From Verif Require Import Base MText LText MLock.
Local Open Scope N_scope.

(** relative/error.rs:124-129, of the lock that is_satisfied_by_height refused *)
Definition rel_incompatible_height_text (e : rel_err1) : str :=
  match e with
  | RIncompatible n => lit "tried to satisfy a lock-by-height locktime using seconds " ++ fmt_u n
  | RSatisfaction (tip, mined) => lit "is_satisfied_by arguments invalid (probably the wrong way around) chain_tip: " ++ fmt_u tip ++ lit " utxo_mined_at: " ++ fmt_u mined
  end.
(** relative/error.rs:185-190, of the lock that is_satisfied_by_time refused; 244-249 and 273-278 *)
Definition rel_incompatible_time_text (e : rel_err1) : str :=
  match e with
  | RIncompatible n => lit "tried to satisfy a lock-by-time locktime using blocks " ++ fmt_u n
  | RSatisfaction (tip, mined) => lit "is_satisfied_by arguments invalid (probably the wrong way around) chain_tip: " ++ fmt_u tip ++ lit " utxo_mined_at: " ++ fmt_u mined
  end.
(** absolute/error.rs:64-73, 107-116 *)
Definition abs_incompatible_height_text (e : N * N) : str :=
  lit "tried to satisfy a lock-by-time lock " ++ fmt_u (fst e) ++ lit " with height: " ++ fmt_u (snd e).
Definition abs_incompatible_time_text (e : N * N) : str :=
  lit "tried to satisfy a lock-by-height lock " ++ fmt_u (fst e) ++ lit " with MTP: " ++ fmt_u (snd e).
(** relative/error.rs:212-220 *)
Definition overflow_text (seconds : N) : str :=
  fmt_u seconds ++ lit " seconds is too large to be encoded to a 16 bit 512 second interval".
