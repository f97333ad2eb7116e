(** What a user of serde expects: a value written by any format and read back by the same format is the same value, and
    reading never panics whatever the format delivers. *)
From Verif Require Import Base MText MTaproot MSerde.
From Verif Require MP2p.
Local Open Scope N_scope.

(** reading back from a format that keeps the kind of each value, whether or not it marks optional values *)
Definition reads_self {A} (r : req A) (v : sval) (a : A) : Prop := forall tagged, self tagged r v = Ret (Some a).
(** reading back from the compact format, whatever follows *)
Definition reads_compact {A} (r : req A) (v : sval) (a : A) : Prop := forall rest, compact r (flat v ++ rest) = Ret (Some (a, rest)).
Definition restores {A} (r : req A) (v : sval) (a : A) : Prop := reads_self r v a /\ reads_compact r v a.
(** no input makes reading panic *)
Definition safe {A} (r : req A) : Prop := (forall tagged v, self tagged r v <> Panic) /\ forall b, compact r b <> Panic.
(** the format delivers the text [s] (as bytes, where the type accepts that) *)
Definition offers (bytes_too : bool) (v : sval) (s : str) : Prop := v = SvStr s \/ bytes_too = true /\ exists b, v = SvBytes b /\ MP2p.from_utf8 b = Some s.
(** scripts are bytes, of a length a machine can hold *)
Definition leaf_bytes (l : tap_leaf) : Prop := match l with LScript s v => bytes_ok s /\ lenN s < 2 ^ 62 | LHidden _ => True end.
