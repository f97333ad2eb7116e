(** Specification for C69: BIP14 user agents, /name:version(comment; comment)/name:version/ and so on. *)
From Coq Require Import String.
From Verif Require Import Base MText MAgent.
Local Open Scope list_scope.
Local Open Scope N_scope.

Fixpoint joined (sep : str) (l : list str) : str :=
  match l with [] => [] | [x] => x | x :: l' => x ++ sep ++ joined sep l' end.
(** Decimal numbers are [fmt_u], characterised in C17; two digits for month and day. *)
Definition two_digits (n : N) : str := if n <? 10 then lit "0" ++ fmt_u n else fmt_u n.
Definition version_text (s : software) : str :=
  match s with SemVer a b c => joined (lit ".") [fmt_u a; fmt_u b; fmt_u c] | Date y m d => fmt_u y ++ two_digits m ++ two_digits d end.
Definition client_text (c : client) : str :=
  c_name c ++ lit ":" ++ version_text (c_software c) ++
  match c_comments c with [] => [] | l => lit "(" ++ joined (lit "; ") l ++ lit ")" end ++ lit "/".
Definition agent_text (l : list client) : str := lit "/" ++ concat (map client_text l).

(** Names and comments may hold anything but the four characters BIP14 uses. *)
Definition clean (s : str) : Prop := Forall (fun c => ~ In c (lit "/():")) s.
Definition client_clean (c : client) : Prop := clean (c_name c) /\ Forall clean (c_comments c).
(** Dates of the calendar, and comments that do not look like two. *)
Definition plain_software (s : software) : Prop := match s with SemVer _ _ _ => True | Date _ m d => m < 100 /\ d < 100 end.
Definition plain (c : client) : Prop := plain_software (c_software c) /\ Forall (fun s => ~ In 59 s) (c_comments c).
