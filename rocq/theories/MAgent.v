(** Model of the user agent builder: p2p/src/message_network.rs:193-380.  A text is its list of characters.  The
    wire form of a user agent is in MP2p.v. *)
From Coq Require Import String.
From Verif Require Import Base MText.
Local Open Scope list_scope.
Local Open Scope N_scope.

(** message_network.rs:352-371 *)
Inductive software := SemVer (major minor revision : N) | Date (yyyy mm dd : N).
(** :373-380 *)
Definition software_display (s : software) : str :=
  match s with
  | Date y m d => fmt_u y ++ fmt_u_width m 2 ++ fmt_u_width d 2
  | SemVer a b c => fmt_u a ++ [46] ++ fmt_u b ++ [46] ++ fmt_u c
  end.
(** :304-307 *)
Record agent_version := mk_av { av_software : software; av_comments : option str }.
(** :242-247: one of / ( ) : *)
Definition invalid_char (c : N) : bool := (c =? 47) || (c =? 40) || (c =? 41) || (c =? 58).
Definition panic_invalid_chars (s : str) : rust unit := if existsb invalid_char s then Panic else Ret tt.
(** :240, 249-254: characters are counted, not bytes *)
Definition MAX_USER_AGENT_LEN : N := 256.
Definition panic_max_len (s : str) : rust unit := if lenN s <=? MAX_USER_AGENT_LEN then Ret tt else Panic.
(** :311-313 *)
Definition av_new (s : software) : agent_version := mk_av s None.
(** :324-336 *)
Definition push_comment (v : agent_version) (comment : str) : rust agent_version :=
  rbind (panic_invalid_chars comment) (fun _ =>
    Ret (mk_av (av_software v) (Some (match av_comments v with Some c => c ++ ([59; 32] ++ comment) | None => comment end)))).
(** :339-348 *)
Definition av_display (v : agent_version) : str :=
  software_display (av_software v) ++ match av_comments v with Some c => [40] ++ c ++ [41] | None => [] end.
(** :261-267; an agent is its text *)
Definition ua_new (name : str) (v : agent_version) : rust str :=
  rbind (panic_invalid_chars name) (fun _ =>
    let agent := [47] ++ name ++ [58] ++ av_display v ++ [47] in
    rbind (panic_max_len agent) (fun _ => Ret agent)).
(** :270-272 *)
Definition ua_from_nonstandard (s : str) : str := s.
(** :280-291 *)
Definition ua_add_client (self name : str) (v : agent_version) : rust str :=
  rbind (panic_invalid_chars name) (fun _ =>
    let user_agent := self ++ (name ++ [58] ++ av_display v ++ [47]) in
    rbind (panic_max_len user_agent) (fun _ => Ret user_agent)).

(** The calls a user makes: [client] is one name, version and the comments pushed on it in order *)
Record client := mk_client { c_name : str; c_software : software; c_comments : list str }.
Fixpoint push_comments (v : agent_version) (l : list str) : rust agent_version :=
  match l with [] => Ret v | c :: l' => rbind (push_comment v c) (fun w => push_comments w l') end.
Definition make_version (c : client) : rust agent_version := push_comments (av_new (c_software c)) (c_comments c).
Fixpoint add_clients (agent : str) (l : list client) : rust str :=
  match l with [] => Ret agent | c :: l' => rbind (make_version c) (fun v => rbind (ua_add_client agent (c_name c) v) (fun a => add_clients a l')) end.
Definition make_agent (c : client) (l : list client) : rust str :=
  rbind (make_version c) (fun v => rbind (ua_new (c_name c) v) (fun a => add_clients a l)).
