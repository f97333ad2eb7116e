(** Hosts as numbers. *)
From Verif Require Import Base MP2p MSocket.
Local Open Scope N_scope.

(** The 32-bit number of four octets and the 128-bit number of eight groups, most significant first. *)
Definition v4_ok (o : bytes) : Prop := lenN o = 4 /\ Forall (fun x => x < 2 ^ 8) o.
Definition v6_ok (s : list N) : Prop := lenN s = 8 /\ Forall (fun x => x < 2 ^ 16) s.
Definition v4_number (o : bytes) : N := fold_left (fun acc x => acc * 2 ^ 8 + x) o 0.
Definition v6_number (s : list N) : N := fold_left (fun acc x => acc * 2 ^ 16 + x) s 0.
(** RFC 4291: ::ffff:a.b.c.d stands for a.b.c.d; ::a.b.c.d is the deprecated form.  The prefix fd87:d87e:eb43::/48 is that of OnionCat. *)
Definition mapped (n : N) : Prop := n / 2 ^ 32 = 0xFFFF.
Definition compatible (n : N) : Prop := n / 2 ^ 32 = 0.
Definition onioncat (n : N) : Prop := n / 2 ^ 80 = 0xFD87D87EEB43.
Definition socket_ok (s : socket) : Prop :=
  match s with SockV4 o p => v4_ok o /\ p < 2 ^ 16 | SockV6 g p f i => v6_ok g /\ p < 2 ^ 16 /\ f < 2 ^ 32 /\ i < 2 ^ 32 end.
Definition socket_port (s : socket) : N := match s with SockV4 _ p => p | SockV6 _ p _ _ => p end.
