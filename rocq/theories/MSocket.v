(** Network addresses and socket addresses: p2p/src/address.rs:44-78, 112-119, 242-302, 574-600.  Of std::net: an Ipv4Addr is its 4 octets, an
    Ipv6Addr its 8 segments; to_ipv6_mapped, to_ipv4 and segments are those of std. *)
From Verif Require Import Base MP2p.
Local Open Scope N_scope.

(** std::net::IpAddr, SocketAddr *)
Inductive ip_addr := V4 (o : bytes) | V6 (s : list N).
Inductive socket := SockV4 (o : bytes) (port : N) | SockV6 (s : list N) (port flowinfo scope_id : N).
(** std: Ipv4Addr::to_ipv6_mapped, then segments *)
Definition to_ipv6_mapped (o : bytes) : list N := [0; 0; 0; 0; 0; 65535] ++ segments o.
(** std: Ipv6Addr::to_ipv4 *)
Definition to_ipv4 (s : list N) : option bytes :=
  match s with
  | [a; b; c; d; e; f; ab; cd] =>
      if (a =? 0) && (b =? 0) && (c =? 0) && (d =? 0) && (e =? 0) && ((f =? 0) || (f =? 65535)) then Some (be_bytes 2 ab ++ be_bytes 2 cd) else None
  | _ => None
  end.

(** UnroutableAddressError, AddrV2ToIpv4AddrError, AddrV2ToIpv6AddrError: address.rs, error module; the unused variants of each are not distinguished *)
Inductive unroutable := UTorV2 | UTorV3 | UI2p | UCjdns | UUnknown | UIpv4 | UIpv6.

(** :46-52 *)
Definition address_new (s : socket) (services : N) : address :=
  match s with SockV4 o port => mk_addr services (to_ipv6_mapped o) port | SockV6 g port _ _ => mk_addr services g port end.
(** :56-58 *)
Definition address_useless : address := mk_addr 0 (repeat 0 8) 0.
(** :65-77 *)
Definition socket_addr (a : address) : result socket unroutable :=
  if Nlist_eqb (firstn 3 (a_addr a)) ONION then Err UTorV2
  else match to_ipv4 (a_addr a) with
       | Some o => Ok (SockV4 o (a_port a))
       | None => Ok (SockV6 (a_addr a) (a_port a) 0 0)
       end.
(** :114-118, 595-599: one address, or an error of kind InvalidInput around the reason *)
Definition to_socket_addrs (r : result socket unroutable) : result (list socket) unroutable := match r with Ok s => Ok [s] | Err e => Err e end.

(** :245-254 *)
Definition v2_to_ip (a : addr_v2) : result ip_addr unroutable :=
  match a with
  | Ipv4 o => Ok (V4 o)
  | Ipv6 s => Ok (V6 s)
  | Cjdns _ => Err UCjdns
  | TorV3 _ => Err UTorV3
  | I2p _ => Err UI2p
  | NetUnknown _ _ => Err UUnknown
  end.
(** :260-269 *)
Definition v2_to_ipv4 (a : addr_v2) : result bytes unroutable :=
  match a with
  | Ipv4 o => Ok o
  | Ipv6 _ => Err UIpv6
  | Cjdns _ => Err UCjdns
  | TorV3 _ => Err UTorV3
  | I2p _ => Err UI2p
  | NetUnknown _ _ => Err UUnknown
  end.
(** :275-284 *)
Definition v2_to_ipv6 (a : addr_v2) : result (list N) unroutable :=
  match a with
  | Ipv6 s => Ok s
  | Cjdns _ => Err UCjdns
  | Ipv4 _ => Err UIpv4
  | TorV3 _ => Err UTorV3
  | I2p _ => Err UI2p
  | NetUnknown _ _ => Err UUnknown
  end.
(** :287-302 *)
Definition v2_of_ip (a : ip_addr) : addr_v2 := match a with V4 o => Ipv4 o | V6 s => Ipv6 s end.
Definition v2_of_ipv4 (o : bytes) : addr_v2 := Ipv4 o.
Definition v2_of_ipv6 (s : list N) : addr_v2 := Ipv6 s.
(** :581-590 *)
Definition v2_socket_addr (m : addr_v2_msg) : result socket unroutable :=
  match am_addr m with
  | Ipv4 o => Ok (SockV4 o (am_port m))
  | Ipv6 s => Ok (SockV6 s (am_port m) 0 0)
  | TorV3 _ => Err UTorV3
  | I2p _ => Err UI2p
  | Cjdns _ => Err UCjdns
  | NetUnknown _ _ => Err UUnknown
  end.
