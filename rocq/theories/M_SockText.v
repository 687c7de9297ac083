(** std::net socket addresses as text ([str::parse::<SocketAddr>()] and Display), used by
    src/peer/mod.rs:64-75 and src/main.rs:307,332.  Third-party (Rust standard library,
    core/src/net/parser.rs, socket_addr.rs); part of the trusted base. *)
From Verif Require Import Base M_Net M_IpText M_Tracker.

(** Parser::read_port, read_scope_id: digits without a limit on their number (checked
    arithmetic) *)
Definition read_decimal (limit : N) (inp : bytes) : option (N * bytes) := read_number 10 (length inp) true limit inp.
Definition read_port (inp : bytes) : option (N * bytes) := leto r := read_char ":" inp in read_decimal 65535 r.
Definition read_scope (inp : bytes) : N * bytes :=
  match (leto r := read_char "%" inp in read_decimal (2 ^ 32 - 1) r) with Some x => x | None => (0, inp) end.
(** Parser::read_socket_addr_v4, read_socket_addr_v6; the scope id is returned separately *)
Definition read_sockaddr4 (inp : bytes) : option (sockaddr * N * bytes) :=
  leto (n, r) := read_ipv4 inp in
  leto (p, r) := read_port r in
  Some (mkSA (V4 n) p, 0, r).
Definition read_sockaddr6 (inp : bytes) : option (sockaddr * N * bytes) :=
  leto r := read_char "[" inp in
  leto (n, r) := read_ipv6 r in
  let (z, r) := read_scope r in
  leto r := read_char "]" r in
  leto (p, r) := read_port r in
  Some (mkSA (V6 n) p, z, r).
(** SocketAddr::from_str *)
Definition parse_sockaddr (s : bytes) : option (sockaddr * N) :=
  match (match read_sockaddr4 s with Some x => Some x | None => read_sockaddr6 s end) with
  | Some (a, z, []) => Some (a, z)
  | _ => None
  end.
(** SocketAddr Display, for scope id 0 *)
Definition show_sockaddr (a : sockaddr) : bytes :=
  match sa_ip a with
  | V4 n => show_ipv4 n ++ ":"%byte :: dec (sa_port a)
  | V6 n => "["%byte :: show_ipv6 n ++ "]"%byte :: ":"%byte :: dec (sa_port a)
  end.
(** src/peer/mod.rs:64-75 FromStr for Peer; the address's scope id is not represented in
    [peer] and returned with it *)
Definition parse_peer (s : bytes) : option (peer * N) :=
  leto (a, z) := parse_sockaddr s in Some (mkPeer a None false, z).
