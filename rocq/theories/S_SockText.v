(** Specification: IP:PORT and [IP]:PORT. *)
From Verif Require Import Base S_Types S_IpText M_Net.

Definition decimal_value (b : byte) : option N := index_of b (bs "0123456789").
(** Decimal digits, at least one; leading zeros are allowed. *)
Definition decimal_text (s : bytes) (n : N) : Prop := s <> [] /\ number 10 decimal_value s = Some n.
Definition port_text (s : bytes) (p : N) : Prop := decimal_text s p /\ p < 65536.
(** Nothing, or % and a number. *)
Definition scope_text (s : bytes) (z : N) : Prop :=
  (s = [] /\ z = 0) \/ exists t, s = "%"%byte :: t /\ decimal_text t z /\ z < 2 ^ 32.
(** [z]: the scope id (only for IPv6). *)
Definition sockaddr_text (s : bytes) (a : sockaddr) (z : N) : Prop :=
  match sa_ip a with
  | V4 n => exists t p, s = t ++ ":"%byte :: p /\ ipv4_text t n /\ port_text p (sa_port a) /\ z = 0
  | V6 n => exists t sc p, s = "["%byte :: t ++ sc ++ "]"%byte :: ":"%byte :: p /\ ipv6_text t n /\ scope_text sc z /\ port_text p (sa_port a)
  end.
