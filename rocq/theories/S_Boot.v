(** Specification: the addresses of bootstrap nodes. *)
From Verif Require Import Base M_Net M_Tracker M_Config.

Definition v4 (a : sockaddr) : Prop := exists i, sa_ip a = V4 i.
(** The address [r] (if any) to be used for a node, given the resolver's answer: that named,
    or the first one given; IPv6 addresses do not count without an IPv6 socket. *)
Definition address_of (use_ipv6 : bool) (n : inet_addr) (answer : option (list sockaddr)) (r : option sockaddr) : Prop :=
  let usable a := use_ipv6 = true \/ v4 a in
  match ia_host n with
  | HIp i => let a := mkSA i (ia_port n) in (usable a /\ r = Some a) \/ (~ usable a /\ r = None)
  | HDomain _ =>
      (exists before a after, answer = Some (before ++ a :: after) /\ Forall (fun b => ~ usable b) before /\ usable a /\ r = Some a) \/
      ((forall l, answer = Some l -> Forall (fun b => ~ usable b) l) /\ r = None)
  end.
(** The addresses there are *)
Definition somes (l : list (option sockaddr)) : list sockaddr := flat_map (fun r => match r with Some a => [a] | None => [] end) l.
