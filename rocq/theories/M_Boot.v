(** Model of the resolution of the DHT bootstrap nodes: src/dht/mod.rs:166-192,
    src/dht/actor.rs:174-190 and the IPv6 socket, src/dht/actor.rs:703-738. *)
From Verif Require Import Base M_Net M_Tracker M_Config.

(** dht/mod.rs:169-191 InetAddr::resolve.  [answer]: what lookup_host gives for the host (None:
    an error); asked for domains only. *)
Definition resolve (use_ipv6 : bool) (n : inet_addr) (answer : option (list sockaddr)) : option sockaddr :=
  match ia_host n with
  | HDomain _ =>
      match answer with
      | Some l => find (fun a => use_ipv6 || match sa_ip a with V4 _ => true | V6 _ => false end) l
      | None => None
      end
  | HIp (V4 i) => Some (mkSA (V4 i) (ia_port n))
  | HIp (V6 i) => if use_ipv6 then Some (mkSA (V6 i) (ia_port n)) else None
  end.

(** actor.rs:28 *)
Definition RESOLVE_JOB_LIMIT : nat := 10.
(** actor.rs:703-738 UdpHandle::new: whether the sockets could be bound; the result: whether
    IPv6 can be used, None: the creation fails *)
Definition udp_handle (v4_ok v6_ok : bool) : option bool := if v4_ok then Some v6_ok else None.

(** resolve_bootstrap in progress: the nodes not asked about yet, the resolutions running
    (buffer_unordered), and [addrs]. *)
Record boot_st := mkBoot { bo_todo : list inet_addr; bo_running : list (nat * inet_addr); bo_next : nat; bo_addrs : list sockaddr }.
Definition boot_start (nodes : list inet_addr) : boot_st := mkBoot nodes [] 0 [].
(** A resolution is started; that of the node listed as number [k] ends.  buffer_unordered
    starts as many as it may before it waits; here it may also wait earlier. *)
Inductive boot_ev := BoStart | BoAnswer (k : nat) (answer : option (list sockaddr)).
Definition boot_step (use_ipv6 : bool) (s : boot_st) (e : boot_ev) : option boot_st :=
  match e with
  | BoStart =>
      match bo_todo s with
      | n :: rest =>
          if Nat.ltb (length (bo_running s)) RESOLVE_JOB_LIMIT
          then Some (mkBoot rest (bo_running s ++ [(bo_next s, n)]) (S (bo_next s)) (bo_addrs s))
          else None
      | [] => None
      end
  | BoAnswer k answer =>
      match find (fun e => Nat.eqb (fst e) k) (bo_running s) with
      | Some (_, n) =>
          Some (mkBoot (bo_todo s) (filter (fun e => negb (Nat.eqb (fst e) k)) (bo_running s)) (bo_next s)
                  (bo_addrs s ++ match resolve use_ipv6 n answer with Some a => [a] | None => [] end))  (* addrs.extend(r) *)
      | None => None
      end
  end.
Fixpoint boot_run (use_ipv6 : bool) (s : boot_st) (l : list boot_ev) : option boot_st :=
  match l with
  | [] => Some s
  | e :: l' => match boot_step use_ipv6 s e with Some s1 => boot_run use_ipv6 s1 l' | None => None end
  end.
(** Nothing is left: the loop (actor.rs:186-188) ends. *)
Definition boot_over (s : boot_st) : bool := match bo_todo s, bo_running s with [], [] => true | _, _ => false end.
