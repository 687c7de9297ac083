(** Model of the DHT node's start: src/dht/actor.rs:84-135. *)
From Verif Require Import Base M_Net M_Tracker M_Config M_DhtMsg M_Dht M_Boot.

(** actor.rs:93-117 DhtActor::new with node id [id]: fails without an IPv4 socket; then :125-132,
    the start of run: the bootstrap nodes are resolved in the order [l].  The result: the state at
    the start of the loop; None: no node, or [l] is not a complete resolution. *)
Definition dht_start (id : bytes) (v4_ok v6_ok : bool) (nodes : list inet_addr) (l : list boot_ev) : option actor :=
  match udp_handle v4_ok v6_ok with
  | Some u =>
      match boot_run u (boot_start nodes) l with
      | Some s => if boot_over s then Some (actor_start id u (bo_addrs s)) else None
      | None => None
      end
  | None => None
  end.
