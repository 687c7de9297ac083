(** Specification vocabulary: a magnet link without trackers. *)
From Verif Require Import Base M_Net M_Tracker M_DhtMsg M_Dht S_Dht M_App S_App M_Magnet M_Get S_Get M_GetDht.

(** In the history [h] of the process, call [t] is the lookup for [m], and has returned [r];
    'get' goes on with that. *)
Definition looked_up (h : list pobs) (t : nat) (m : magnet) (r : dres) (w : world) : Prop :=
  mg_trackers m = [] /\ In (OBegin t (CLookup (mg_hash m))) h /\ In (OReturn t r) h /\
  w_dht w = dht_found r /\ forall k, w_announce w k = Ret [].
(** Call [t], the lookup [sid] of node [n], was told of peer [p]: in a valid reply, from an
    address that had been sent a query for the info hash [ih], with that query's id. *)
Definition named (h : list pobs) (n sid : nat) (ih : bytes) (p : peer) : Prop :=
  exists h1 addr txn rsp h2 q, of_node n h = h1 ++ OReply sid addr txn (Ok rsp) :: h2 /\ In p (gr_values rsp) /\
    In (OQuery sid addr q true) h1 /\ gq_txn q = txn /\ gq_hash q = ih.
(** The nodes it was told of. *)
Definition heard_of (h : list pobs) (n sid : nat) (x : node) : Prop := In x (told (of_node n h) sid).
