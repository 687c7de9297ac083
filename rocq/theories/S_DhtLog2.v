(** Specification: the log of DHT lookups tells their history. *)
From Verif Require Import Base M_Net M_Peer M_Tracker M_DhtMsg M_Dht M_Log M_DhtLog2 S_Dht S_DhtLog.

(** [id] is the id known, after [h], of the node at [addr], if any *)
Definition named (h : list aobs) (sid : nat) (addr : sockaddr) (id : option bytes) : Prop :=
  exists kn, known_nodes h sid kn /\ forall i, id = Some i <-> exists n, In n kn /\ node_address n = addr /\ nd_id n = i.
(** [y] is the record of the observation [x], made after [h] *)
Definition tells (h : list aobs) (x : aobs) (y : dht_record) : Prop :=
  match x with
  | OQuery sid addr _ _ => exists id hash, named h sid addr id /\ In (OLookup sid hash) h /\ y = DSending id addr hash
  | OReply sid addr _ r => exists kn hash z, known_nodes h sid kn /\ In (OLookup sid hash) h /\ says kn hash addr r z /\ y = DReplied z
  | OTimeout sid addr _ => exists id, named h sid addr id /\ y = DTimedOut id addr
  | OAnswer sid r => exists hash, In (OLookup sid hash) h /\ y = DFound (length (fp_peers r)) hash
  | OLookup _ _ | ODown _ => False
  end.
(** The records [g] are those of the observations [o], made after [h]: one each, in order, but none for a
    lookup's beginning or the node's being shut down. *)
Fixpoint logged (h o : list aobs) (g : list dht_record) : Prop :=
  match o with
  | [] => g = []
  | x :: o' =>
      match x with
      | OLookup _ _ | ODown _ => logged (h ++ [x]) o' g
      | _ => exists y g', g = y :: g' /\ tells h x y /\ logged (h ++ [x]) o' g'
      end
  end.
