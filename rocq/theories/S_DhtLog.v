(** Specification: the record of a DHT node's reply. *)
From Verif Require Import Base M_Net M_Tracker M_DhtMsg M_Dht M_Log S_Dht.

(** The number of replies to queries *)
Definition replies (h : list aobs) : nat := length (filter (fun o => match o with OReply _ _ _ _ => true | _ => false end) h).
(** [x] is the record of the reply [r] from [from] in a lookup of [hash] that knows the nodes [kn]: it names
    the node by its id, if known, and its address, and gives the numbers of peers and nodes, or the error. *)
Definition says (kn : list node) (hash : bytes) (from : sockaddr) (r : res response_error get_peers_response) (x : record) : Prop :=
  exists id, (forall i, id = Some i <-> exists n, In n kn /\ node_address n = from /\ nd_id n = i) /\
    match r with
    | Ok rsp => x = LNodeReply id from (length (gr_values rsp)) (length (gr_nodes rsp) + length (gr_nodes6 rsp)) hash
    | Err (RRpc e) => x = LNodeError id from e
    | Err e => exists texts, x = LNodeInvalid id from texts e
    end.
