(** Property C119: the log of DHT lookups.  Specification: S_DhtLog, S_Dht.  [l]: whatever happens to the
    node; [h]: what is observed of its lookups; [lib]: the library's texts for messages it cannot decode. *)
From Verif Require Import Base M_Net M_Tracker M_DhtMsg M_Dht M_Log M_DhtLog M_DhtLog2 S_Dht S_DhtLog S_DhtLog2 P_DhtLog P_DhtLog2 P_Dht8.

(** The log has one record for each reply to a query, in order, which names the node and tells
    what the reply held; none for any other datagram. *)
Theorem C119_replies : forall my_id v6 boot lib l a h, Forall wf_ev l -> arun (actor_start my_id v6 boot) l = Some (a, h) ->
  length (dht_log lib (actor_start my_id v6 boot) l) = replies h /\
  forall h1 sid from txn r h2, h = h1 ++ OReply sid from txn r :: h2 ->
  exists hash kn x, In (OLookup sid hash) h1 /\ known_nodes h1 sid kn /\
    nth_error (dht_log lib (actor_start my_id v6 boot) l) (replies h1) = Some x /\ says kn hash from r x.
Proof. exact log_says. Qed.
Print Assumptions C119_replies.
(** The lookup of C_Dht's example: a bootstrap node, whose id is not known, and two nodes reply. *)
Example C119_nonvacuous : Forall wf_ev two /\ arun (actor_start two_me false two_boot) two = Some (two_a, two_h) /\
  map (record_text (fun _ => true)) (dht_log (fun _ => []) (actor_start two_me false two_boot) two) =
    [bs "DHT node at 0.0.0.1:1 replied with 0 peer(s) and 3 node(s) for info hash 0000000000000000000000000000000000000000";
     bs "DHT node 0101010101010101010101010101010101010101 at 0.0.0.2:1 replied with 0 peer(s) and 0 node(s) for info hash 0000000000000000000000000000000000000000";
     bs "DHT node 0202020202020202020202020202020202020202 at 0.0.0.4:1 replied with 0 peer(s) and 0 node(s) for info hash 0000000000000000000000000000000000000000"].
Proof. split; [repeat constructor|]. split; [exact two_run|]. vm_compute. reflexivity. Qed.

(** The log of the node's lookups, but for queries that cannot be sent, is the history of the lookups told in
    order: each query, each reply to one, each query that times out and each result has one record, which
    names the node by its address and, if known by then, its id, the torrent, and the number of peers found. *)
Theorem C119_log : forall my_id v6 boot lib l a h, Forall wf_ev l -> arun (actor_start my_id v6 boot) l = Some (a, h) ->
  logged [] h (full_log lib (actor_start my_id v6 boot) l).
Proof. exact log_full. Qed.
Print Assumptions C119_log.
(** The same lookup: four queries are sent, three are replied to and one times out; no peer is found. *)
Example C119_log_nonvacuous : Forall wf_ev two /\ arun (actor_start two_me false two_boot) two = Some (two_a, two_h) /\
  let z := bs "0000000000000000000000000000000000000000" in
  let n1 := bs "DHT node 0101010101010101010101010101010101010101 at 0.0.0." in
  let n2 := bs "DHT node 0202020202020202020202020202020202020202 at 0.0.0." in
  let send n := bs "Sending " ++ dq ++ bs "get_peers" ++ dq ++ bs " query to " ++ n ++ bs " for info hash " ++ z in
  let reply n k := n ++ bs " replied with 0 peer(s) and " ++ k ++ bs " node(s) for info hash " ++ z in
  map (dht_text (fun _ => true)) (full_log (fun _ => []) (actor_start two_me false two_boot) two) =
    [send (bs "DHT node at 0.0.0.1:1"); reply (bs "DHT node at 0.0.0.1:1") (bs "3");
     send (n1 ++ bs "3:1"); send (n1 ++ bs "2:1"); send (n2 ++ bs "4:1");
     reply (n1 ++ bs "2:1") (bs "0"); reply (n2 ++ bs "4:1") (bs "0");
     bs "Query to " ++ n1 ++ bs "3:1 timed out"; bs "Found 0 peers for " ++ z ++ bs " on the DHT"].
Proof. split; [repeat constructor|]. split; [exact two_run|]. vm_compute. reflexivity. Qed.
