(** Properties C61-C70, C85: DHT lookups.  Specification: S_Dht.  [history my_id v6 boot a h]:
    an actor with these parameters can have reached state [a] with [h] observed so far;
    it ranges over all lookups, datagrams, send failures, timeouts and their order. *)
From Verif Require Import Base M_Net M_Tracker M_DhtMsg S_Bencode M_Dht S_Async S_Dht P_Dht4 P_Dht5 P_Dht6 P_Dht7 P_Dht8.
From Coq Require Import Permutation Sorted.

(** C61: a datagram that carries no transaction id of a query to its sender that is still
    unanswered has no effect, and can always be received. *)
Theorem C61_unsolicited : forall my_id v6 boot a h from msg pick oks, history my_id v6 boot a h ->
  (forall txn sid, carries msg txn -> ~ awaiting h sid from txn) ->
  (forall a' o, astep a (ADatagram from msg pick oks) = Some (a', o) -> a' = a /\ o = []) /\
  (a_running a = true -> astep a (ADatagram from msg None oks) = Some (a, [])).
Proof. exact unsolicited'. Qed.
Print Assumptions C61_unsolicited.

(** C62: every lookup has been answered once; or failed once, since the actor shut down; or
    one of its queries is unanswered and its timer can fire. *)
Theorem C62_answered_or_waiting : forall my_id v6 boot a h sid hash, history my_id v6 boot a h -> In (OLookup sid hash) h -> few h ->
  (length (answers h sid) = 1%nat /\ downs h sid = O) \/
  (answers h sid = [] /\ downs h sid = 1%nat /\ a_running a = false) \/
  (answers h sid = [] /\ downs h sid = O /\ exists addr txn, awaiting h sid addr txn /\ In (addr, txn) (a_timers a) /\
     exists a' o, astep a (ATimeout (addr, txn) (Some sid)) = Some (a', o)).
Proof. exact lookup_answered. Qed.
Print Assumptions C62_answered_or_waiting.
(** Never twice, however many queries there were. *)
Theorem C62_at_most_once : forall my_id v6 boot a h sid hash, history my_id v6 boot a h -> In (OLookup sid hash) h ->
  (length (answers h sid) + downs h sid <= 1)%nat.
Proof. exact lookup_at_most_once. Qed.
Print Assumptions C62_at_most_once.
(** Once all timers have fired, all lookups have been answered... *)
Theorem C62_all_answered : forall my_id v6 boot a h, history my_id v6 boot a h -> few h -> a_running a = true ->
  (forall k pick, astep a (ATimeout k pick) = None) ->
  forall sid hash, In (OLookup sid hash) h -> length (answers h sid) = 1%nat /\ downs h sid = O.
Proof. exact all_answered. Qed.
Print Assumptions C62_all_answered.
(** ... which happens after as many of them as there are timers, if nothing else happens;
    and it can happen. *)
Theorem C62_timers_run_out : forall l a a' o, Forall is_timeout l -> arun a l = Some (a', o) -> (length l <= length (a_timers a))%nat.
Proof. exact (timeouts_finite [] false []). Qed.
Print Assumptions C62_timers_run_out.
Theorem C62_timers_suffice : forall my_id v6 boot a h, history my_id v6 boot a h -> few h -> a_running a = true ->
  exists l a' o, Forall is_timeout l /\ arun a l = Some (a', o) /\
    forall sid hash, In (OLookup sid hash) h -> length (answers (h ++ o) sid) = 1%nat /\ downs (h ++ o) sid = O.
Proof. exact timeouts_finish. Qed.
Print Assumptions C62_timers_suffice.

(** C63: after the initial queries to the bootstrap addresses, no address is queried twice,
    and only addresses of nodes reported by replies are. *)
Theorem C63_no_repeats : forall my_id v6 boot a h sid hash, history my_id v6 boot a h -> In (OLookup sid hash) h ->
  exists rest, asked h sid = boot ++ rest /\ NoDup rest /\ forall x, In x rest -> In x (map node_address (told h sid)).
Proof. exact asked_rest. Qed.
Print Assumptions C63_no_repeats.

(** C64: at most 8 nodes, by distance, with distinct addresses, of those known.  Whose ids
    are those of nodes that did respond; and the id of a node that responded is among them
    if it is closer than another node reported, or if there is room. *)
Theorem C64_order : forall my_id v6 boot a h sid hash r, history my_id v6 boot a h -> In (OLookup sid hash) h -> In r (answers h sid) ->
  exists ns, fp_nodes r = map node_address ns /\ (length ns <= 8)%nat /\
    StronglySorted (fun m n => xdist hash m <= xdist hash n) ns /\ NoDup (map node_address ns) /\
    (exists kn, known_nodes h sid kn /\ incl ns kn).
Proof.
  exact (fun my_id v6 boot a h sid hash r H X R => match result_nodes my_id v6 boot a h sid hash r H X R with
    ex_intro _ ns (conj E T) => ex_intro _ ns (conj E (conj (t_len _ _ _ _ T) (conj (t_sorted _ _ _ _ T) (conj (t_nodup _ _ _ _ T) (t_known _ _ _ _ T))))) end).
Qed.
Print Assumptions C64_order.
Theorem C64_closest_ids_partial : forall my_id v6 boot a h sid hash r, history my_id v6 boot a h -> In (OLookup sid hash) h -> In r (answers h sid) ->
  exists ns, fp_nodes r = map node_address ns /\
    (forall n, In n ns -> exists m, responded h sid m /\ nd_id m = nd_id n) /\
    (forall n, responded h sid n -> (length ns < 8)%nat \/ (exists m, In m ns /\ xdist hash n < xdist hash m) -> exists m, In m ns /\ nd_id m = nd_id n).
Proof.
  exact (fun my_id v6 boot a h sid hash r H X R => match result_nodes my_id v6 boot a h sid hash r H X R with
    ex_intro _ ns (conj E T) => ex_intro _ ns (conj E (conj (t_sound _ _ _ _ T) (t_complete _ _ _ _ T))) end).
Qed.
Print Assumptions C64_closest_ids_partial.
(** C64, C65: if the nodes known to the lookup have distinct ids, then those reported are
    the closest of those that responded.  *)
Theorem C64_closest_partial : forall my_id v6 boot a h sid hash r kn, history my_id v6 boot a h -> In (OLookup sid hash) h -> In r (answers h sid) ->
  known_nodes h sid kn -> NoDup (map nd_id kn) ->
  exists ns, fp_nodes r = map node_address ns /\ (forall n, In n ns -> responded h sid n) /\
    forall n, responded h sid n -> (length ns < 8)%nat \/ (exists m, In m ns /\ xdist hash n < xdist hash m) -> In n ns.
Proof. exact result_exact. Qed.
Print Assumptions C64_closest_partial.
Theorem C65_responded_partial : forall my_id v6 boot a h sid hash r kn x, history my_id v6 boot a h -> In (OLookup sid hash) h -> In r (answers h sid) ->
  known_nodes h sid kn -> NoDup (map nd_id kn) -> In x (fp_nodes r) -> exists txn rsp, In (OReply sid x txn (Ok rsp)) h.
Proof. exact result_responded. Qed.
Print Assumptions C65_responded_partial.

(** Otherwise not: two nodes with the same id; the one reported first replies, the other,
    which does not, is reported as responsive in its place. *)
Theorem C64_refuted : exists my_id v6 boot a h sid hash r n m, history my_id v6 boot a h /\ In (OLookup sid hash) h /\ In r (answers h sid) /\
  responded h sid n /\ responded h sid m /\ In (node_address m) (fp_nodes r) /\ xdist hash n < xdist hash m /\ ~ In (node_address n) (fp_nodes r).
Proof. exact closest_refuted. Qed.
Print Assumptions C64_refuted.
Theorem C65_refuted : exists my_id v6 boot a h sid hash r x, history my_id v6 boot a h /\ In (OLookup sid hash) h /\ In r (answers h sid) /\
  In x (fp_nodes r) /\ forall txn rsp, ~ In (OReply sid x txn rsp) h.
Proof. exact responsive_refuted. Qed.
Print Assumptions C65_refuted.

(** C66: queries are sent when the lookup starts, to the bootstrap addresses, and after a
    valid reply; then to those of the 8 closest nodes known that have not been queried (as
    nodes), in order of distance. *)
Theorem C66_when : forall my_id v6 boot a h e a' o sid, history my_id v6 boot a h -> wf_ev e -> astep a e = Some (a', o) -> asked o sid <> [] ->
  (exists hash, In (OLookup sid hash) o /\ asked o sid = boot) \/ exists addr txn rsp, In (OReply sid addr txn (Ok rsp)) o.
Proof. exact asked_only. Qed.
Print Assumptions C66_when.
Theorem C66_closest : forall my_id v6 boot a h e a' o sid addr txn rsp hash, history my_id v6 boot a h -> wf_ev e -> astep a e = Some (a', o) ->
  In (OReply sid addr txn (Ok rsp)) o -> In (OLookup sid hash) h ->
  exists rest top far kn, asked h sid = boot ++ rest /\ known_nodes (h ++ o) sid kn /\ Permutation (top ++ far) kn /\ length top = Nat.min 8 (length kn) /\
    StronglySorted (fun m n => xdist hash m <= xdist hash n) top /\
    (forall m n, In m top -> In n far -> xdist hash m <= xdist hash n) /\
    asked o sid = filter (fun x => negb (existsb (sa_eqb x) rest)) (map node_address top).
Proof. exact asked_closest. Qed.
Print Assumptions C66_closest.

(** C67: a lookup's peers are those of the valid replies to it, without duplicates... *)
Theorem C67_peers : forall my_id v6 boot a h sid hash r, history my_id v6 boot a h -> In (OLookup sid hash) h -> In r (answers h sid) ->
  NoDup (fp_peers r) /\ forall p, In p (fp_peers r) <-> exists addr txn rsp, In (OReply sid addr txn (Ok rsp)) h /\ In p (gr_values rsp).
Proof. exact result_peers. Qed.
Print Assumptions C67_peers.
(** ... and these are received datagrams that answer a query of that lookup: from the
    address queried, with its transaction id. *)
Theorem C67_own_queries : forall my_id v6 boot l a h, Forall wf_ev l -> arun (actor_start my_id v6 boot) l = Some (a, h) ->
  forall h1 sid addr txn r h2, h = h1 ++ OReply sid addr txn r :: h2 ->
  exists l1 msg oks l2 a1, l = l1 ++ ADatagram addr msg (Some sid) oks :: l2 /\ arun (actor_start my_id v6 boot) l1 = Some (a1, h1) /\ decode_response msg = r /\
    carries msg txn /\ awaiting h1 sid addr txn.
Proof. exact reply_origin'. Qed.
Print Assumptions C67_own_queries.

(** C68: of 2^32 consecutive queries no two have the same transaction id; all have 4 bytes. *)
Theorem C68_distinct : forall my_id v6 boot a h i j s t, history my_id v6 boot a h -> nth_error (txns h) i = Some s -> nth_error (txns h) j = Some t ->
  N.of_nat i < N.of_nat j -> N.of_nat j < N.of_nat i + 2 ^ 32 -> s <> t.
Proof. exact txn_distinct. Qed.
Print Assumptions C68_distinct.
Theorem C68_length : forall my_id v6 boot a h t, history my_id v6 boot a h -> In t (txns h) -> length t = 4%nat.
Proof. exact txn_length. Qed.
Print Assumptions C68_length.

(** C69 *)
Theorem C69_finite : forall my_id v6 boot a h sid hash ns, history my_id v6 boot a h -> In (OLookup sid hash) h -> known_nodes h sid ns ->
  (length (asked h sid) <= length boot + length ns)%nat.
Proof. exact asked_bound. Qed.
Print Assumptions C69_finite.
(** (There is such an [ns].) *)
Theorem C69_known : forall h sid, exists ns, known_nodes h sid ns.
Proof. exact known_exists. Qed.
Print Assumptions C69_known.

(** C70: the bound is the number of addresses there are... *)
Theorem C70_bound : forall my_id v6 boot a h sid hash, history my_id v6 boot a h -> In (OLookup sid hash) h ->
  N.of_nat (length (asked h sid)) <= N.of_nat (length boot) + (2 ^ 48 + 2 ^ 144).
Proof. exact asked_total. Qed.
Print Assumptions C70_bound.
(** ... and no number below 2^32 is one, for any target: malicious nodes can keep a lookup
    going that long. *)
Theorem C70_not_small : forall my_id v6 hash B, length hash = 20%nat -> B < 2 ^ 32 ->
  exists boot a h sid, history my_id v6 boot a h /\ In (OLookup sid hash) h /\ length boot = 1%nat /\ B < N.of_nat (length (asked h sid)).
Proof. exact small_bound_refuted. Qed.
Print Assumptions C70_not_small.

(** C85: every query belongs to a lookup, and asks for its hash. *)
Theorem C85_queries : forall my_id v6 boot a h sid addr q ok, history my_id v6 boot a h -> In (OQuery sid addr q ok) h ->
  exists hash, In (OLookup sid hash) h /\ (forall hash', In (OLookup sid hash') h -> hash' = hash) /\
    gq_hash q = hash /\ gq_node_id q = my_id /\ gq_ro q = Some true /\ gq_client q = Some [x44; x4d; x00; x07] /\
    gq_want q = (if v6 then Some [N4; N6] else None).
Proof. exact queries_say. Qed.
Print Assumptions C85_queries.

(** The hypotheses are met: a lookup is accepted; a reply with three nodes, replies from two of the nodes, the third times out, and the
    lookup is answered. *)
Example C61_C70_nonvacuous :
  history two_me false two_boot two_a two_h /\ In (OLookup 0 (repeat x00 20)) two_h /\
  answers two_h 0 = [mkFound [] [mkSA (V4 3) 1; mkSA (V4 4) 1]] /\ few two_h /\ a_running two_a = true /\
  known_nodes two_h 0 two_nodes /\ responded two_h 0 (mkNode (repeat x01 20) (V4 2) 1) /\
  asked two_h 0 = [mkSA (V4 1) 1; mkSA (V4 3) 1; mkSA (V4 2) 1; mkSA (V4 4) 1].
Proof. exact two_facts. Qed.
(** The known nodes have distinct ids. *)
Example C64_C65_nonvacuous : history two_me false two_boot three_a three_h /\ In (OLookup 0 (repeat x00 20)) three_h /\
  answers three_h 0 = [mkFound [mkPeer (mkSA (V4 167772161) 6881) None false] [mkSA (V4 2) 1; mkSA (V4 4) 1]] /\ known_nodes three_h 0 three_nodes /\ NoDup (map nd_id three_nodes).
Proof. exact three_facts. Qed.
(** A query is awaiting its reply; a message from that address, but with another transaction id. *)
Example C61_C62_nonvacuous : exists a h, history two_me false two_boot a h /\ answers h 0 = [] /\ downs h 0 = O /\ awaiting h 0 (mkSA (V4 1) 1) [x00; x00; x00; x00] /\
  let msg := bs "d1:t2:aa1:y1:re" in carries msg (bs "aa") /\ (forall txn sid, carries msg txn -> ~ awaiting h sid (mkSA (V4 1) 1) txn).
Proof. exact waiting_facts. Qed.
