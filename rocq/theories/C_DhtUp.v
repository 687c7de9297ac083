(** Property C118: the DHT with and without IPv6.  [dht_start id v4_ok v6_ok nodes l = Some a0]: the
    node started, given whether an IPv4 and an IPv6 socket could be bound, with the configured
    bootstrap nodes resolved as in [l]; [evs]: whatever happens to it then; [v4]: S_Boot. *)
From Coq Require Import Permutation.
From Verif Require Import Base M_Net M_Tracker M_Config M_DhtMsg M_Dht M_Boot M_DhtUp S_Dht S_Boot P_DhtUp.

(** There is a DHT node if and only if an IPv4 socket can be bound. *)
Theorem C118_needs_ipv4 : forall id v4_ok v6_ok nodes, (exists l, dht_start id v4_ok v6_ok nodes l <> None) <-> v4_ok = true.
Proof. exact up_iff. Qed.
Print Assumptions C118_needs_ipv4.
(** Without an IPv6 socket every query sent goes to an IPv4 address and does not ask for IPv6
    nodes. *)
Theorem C118_ipv4_only : forall id v4_ok nodes l a0 evs a h, dht_start id v4_ok false nodes l = Some a0 ->
  Forall wf_ev evs -> arun a0 evs = Some (a, h) ->
  forall sid addr q, In (OQuery sid addr q true) h -> v4 addr /\ gq_want q = None.
Proof. exact up_v4. Qed.
Print Assumptions C118_ipv4_only.
(** A query is not sent only if the system refuses to send it or, for an IPv6 address, there is no
    IPv6 socket. *)
Theorem C118_sent : forall id v6_ok nodes l a0 evs a h, dht_start id true v6_ok nodes l = Some a0 ->
  arun a0 evs = Some (a, h) ->
  forall sid addr q, In (OQuery sid addr q false) h ->
  (exists e, In e evs /\ In false (match e with ALookup _ oks | ADatagram _ _ _ oks => oks | _ => [] end)) \/
  (v6_ok = false /\ ~ v4 addr).
Proof. exact up_both. Qed.
Print Assumptions C118_sent.

(** A lookup asks the addresses of the configured nodes (S_Boot: address_of), each once per node,
    and then only nodes named in replies. *)
Theorem C118_asked : forall id v4_ok v6_ok nodes l a0 evs a h sid hash, dht_start id v4_ok v6_ok nodes l = Some a0 ->
  Forall wf_ev evs -> arun a0 evs = Some (a, h) -> In (OLookup sid hash) h ->
  exists answers rs boot rest, length answers = length nodes /\ length rs = length nodes /\
    (forall k n ans r, nth_error nodes k = Some n -> nth_error answers k = Some ans -> nth_error rs k = Some r ->
       In (BoAnswer k ans) l /\ address_of v6_ok n ans r) /\
    Permutation boot (somes rs) /\ asked h sid = boot ++ rest /\ forall x, In x rest -> In x (map node_address (told h sid)).
Proof. exact up_asked. Qed.
Print Assumptions C118_asked.

(** A node named by its IPv4 address tells a lookup of a node with an IPv6 address: that node is queried
    with an IPv6 socket, and not without. *)
Example C118_nonvacuous :
  let run v6 := match dht_start (repeat x09 20) true v6 [mkInet (HIp (V4 1)) 1] [BoStart; BoAnswer 0 None] with
    | Some a0 => option_map (fun r => flat_map (fun o => match o with OQuery _ a _ ok => [(a, ok)] | _ => [] end) (snd r))
        (arun a0 [ALookup (repeat x00 20) [];
                  ADatagram (mkSA (V4 1) 1)
                    (bs "d1:rd2:id20:abcdefghij01234567896:nodes638:abcdefghij0123456789" ++ repeat x00 15 ++ [x01; x00; x50] ++
                     bs "e1:t4:" ++ [x00; x00; x00; x00] ++ bs "1:y1:re") (Some 0%nat) []])
    | None => None end in
  run true = Some [(mkSA (V4 1) 1, true); (mkSA (V6 1) 80, true)] /\ run false = Some [(mkSA (V4 1) 1, true); (mkSA (V6 1) 80, false)].
Proof. vm_compute. auto. Qed.
