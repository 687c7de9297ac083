(** Property C114: how long a DHT lookup takes.  Specification: S_DhtTime and S_Dht.
    [timed timeout my_id v6 boot x th]: an actor with these parameters, [timeout] being the
    query timeout, can have come to where it is now with [th] observed, each at its time; it ranges
    over all lookups, datagrams, send failures and timeouts, their order and when they
    happen.  ([few]: see C62.) *)
From Verif Require Import Base M_Net M_Tracker M_DhtMsg M_Dht S_Dht M_DhtTime S_DhtTime P_Dht8 P_DhtTime P_DhtTime2.
Local Open Scope nat_scope.

(** A lookup is answered within the query timeout of its start or of a valid reply... *)
Theorem C114_soon : forall timeout my_id v6 boot x th, timed timeout my_id v6 boot x th -> few (map snd th) ->
  forall sid hash t0 t r, In (t0, OLookup sid hash) th -> In (t, OAnswer sid r) th ->
  exists u, (u = t0 \/ In u (reply_times th sid)) /\ t <= u + timeout.
Proof. exact answered_soon. Qed.
Print Assumptions C114_soon.
(** ... and as long as it is neither answered nor failed, no more time than that has passed. *)
Theorem C114_waiting : forall timeout my_id v6 boot x th sid hash t0, timed timeout my_id v6 boot x th -> few (map snd th) ->
  In (t0, OLookup sid hash) th -> unanswered th sid ->
  exists u, (u = t0 \/ In u (reply_times th sid)) /\ d_now x <= u + timeout.
Proof. exact waits_little. Qed.
Print Assumptions C114_waiting.
(** So with [n] valid replies it takes [n + 1] times the timeout at most; with none, one. *)
Theorem C114_bound : forall timeout my_id v6 boot x th sid hash t0 t r, timed timeout my_id v6 boot x th -> few (map snd th) ->
  In (t0, OLookup sid hash) th -> In (t, OAnswer sid r) th -> t <= t0 + (length (reply_times th sid) + 1) * timeout.
Proof. exact (fun timeout my_id v6 boot x th sid hash t0 t r T F X => proj2 (bounded timeout my_id v6 boot x th T F sid hash t0 X) t r). Qed.
Print Assumptions C114_bound.
Theorem C114_bound_waiting : forall timeout my_id v6 boot x th sid hash t0, timed timeout my_id v6 boot x th -> few (map snd th) ->
  In (t0, OLookup sid hash) th -> unanswered th sid -> d_now x <= t0 + (length (reply_times th sid) + 1) * timeout.
Proof. exact bounded_unanswered. Qed.
Print Assumptions C114_bound_waiting.
(** There are no more replies than queries, so a lookup takes no longer than the timeout for each
    query it sends, and one more. *)
Theorem C114_queries : forall timeout my_id v6 boot x th sid hash t0, timed timeout my_id v6 boot x th -> few (map snd th) -> In (t0, OLookup sid hash) th ->
  (forall t r, In (t, OAnswer sid r) th -> t <= t0 + (length (asked (map snd th) sid) + 1) * timeout) /\
  (unanswered th sid -> d_now x <= t0 + (length (asked (map snd th) sid) + 1) * timeout).
Proof. exact bounded_queries. Qed.
Print Assumptions C114_queries.
(** A node is given up when the timeout has passed since it was queried, neither sooner nor later. *)
Theorem C114_patience : forall timeout my_id v6 boot x th, timed timeout my_id v6 boot x th -> few (map snd th) ->
  forall t sid addr txn, In (t, OTimeout sid addr txn) th ->
  exists t' q, In (t', OQuery sid addr q true) th /\ gq_txn q = txn /\ t = t' + timeout.
Proof. exact patient. Qed.
Print Assumptions C114_patience.
(** Time does not stop: as long as the node runs, either it can pass, or there is a query whose
    time is over. *)
Theorem C114_goes_on : forall timeout my_id v6 boot x th, timed timeout my_id v6 boot x th -> a_running (d_a x) = true ->
  (forall k, In k (a_timers (d_a x)) -> d_now x + 1 <= d_began x k + timeout) \/
  exists k pick x' o, In k (a_timers (d_a x)) /\ dstep timeout x (DAct (ATimeout k pick)) = Some (x', o).
Proof. exact goes_on. Qed.
Print Assumptions C114_goes_on.

(** With a timeout of 5: a lookup starts at 1; valid replies at 3, 4 and 6; the third node,
    queried at 3, does not reply; the answer comes at 8. *)
Definition dt : list dev := Eval vm_compute in
  match two with
  | [e1; e2; e3; e4; e5] =>
      [DWait 1; DAct e1; DWait 2; DAct e2; DWait 1; DAct e3; DWait 2; DAct e4; DAct (ATimeout (mkSA (V4 1) 1, [x00; x00; x00; x00]) None); DWait 2; DAct e5]
  | l => map DAct l
  end.
Definition dt_start : dst := d_start (actor_start two_me false two_boot).
Example C114_nonvacuous : exists x th,
  timed 5 two_me false two_boot x th /\ few (map snd th) /\ In (1, OLookup 0 (repeat x00 20)) th /\ reply_times th 0 = [3; 4; 6] /\
  In (8, OTimeout 0 (mkSA (V4 3) 1) [x00; x00; x00; x01]) th /\ In (8, OAnswer 0 (mkFound [] [mkSA (V4 3) 1; mkSA (V4 4) 1])) th.
Proof.
  exists (fst (out 5 dt_start dt)), (snd (out 5 dt_start dt)).
  split; [apply out_timed; [repeat constructor|vm_compute; reflexivity|vm_compute; reflexivity]|].
  let th := eval vm_compute in (snd (out 5 dt_start dt)) in replace (snd (out 5 dt_start dt)) with th by (vm_compute; reflexivity).
  split; [unfold few; vm_compute; discriminate|]. vm_compute. auto 30.
Qed.
(** Just before that it is unanswered. *)
Example C114_waiting_nonvacuous : exists x th,
  timed 5 two_me false two_boot x th /\ few (map snd th) /\ In (1, OLookup 0 (repeat x00 20)) th /\ unanswered th 0 /\ a_running (d_a x) = true /\ d_now x = 8.
Proof.
  exists (fst (out 5 dt_start (firstn 10 dt))), (snd (out 5 dt_start (firstn 10 dt))).
  split; [apply out_timed; [repeat constructor|vm_compute; reflexivity|vm_compute; reflexivity]|].
  split; [unfold few; vm_compute; discriminate|]. split; [vm_compute; auto|]. split; [split; vm_compute; reflexivity|]. split; vm_compute; reflexivity.
Qed.
