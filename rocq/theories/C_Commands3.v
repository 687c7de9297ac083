(** Property C95, continued: query-tracker and query-dht from end to end.  Specification:
    S_Announce, S_Http and S_Udp (what the tracker has sent), S_GetDht and S_App (what DHT
    nodes have sent), S_Commands (the output). *)
From Verif Require Import Base BaseFacts M_Net M_Tracker M_Http M_Session M_Mse M_Config M_Magnet M_Dht S_Dht M_App S_App M_Announce S_Announce S_GetDht
  M_Commands2 S_Commands S_Commands2 P_App7 P_Get2 P_Get3 P_GetDhtEx P_Commands3 C_Get C_Announce C_GetDht.

(** query-tracker lists the peers of an answer by the tracker to one announcement, which came
    in time; the announcement will be taken back. *)
Theorem C95_query_tracker_answered : forall cfg pid key port json require_crypto support_crypto no_crypto ih tr n l stop out, in_order n ->
  query_tracker_cmd cfg pid key port json require_crypto support_crypto no_crypto ih tr n = (l, stop, out, true) ->
  let a := told_by_query cfg pid key port require_crypto support_crypto no_crypto ih in
  l = [a] /\ stop = Some (mkAnn ih pid 0 65535 0 EvStopped key (c_numwant cfg) port (an_crypto a)) /\
  exists t r, answered tr a n t r /\ t <= ns (c_announce_timeout cfg) /\ lists json out (ar_peers r).
Proof. intros cfg pid key port json rq sp no ih tr n l stop out IO. exact (qt_answered cfg pid key port json rq sp no ih tr n IO l stop out). Qed.
Print Assumptions C95_query_tracker_answered.
(** If the tracker answers in time, it does. *)
Theorem C95_query_tracker_answers : forall cfg pid key port json require_crypto support_crypto no_crypto ih tr n t r, in_order n ->
  let a := told_by_query cfg pid key port require_crypto support_crypto no_crypto ih in
  answers tr a n t r -> t <= ns (c_announce_timeout cfg) ->
  exists out, query_tracker_cmd cfg pid key port json require_crypto support_crypto no_crypto ih tr n =
      ([a], Some (mkAnn ih pid 0 65535 0 EvStopped key (c_numwant cfg) port (an_crypto a)), out, true) /\
    lists json out (ar_peers r).
Proof. intros cfg pid key port json rq sp no ih tr n t r IO. exact (qt_answers cfg pid key port json rq sp no ih tr n IO t r). Qed.
Print Assumptions C95_query_tracker_answers.
(** query-dht: call [t] of the process's DHT node, whose history is [h], is the lookup and has
    returned [r].  The peers listed are those named in valid replies to the lookup's queries,
    each once; if it fails, no peer has been named, or the lookup has failed. *)
Theorem C95_query_dht_named : forall l s h t ih r json out ok, Forall wf_pev l -> prun app_new l = Some (s, h) ->
  In (OBegin t (CLookup ih)) h -> In (OReturn t r) h -> query_dht_cmd json r = (out, ok) ->
  (ok = true -> exists n sid ps, In (OServe t n sid) h /\ lists json out ps /\ ps <> [] /\ NoDup (map pr_addr ps) /\ forall p, In p ps <-> named h n sid ih p) /\
  (ok = false -> out = [] /\
     ((r = CreateFailed /\ In (PCreate t None) l) \/
      (r = HandleFailed /\ ((exists n, In (PResolve n []) l) \/ exists t', In (OBegin t' CShutdown) h)) \/
      (exists f n sid, r = Found f /\ In (OServe t n sid) h /\ forall p, ~ named h n sid ih p))).
Proof. exact qd_node. Qed.
Print Assumptions C95_query_dht_named.

(** The trackers of the example of C99, the lookup of that of C101 *)
Example C95_query_tracker_nonvacuous : forall tr, exists out,
  query_tracker_cmd ex_cfg ex_pid 7 6881 false true false false (repeat "h"%byte 20) tr ex_net =
    ([told_by_query ex_cfg ex_pid 7 6881 true false false (repeat "h"%byte 20)], Some (mkAnn (repeat "h"%byte 20) ex_pid 0 65535 0 EvStopped 7 (c_numwant ex_cfg) 6881 TCRequired), out, true) /\
  lists false out [ex_peer].
Proof.
  intros [u|u].
  - refine (C95_query_tracker_answers _ _ _ _ false true false false _ _ _ _ _ ex_in_order (C99_http_nonvacuous _ u) _). vm_compute. discriminate.
  - refine (C95_query_tracker_answers _ _ _ _ false true false false _ _ _ _ _ ex_in_order (C99_udp_nonvacuous _ u) _). vm_compute. discriminate.
Qed.
Example C95_query_dht_nonvacuous :
  let h := seen_of dx_lookup in
  Forall wf_pev dx_lookup /\ prun app_new dx_lookup = Some (state_of dx_lookup, h) /\
  In (OBegin 0 (CLookup (mg_hash crowd_magnet))) h /\ In (OReturn 0 (Found dx_found)) h /\
  exists out, query_dht_cmd false (Found dx_found) = (out, true) /\ out <> [].
Proof.
  destruct dx_ran as (W & R & (_ & B & RT & _) & _). split; [exact W|]. split; [exact R|]. split; [exact B|]. split; [exact RT|].
  eexists. split; [vm_compute; reflexivity|discriminate].
Qed.
