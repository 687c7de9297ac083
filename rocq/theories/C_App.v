(** Properties C96 and C97: the DHT node shared by all lookups of a process.
    Specification: S_App and S_Dht.  [l] is any sequence of events that can happen (calls,
    the mutex and the channel being granted in any order, sockets, host names, datagrams,
    timers, calls being dropped) and [h] is what is then observed. *)
From Verif Require Import Base M_Net M_DhtMsg M_Dht S_Dht M_App S_App P_App5 P_App6 P_App7 P_App8.
Local Open Scope nat_scope.

(** However many lookups run at once, one DHT node is created at most. *)
Theorem C96_one_node : forall l s h,
  Forall wf_pev l -> prun app_new l = Some (s, h) -> length (created h) <= 1.
Proof. exact one_node. Qed.
Print Assumptions C96_one_node.
(** A call returns once at most. *)
Theorem C96_once : forall l s h t,
  Forall wf_pev l -> prun app_new l = Some (s, h) -> length (results h t) <= 1.
Proof. exact once. Qed.
Print Assumptions C96_once.
(** A lookup that finds something returns what the node found for its own info hash, in a
    lookup made for this call alone. *)
Theorem C96_own_result : forall l s h t r,
  Forall wf_pev l -> prun app_new l = Some (s, h) -> In (OReturn t (Found r)) h ->
  exists hash n sid, In (OBegin t (CLookup hash)) h /\ In (OServe t n sid) h /\
    In (OLookup sid hash) (of_node n h) /\ answers (of_node n h) sid = [r].
Proof. exact own_result. Qed.
Print Assumptions C96_own_result.
Theorem C96_distinct : forall l s h t t' n n' sid sid',
  Forall wf_pev l -> prun app_new l = Some (s, h) -> In (OServe t n sid) h -> In (OServe t' n' sid') h ->
  n = n' /\ (t = t' <-> sid = sid').
Proof. exact distinct. Qed.
Print Assumptions C96_distinct.
(** What the node does is a history in the sense of C61 to C70 and C85, which so apply. *)
Theorem C96_histories : forall l s h n,
  Forall wf_pev l -> prun app_new l = Some (s, h) -> exists id v6 boot a, history id v6 boot a (of_node n h).
Proof. exact histories. Qed.
Print Assumptions C96_histories.
(** No deadlock: while a call has not returned, something other than a new call, a dropped
    call or a datagram can happen (for the [few], see C62). *)
Theorem C96_progress : forall l s h t,
  Forall wf_pev l -> prun app_new l = Some (s, h) -> (forall n, few (of_node n h)) -> pending l h t ->
  exists e, inner e /\ pstep s e <> None.
Proof. exact few_node. Qed.
Print Assumptions C96_progress.
(** And such things cannot go on for ever: if host names resolve to at most [B] addresses,
    there is a bound on how many of them can happen before the next new call or datagram. *)
Theorem C96_bounded : forall l l' s h s' h' B,
  Forall wf_pev l -> prun app_new l = Some (s, h) ->
  (forall n boot, In (PResolve n boot) (l ++ l') -> length boot <= B) ->
  Forall inner l' -> prun s l' = Some (s', h') ->
  length l' <= length (p_calls s) * (B + 5) + queued s * (B + 1) + timers s + 1.
Proof. exact ends_soon. Qed.
Print Assumptions C96_bounded.
(** Once a shutdown of the node has returned no query is sent, no lookup finds anything and
    no other node is created. *)
Theorem C96_after_shutdown : forall l s h h1 t h2,
  Forall wf_pev l -> prun app_new l = Some (s, h) -> h = h1 ++ OReturn t Stopped :: h2 -> created h1 <> [] ->
  (forall n sid addr q ok, ~ In (ODht n (OQuery sid addr q ok)) h2) /\ (forall i r, ~ In (OReturn i (Found r)) h2) /\ created h2 = [].
Proof. exact after_shutdown. Qed.
Print Assumptions C96_after_shutdown.
(** A lookup fails only if the socket could not be bound for this very call, if none of the
    bootstrap nodes could be resolved, or if a shutdown has been asked for. *)
Theorem C96_failures : forall l s h t,
  Forall wf_pev l -> prun app_new l = Some (s, h) ->
  (In (OReturn t CreateFailed) h -> In (PCreate t None) l) /\
  (In (OReturn t HandleFailed) h -> (exists n, In (PResolve n []) l) \/ exists t', In (OBegin t' CShutdown) h).
Proof. exact reasons. Qed.
Print Assumptions C96_failures.

Example C96_nonvacuous : exists s h,
  prun app_new ex_run = Some (s, h) /\ created h = [0] /\ results h 0 = [CreateFailed] /\ results h 1 = [Found (mkFound [] [])] /\ results h 2 = [Found (mkFound [] [])] /\
  results h 3 = [] /\ results h 4 = [Stopped] /\ results h 5 = [HandleFailed] /\ In (OServe 2 0 1) h /\ In (OLookup 1 (ex_hash x03)) (of_node 0 h).
Proof. exact ex_prun. Qed.
Example C96_wf_nonvacuous : Forall wf_pev ex_run.
Proof. exact ex_wf. Qed.
Example C96_progress_nonvacuous : exists s h,
  prun app_new ex_mid = Some (s, h) /\ pending ex_mid h 0 /\ pending ex_mid h 1 /\ (forall n, few (of_node n h)) /\ queued s = 0 /\ timers s = 1.
Proof. exact ex_middle. Qed.

(** C97: after a failure to bind the socket, the next lookup tries again. *)
Theorem C97_after_bind_failure : forall l s h t hash s1 o1 id v6,
  Forall wf_pev l -> prun app_new l = Some (s, h) -> created h = [] -> In (OBegin t (CLookup hash)) h -> pstep s (PLock t) = Some (s1, o1) ->
  exists s2 o2, pstep s1 (PCreate t (Some (id, v6))) = Some (s2, o2) /\ created o2 = [0].
Proof. exact tries_again. Qed.
Print Assumptions C97_after_bind_failure.
(** But after none of the bootstrap nodes could be resolved, no lookup of this process ever
    asks anybody or finds anything, whatever happens later. *)
Theorem C97_after_bootstrap_failure_refuted : forall l s h n,
  Forall wf_pev l -> prun app_new l = Some (s, h) -> In (PResolve n []) l ->
  (forall m x, ~ In (ODht m x) h) /\ (forall t r, ~ In (OReturn t (Found r)) h).
Proof. exact boot_failed. Qed.
Print Assumptions C97_after_bootstrap_failure_refuted.
Example C97_nonvacuous : exists s h,
  prun app_new ex_fail = Some (s, h) /\ results h 0 = [HandleFailed] /\ results h 1 = [HandleFailed].
Proof. exact ex_failed. Qed.
