(** Property C107: standard output that cannot be written.  Specification: S_Announce (what the
    tracker has sent), S_GetDht and S_App (what DHT nodes have sent), S_Commands (the output),
    S_Process.  [room]: how many bytes standard output takes, if not any number. *)
From Verif Require Import Base BaseFacts M_Net M_Tracker M_Http M_Session M_Mse M_Config M_Magnet M_Dht S_Dht M_App S_App M_Announce S_Announce S_GetDht M_Async M_Process S_Process
  S_Commands S_Commands2 M_Stdout P_App7 P_Get2 P_Get3 P_GetDhtEx P_Stdout P_Process C_Get C_Announce C_GetDht C_Process.

(** query-tracker: success means that the whole list has been taken; if it has not been, what
    has been printed is the beginning of the list, and the command panics.  In both cases the
    tracker has been told that the client has started. *)
Theorem C107_query_tracker : forall room cfg pid key port json require_crypto support_crypto no_crypto ih tr n l stop out r, in_order n ->
  query_tracker_run room cfg pid key port json require_crypto support_crypto no_crypto ih tr n = (l, stop, out, r) ->
  let a := told_by_query cfg pid key port require_crypto support_crypto no_crypto ih in
  (r = Ret false -> out = []) /\
  (r <> Ret false -> l = [a] /\ stop = Some (mkAnn ih pid 0 65535 0 EvStopped key (c_numwant cfg) port (an_crypto a)) /\
     exists t rp full, answered tr a n t rp /\ t <= ns (c_announce_timeout cfg) /\ lists json full (ar_peers rp) /\
       ((r = Ret true /\ out = full /\ forall m, room = Some m -> blen full <= m) \/
        (r = Panic /\ exists m, room = Some m /\ m < blen full /\ out = takeN m full))).
Proof. exact qt_run. Qed.
Print Assumptions C107_query_tracker.
(** Which of them it is depends on nothing else, if the tracker answers in time. *)
Theorem C107_query_tracker_prints : forall room cfg pid key port json require_crypto support_crypto no_crypto ih tr n t rp, in_order n ->
  let a := told_by_query cfg pid key port require_crypto support_crypto no_crypto ih in
  answers tr a n t rp -> t <= ns (c_announce_timeout cfg) ->
  exists l stop full, lists json full (ar_peers rp) /\
    ((forall m, room = Some m -> blen full <= m) ->
       query_tracker_run room cfg pid key port json require_crypto support_crypto no_crypto ih tr n = (l, stop, full, Ret true)) /\
    (forall m, room = Some m -> m < blen full ->
       query_tracker_run room cfg pid key port json require_crypto support_crypto no_crypto ih tr n = (l, stop, takeN m full, Panic)).
Proof. exact qt_prints. Qed.
Print Assumptions C107_query_tracker_prints.
(** query-dht likewise *)
Theorem C107_query_dht : forall l s h t ih x room json out r, Forall wf_pev l -> prun app_new l = Some (s, h) -> In (OBegin t (CLookup ih)) h -> In (OReturn t x) h ->
  query_dht_run room json x = (out, r) ->
  (r = Ret false -> out = []) /\
  (r <> Ret false -> exists n sid ps full, In (OServe t n sid) h /\ lists json full ps /\ ps <> [] /\ NoDup (map pr_addr ps) /\ (forall p, In p ps <-> named h n sid ih p) /\
     ((r = Ret true /\ out = full /\ forall m, room = Some m -> blen full <= m) \/
      (r = Panic /\ exists m, room = Some m /\ m < blen full /\ out = takeN m full))).
Proof. exact qd_run. Qed.
Print Assumptions C107_query_dht.
(** A process that ends by a panic has not returned from its command and does not exit with a
    status of its own. *)
Theorem C107_one_end : forall cfg pid key port l s h t, main_run (Some cfg) pid key port l = Some (s, h) -> In (t, OPanic) h ->
  (forall t' ok, ~ In (t', OEnd ok) h) /\ (forall t' ok, ~ In (t', OExit ok) h).
Proof. exact panic_alone. Qed.
Print Assumptions C107_one_end.

(** What does not hold: that every tracker which has been told that the client has started will
    be told that it has stopped, unless that takes longer than the time for shutting down (C102).
    Here the tracker answers after two seconds, standard output takes nothing, and the process is
    over without having begun to tell it. *)
Theorem C107_stopped_refuted : exists cfg pid key port ih tr n l s h, Forall wf_zev l /\ in_order n /\
  main_run (Some cfg) pid key port l = Some (s, h) /\ prompt cfg pid key port z_new l /\
  queries_of l = [(ih, None, tr, n)] /\
  snd (query_tracker_run (Some 0) cfg pid key port false false false false ih tr n) = Panic /\
  (exists t a ps, In (t, OAnnounced 0 a) h /\ an_event a = EvStarted /\ In (t, OAnswered 0 ps) h /\ In (t, OPanic) h) /\
  (forall t q a, ~ In (t, OStopping q a) h) /\ (forall e, zstep cfg pid key port s e = None).
Proof.
  exists ex_cfg, ex_pid, 7, 6881, (bs "aaaaaaaaaaaaaaaaaaaa"), px_tr, ex_net, [px_query; ZTick (ns 2); ZAnswer 0; ZPanic].
  assert (B : exists s h, pboth z_new [px_query; ZTick (ns 2); ZAnswer 0; ZPanic] s h /\ s = px_1 Crashed app_new [0%nat] [] false GBefore (ns 2) false /\
    h = [(ns 2, OAnnounced 0 (start_announcement (tq_session px_x))); (ns 2, OAnswered 0 [ex_peer]); (ns 2, OPanic)]).
  { eexists _, _. split.
    - go (px_0 Working app_new GBefore 0). tick (px_0 Working app_new GBefore (ns 2)); [exact (idle_0 m x A)|]. answer. go (px_1 Crashed app_new [0%nat] [] false GBefore (ns 2) false). apply both_nil.
    - split; reflexivity. }
  destruct B as (s & h & (B1 & B2) & ES & EH). exists s, h. split; [repeat constructor|]. split; [exact ex_in_order|]. split; [exact B1|]. split; [exact B2|]. split; [reflexivity|]. subst s h.
  split; [|split; [|split]].
  - destruct (C107_query_tracker_prints (Some 0) ex_cfg ex_pid 7 6881 false false false false (bs "aaaaaaaaaaaaaaaaaaaa") px_tr ex_net (ns 2) _ ex_in_order (C99_http_nonvacuous _ _)) as (l & stop & full & LS & _ & P); [vm_compute; discriminate|].
    rewrite (P 0 eq_refl); [reflexivity|]. destruct LS as (lines & (-> & _) & F). inversion F as [|x y xs ys X1 X2 E1 E2]. unfold blen. cbn [map concat]. rewrite !app_length. cbn [length]. lia.
  - exists (ns 2), (start_announcement (tq_session px_x)), [ex_peer]. split; [left; reflexivity|]. split; [reflexivity|]. split; [right; left; reflexivity|right; right; left; reflexivity].
  - intros t q a X. repeat (destruct X as [X|X]; [discriminate X|]). contradiction X.
  - intros e. reflexivity.
Qed.
Print Assumptions C107_stopped_refuted.

(** The lookup of the example of C101; standard output takes ten bytes. *)
Example C107_query_dht_nonvacuous :
  let h := seen_of dx_lookup in
  Forall wf_pev dx_lookup /\ prun app_new dx_lookup = Some (state_of dx_lookup, h) /\
  In (OBegin 0 (CLookup (mg_hash crowd_magnet))) h /\ In (OReturn 0 (Found dx_found)) h /\
  (exists out, query_dht_run (Some 10) false (Found dx_found) = (out, Panic) /\ blen out = 10) /\
  exists out, query_dht_run None false (Found dx_found) = (out, Ret true) /\ 10 < blen out.
Proof.
  destruct dx_ran as (W & R & (_ & B & RT & _) & _). split; [exact W|]. split; [exact R|]. split; [exact B|]. split; [exact RT|].
  split; eexists; (split; [vm_compute; reflexivity|vm_compute; reflexivity]).
Qed.
