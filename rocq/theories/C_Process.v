(** Property C102: the process as a whole, from the configuration to the exit status.
    Specification: S_Process, S_Announce (what a tracker's answer is).  [l] is any order in
    which things may happen; what the command does is left open. *)
From Verif Require Import Base BaseFacts M_Net M_Tracker M_Session M_Announce S_Announce M_Http M_Udp M_Mse M_Config S_Config M_DhtMsg M_Dht M_App M_Async M_Process S_Process
  P_Get3 P_Announce P_Process P_Process2 P_Process3 P_Process4 P_Process5 C_Announce.

(** Without a configuration (C72 says when) nothing is done: the exit status is failure. *)
Theorem C102_no_config : forall pid key port l s h, main_run None pid key port l = Some (s, h) -> l = [] /\ h = [(0, OExit false)].
Proof. intros pid key port [|e l] s h H; [injection H as <- <-; auto|discriminate]. Qed.
Print Assumptions C102_no_config.

(** The exit status is the command's, nothing is observed after the exit, and the command has
    returned before, once. *)
Theorem C102_status : forall cfg pid key port l s h h1 t ok h2, main_run (Some cfg) pid key port l = Some (s, h) -> h = h1 ++ (t, OExit ok) :: h2 ->
  h2 = [] /\ exists te, In (te, OEnd ok) h1 /\ te <= t /\ forall t' ok', In (t', OEnd ok') h -> t' = te /\ ok' = ok.
Proof.
  intros cfg pid key port l s h h1 t ok h2 R E. assert (Z := zinv_run _ _ _ _ _ _ _ R). destruct (exit_last _ _ _ _ _ _ _ _ _ _ _ R E) as (A & _ & te & B). split; [exact A|]. exists te.
  assert (BH : In (te, OEnd ok) h) by (rewrite E; apply in_or_app; auto). assert (XH : In (t, OExit ok) h) by (rewrite E; apply in_or_app; right; left; reflexivity).
  split; [exact B|]. split; [|intros t' ok' X; exact (z_end1 _ _ _ Z _ _ _ _ X BH)]. rewrite <- (proj1 (exit_now _ _ _ _ _ _ _ _ _ R XH)). exact (z_past _ _ _ Z _ _ BH).
Qed.
Print Assumptions C102_status.

(** What is reported to the command as the peers of a tracker are those of an answer the
    tracker has given, in time and by now, to a "started" announcement of the process's own
    identity ([q]: the number of queries begun before). *)
Theorem C102_answers : forall cfg pid key port l s h ta q ps, main_run (Some cfg) pid key port l = Some (s, h) -> In (ta, OAnswered q ps) h ->
  exists l1 l2 ih override tr n s1 h1 a, l = l1 ++ ZQuery ih override tr n :: l2 /\ length (queries_of l1) = q /\ main_run (Some cfg) pid key port l1 = Some (s1, h1) /\
    In (ta, OAnnounced q a) h /\ an_hash a = ih /\ an_pid a = pid /\ an_key a = key /\ an_port a = port /\
    (in_order n -> exists t r, answered tr a n t r /\ t <= ns (c_announce_timeout cfg) /\ ps = ar_peers r /\ z_now s1 + t <= ta).
Proof. exact answer_from. Qed.
Print Assumptions C102_answers.

(** When the process exits every tracker that has been told "started", and has answered, has
    been told "stopped" in the same terms, or the announcement was given up when the time for
    shutting down had passed. *)
Theorem C102_stopped : forall cfg pid key port l s h t ok ta q ps, main_run (Some cfg) pid key port l = Some (s, h) ->
  In (t, OExit ok) h -> In (ta, OAnswered q ps) h ->
  exists a z, In (ta, OAnnounced q a) h /\ an_event a = EvStarted /\ an_event z = EvStopped /\ same_peer a z /\
    ((exists t1 t2, In (t1, OStopping q z) h /\ In (t2, OStopped q) h /\ ta <= t1 /\ t1 <= t2 /\ t2 <= t) \/
     (exists te t2, In (te, OEnd ok) h /\ In (t2, OGivenUp q) h /\ te + ns (c_shutdown_timeout cfg) <= t2 /\ t2 <= t)).
Proof. exact all_stopped. Qed.
Print Assumptions C102_stopped.
(** No other tracker is told so, and none twice. *)
Theorem C102_once : forall cfg pid key port l s h h1 t1 q z h2, main_run (Some cfg) pid key port l = Some (s, h) -> h = h1 ++ (t1, OStopping q z) :: h2 ->
  an_event z = EvStopped /\ (exists ta ps, In (ta, OAnswered q ps) h /\ ta <= t1) /\ forall t' z', ~ In (t', OStopping q z') h1 /\ ~ In (t', OStopping q z') h2.
Proof.
  intros cfg pid key port l s h h1 t1 q z h2 R E. assert (X : In (t1, OStopping q z) h) by (rewrite E; apply in_or_app; right; left; reflexivity).
  destruct (stop_only _ _ _ _ _ _ _ _ _ _ R X) as (A & B). split; [exact A|]. split; [exact B|]. intros t' z'. exact (stop_once _ _ _ _ _ _ _ _ _ _ _ _ _ _ R E).
Qed.
Print Assumptions C102_once.
(** They are told at once, not when the command returns. *)
Theorem C102_at_once : forall cfg pid key port l s h ta q ps, main_run (Some cfg) pid key port l = Some (s, h) -> prompt cfg pid key port z_new l ->
  In (ta, OAnswered q ps) h -> ta < z_now s -> (exists z, In (ta, OStopping q z) h) \/ In (ta, OGivenUp q) h.
Proof. exact announced_at_once. Qed.
Print Assumptions C102_at_once.

(** Once the command has returned the process exits within the time for shutting down, if no
    tracker's answer is still reported after the group of announcements was first found to be
    empty: it is then no longer than that... *)
Theorem C102_in_time_partial : forall cfg pid key port l s h te ok, Forall wf_zev l -> main_run (Some cfg) pid key port l = Some (s, h) -> prompt cfg pid key port z_new l ->
  (forall l1 l2 q, l = l1 ++ ZJoin :: l2 -> ~ In (ZAnswer q) l2) -> In (te, OEnd ok) h -> z_now s <= te + ns (c_shutdown_timeout cfg).
Proof. exact in_time. Qed.
Print Assumptions C102_in_time_partial.
(** ... there is always something to do that waits for nothing outside, or an announcement
    to wait for (until the timeout expires), ... *)
Theorem C102_progress : forall cfg pid key port l s h te ok, Forall wf_zev l -> main_run (Some cfg) pid key port l = Some (s, h) -> In (te, OEnd ok) h ->
  (forall t ok', ~ In (t, OExit ok') h) -> (exists e, at_once e = true /\ zstep cfg pid key port s e <> None) \/ exists q, under_way h q.
Proof.
  intros cfg pid key port l s h te ok W R E NX. apply (leaving_moves _ _ _ _ _ _ _ _ _ W R E). destruct (exited s) eqn:EX; [|reflexivity]. unfold exited in EX.
  assert (SG := z_staged _ _ _ (zinv_run _ _ _ _ _ _ _ R)). unfold stage_inv in SG. destruct (z_stage s) as [| | |ok'|] eqn:ST; try discriminate; [|destruct SG as (_ & _ & X); destruct (X _ _ E)].
  destruct (exited_shown _ _ _ _ _ _ _ _ R ST) as (t & X). destruct (NX _ _ X).
Qed.
Print Assumptions C102_progress.
(** ... and there are not many things to do. *)
Theorem C102_bounded : forall cfg pid key port l l' s h s' h' te ok, Forall wf_zev (l ++ l') -> main_run (Some cfg) pid key port l = Some (s, h) -> In (te, OEnd ok) h ->
  main_run (Some cfg) pid key port (l ++ l') = Some (s', h') -> (length (filter at_once l') <= 3 * length (queries_of l) + 6)%nat.
Proof. exact few_steps. Qed.
Print Assumptions C102_bounded.

(** A process with a DHT lookup: the only bootstrap node does not answer; the node is told to shut down before the
    process exits. *)
Example C102_dht_nonvacuous :
  let calls l := option_map (fun r => (z_stage (fst r), map snd (p_calls (z_app (fst r))), map dn_state (p_nodes (z_app (fst r))), snd r)) (main_run (Some ex_cfg) ex_pid 7 6881 l) in
  let asks := map ZDht [PCall (CLookup (repeat xab 20)); PLock 0; PCreate 0 (Some (repeat x09 20, false)); PSend 0; PResolve 0 [mkSA (V4 1) 1]; PTake 0 []] in
  let timed := ZDht (PNet 0 (ATimeout (mkSA (V4 1) 1, [x00; x00; x00; x00]) (Some 0%nat))) in
  main_run (Some ex_cfg) ex_pid 7 6881 (asks ++ [ZDone true]) = None /\
  calls (asks ++ [timed; ZDone true] ++ map ZDht [PLock 1; PSend 1; PTake 0 []] ++ [ZClosed; ZJoin; ZJoin]) =
    Some (Exited true, [TDone (Found (mkFound [] [])); TDone Stopped], [Dead], [(0, OEnd true); (0, OExit true)]).
Proof. vm_compute. auto. Qed.

(** *** Examples: a tracker answers after two seconds. *)
Definition px_tr : tracker := THttp (mkUrl (bs "http") (Some (HDomain (bs "t"))) (Some 80) (bs "/a") None).
Definition px_query : zev := ZQuery (bs "aaaaaaaaaaaaaaaaaaaa") None px_tr ex_net.
(** All goes well. *)
Definition px_good := [px_query; ZTick (ns 2); ZAnswer 0; ZStop 0; ZTick (ns 1); ZStopped 0; ZDone true; ZDht (PLock 0); ZClosed; ZJoin; ZJoin].
(** The tracker does not answer again. *)
Definition px_slow := [px_query; ZTick (ns 2); ZAnswer 0; ZStop 0; ZDone true; ZDht (PLock 0); ZClosed; ZTick (ns 3); ZTimeout; ZGiveUp 0; ZJoin].
(** An answer is reported between the two waits. *)
Definition px_late d := [px_query; ZTick (ns 2); ZDone true; ZDht (PLock 0); ZClosed; ZJoin; ZAnswer 0; ZStop 0; ZTick d].

Definition px_x := mkQuery (z_session ex_cfg ex_pid 7 6881 (bs "aaaaaaaaaaaaaaaaaaaa") None) px_tr ex_net 0.
Definition px_app st := mkApp None None [] [(CShutdown, st)].
Definition px_0 st app ph t := mkProc st app (mkG [] [] 0 false ph t) [(px_x, QRunning)] [].
Definition px_1 st app rn en ca ph t b := mkProc st app (mkG rn en 1 ca ph t) [(px_x, QReturned)] [(0%nat, stop_announcement (tq_session px_x), b)].
Notation pstp := (zstep ex_cfg ex_pid 7 6881).
Notation prunx := (zrun ex_cfg ex_pid 7 6881).
Notation pprompt := (prompt ex_cfg ex_pid 7 6881).
Lemma px_answer : forall st app ph t, exited (px_0 st app ph t) = false -> ns 2 <= t ->
  pstp (px_0 st app ph t) (ZAnswer 0) = Some (px_1 st app [0%nat] [] false ph t false, [(t, OAnnounced 0 (start_announcement (tq_session px_x))); (t, OAnswered 0 [ex_peer])]).
Proof.
  intros st app ph t EX L. unfold zstep. rewrite EX. cbn [px_0 z_queries nth_error].
  rewrite (answers_query (ns (c_announce_timeout ex_cfg)) (tq_session px_x) (tq_tracker px_x) (tq_net px_x) (ns 2) _ ex_in_order (C99_http_nonvacuous _ _)) by (vm_compute; discriminate).
  cbn [tq_begun px_x]. replace (0 + ns 2 <=? z_now _) with true by (symmetry; apply N.leb_le; exact L). reflexivity.
Qed.
Lemma run_step cfg pid key port s e s1 o1 l s2 o2 : zstep cfg pid key port s e = Some (s1, o1) -> zrun cfg pid key port s1 l = Some (s2, o2) -> zrun cfg pid key port s (e :: l) = Some (s2, o1 ++ o2).
Proof. intros E R. cbn [zrun]. rewrite E, R. reflexivity. Qed.
(** Both at once *)
Definition pboth (s : proc) (l : list zev) (s2 : proc) (o2 : list (N * zobs)) : Prop := prunx s l = Some (s2, o2) /\ pprompt s l.
Lemma both_nil s : pboth s [] s [].
Proof. split; [reflexivity|constructor]. Qed.
Lemma both_step s e s1 o1 l s2 o2 : pstp s e = Some (s1, o1) -> (forall n, e <> ZTick n) -> pboth s1 l s2 o2 -> pboth s (e :: l) s2 (o1 ++ o2).
Proof. intros E N (A & B). split; [exact (run_step _ _ _ _ _ _ _ _ _ _ _ E A)|]. eapply prompt_cons; [exact E| |exact B]. intros n m z1 z2 x X. destruct (N _ X). Qed.
Lemma both_tick s n s1 l s2 o2 : pstp s (ZTick n) = Some (s1, []) -> (forall m x, m < n -> at_once x = true -> pstp (later s m) x = None) -> pboth s1 l s2 o2 -> pboth s (ZTick n :: l) s2 o2.
Proof.
  intros E Q (A & B). split; [exact (run_step _ _ _ _ _ _ _ _ _ _ _ E A)|]. assert (EX := proj1 (step_rel _ _ _ _ _ _ _ _ E)). eapply prompt_cons; [exact E| |exact B]. intros n' m z1 z2 x [= <-] L X AO.
  rewrite (tick_step _ _ _ _ _ _ EX) in X. injection X as <- <-. exact (Q m x L AO).
Qed.
(** Nothing to do: *)
Lemma idle_0 m x : at_once x = true -> pstp (later (px_0 Working app_new GBefore 0) m) x = None.
Proof. intros A. destruct x as [| | | |e| | |i| |i| | |]; try discriminate A; try reflexivity; try (destruct i; reflexivity). destruct e as [|t| |t| |k oks| |]; try discriminate A; try (destruct t; reflexivity); destruct k; reflexivity. Qed.
Lemma idle_1 t m x : at_once x = true -> pstp (later (px_1 Working app_new [0%nat] [] false GBefore t true) m) x = None.
Proof. intros A. destruct x as [| | | |e| | |i| |i| | |]; try discriminate A; try reflexivity; try (destruct i as [|[|?]]; reflexivity). destruct e as [|t'| |t'| |k oks| |]; try discriminate A; try (destruct t'; reflexivity); destruct k; reflexivity. Qed.
Lemma idle_2 t m x dl : t + m < dl -> at_once x = true -> pstp (later (px_1 (Leaving true) (px_app (TDone Stopped)) [0%nat] [] false (GFirstJoin dl) t true) m) x = None.
Proof.
  intros L A. destruct x as [| | | |e| | |i| |i| | |]; try discriminate A; try reflexivity; try (destruct i as [|[|?]]; reflexivity).
  - destruct e as [|t'| |t'| |k oks| |]; try discriminate A; try (destruct t' as [|[|?]]; reflexivity); destruct k; reflexivity.
  - unfold zstep, gapply, later, px_1, set_group. cbn [exited z_stage z_group gstep g_phase g_running g_now]. replace (dl <=? t + m) with false; [reflexivity|]. symmetry. apply N.leb_gt. exact L.
Qed.
Lemma idle_3 t m x : at_once x = true -> pstp (later (px_1 (Leaving true) (px_app (TDone Stopped)) [0%nat] [] false GSecondJoin t true) m) x = None.
Proof.
  intros A. destruct x as [| | | |e| | |i| |i| | |]; try discriminate A; try reflexivity; try (destruct i as [|[|?]]; reflexivity).
  destruct e as [|t'| |t'| |k oks| |]; try discriminate A; try (destruct t' as [|[|?]]; reflexivity); destruct k; reflexivity.
Qed.
Ltac go s1 := eapply (both_step _ _ s1); [reflexivity|discriminate|].
Ltac tick s1 := eapply (both_tick _ _ s1); [reflexivity|intros m x L A|].
Ltac answer := eapply both_step; [apply px_answer; [reflexivity|vm_compute; discriminate]|discriminate|].

Example C102_good_nonvacuous : exists s h, main_run (Some ex_cfg) ex_pid 7 6881 px_good = Some (s, h) /\ prompt ex_cfg ex_pid 7 6881 z_new px_good /\ Forall wf_zev px_good /\
  (forall l1 l2 q, px_good = l1 ++ ZJoin :: l2 -> ~ In (ZAnswer q) l2) /\
  In (ns 2, OAnswered 0 [ex_peer]) h /\ In (ns 3, OStopped 0) h /\ In (ns 3, OExit true) h /\ queries_of px_good = [(bs "aaaaaaaaaaaaaaaaaaaa", None, px_tr, ex_net)] /\ in_order ex_net.
Proof.
  assert (B : exists s h, pboth z_new px_good s h /\ In (ns 2, OAnswered 0 [ex_peer]) h /\ In (ns 3, OStopped 0) h /\ In (ns 3, OExit true) h).
  { eexists _, _. split.
    - unfold px_good. go (px_0 Working app_new GBefore 0). tick (px_0 Working app_new GBefore (ns 2)); [exact (idle_0 m x A)|]. answer. go (px_1 Working app_new [0%nat] [] false GBefore (ns 2) true).
      tick (px_1 Working app_new [0%nat] [] false GBefore (ns 3) true); [exact (idle_1 _ m x A)|]. go (px_1 Working app_new [] [0%nat] false GBefore (ns 3) true). go (px_1 (Closing true 0) (px_app TLock) [] [0%nat] false GBefore (ns 3) true).
      go (px_1 (Closing true 0) (px_app (TDone Stopped)) [] [0%nat] false GBefore (ns 3) true). go (px_1 (Leaving true) (px_app (TDone Stopped)) [] [0%nat] false (GFirstJoin (ns 6)) (ns 3) true).
      go (px_1 (Leaving true) (px_app (TDone Stopped)) [] [0%nat] false GSecondJoin (ns 3) true). go (px_1 (Exited true) (px_app (TDone Stopped)) [] [0%nat] false GReturned (ns 3) true). apply both_nil.
    - cbn [app In]. repeat split; auto 20. }
  destruct B as (s & h & (B1 & B2) & H1 & H2 & H3). exists s, h. split; [exact B1|]. split; [exact B2|]. split; [repeat constructor|]. split; [|split; [exact H1|split; [exact H2|split; [exact H3|split; [reflexivity|exact ex_in_order]]]]].
  intros l1 l2 q E X. do 11 (destruct l1 as [|? l1]; [try discriminate E; injection E as <-; repeat (destruct X as [X|X]; [discriminate X|]); destruct X|injection E as _ E]). destruct l1; discriminate E.
Qed.
Example C102_given_up_nonvacuous : exists s h, main_run (Some ex_cfg) ex_pid 7 6881 px_slow = Some (s, h) /\ prompt ex_cfg ex_pid 7 6881 z_new px_slow /\
  In (ns 2, OAnswered 0 [ex_peer]) h /\ In (ns 2, OEnd true) h /\ In (ns 5, OGivenUp 0) h /\ In (ns 5, OExit true) h.
Proof.
  assert (B : exists s h, pboth z_new px_slow s h /\ In (ns 2, OAnswered 0 [ex_peer]) h /\ In (ns 2, OEnd true) h /\ In (ns 5, OGivenUp 0) h /\ In (ns 5, OExit true) h).
  { eexists _, _. split.
    - unfold px_slow. go (px_0 Working app_new GBefore 0). tick (px_0 Working app_new GBefore (ns 2)); [exact (idle_0 m x A)|]. answer. go (px_1 Working app_new [0%nat] [] false GBefore (ns 2) true).
      go (px_1 (Closing true 0) (px_app TLock) [0%nat] [] false GBefore (ns 2) true). go (px_1 (Closing true 0) (px_app (TDone Stopped)) [0%nat] [] false GBefore (ns 2) true).
      go (px_1 (Leaving true) (px_app (TDone Stopped)) [0%nat] [] false (GFirstJoin (ns 5)) (ns 2) true). tick (px_1 (Leaving true) (px_app (TDone Stopped)) [0%nat] [] false (GFirstJoin (ns 5)) (ns 5) true); [apply idle_2; [change (ns 5) with (ns 2 + ns 3); lia|exact A]|].
      go (px_1 (Leaving true) (px_app (TDone Stopped)) [0%nat] [] true GSecondJoin (ns 5) true). go (px_1 (Leaving true) (px_app (TDone Stopped)) [] [0%nat] true GSecondJoin (ns 5) true). go (px_1 (Exited true) (px_app (TDone Stopped)) [] [0%nat] true GReturned (ns 5) true). apply both_nil.
    - cbn [app In]. repeat split; auto 20. }
  destruct B as (s & h & (B1 & B2) & H). exists s, h. auto.
Qed.
(** The condition of C102_in_time_partial cannot be left out: an answer reported between the
    two waits (by a task that is running on another thread while it is aborted) leads to an
    announcement that is waited for without limit. *)
Theorem C102_in_time_refuted : exists cfg pid key port, forall d, exists l s h te ok, Forall wf_zev l /\ main_run (Some cfg) pid key port l = Some (s, h) /\
  prompt cfg pid key port z_new l /\ In (te, OEnd ok) h /\ (forall t ok', ~ In (t, OExit ok') h) /\ te + ns (c_shutdown_timeout cfg) + d < z_now s.
Proof.
  exists ex_cfg, ex_pid, 7, 6881. intros d0. remember (ns 3 + d0 + 1) as d eqn:Ed. exists (px_late d).
  assert (B : exists s h, pboth z_new (px_late d) s h /\ In (ns 2, OEnd true) h /\ (forall t ok', ~ In (t, OExit ok') h) /\ z_now s = ns 2 + d).
  { eexists _, _. split; [|split; [|split]].
    - unfold px_late. go (px_0 Working app_new GBefore 0). tick (px_0 Working app_new GBefore (ns 2)); [exact (idle_0 m x A)|]. go (px_0 (Closing true 0) (px_app TLock) GBefore (ns 2)). go (px_0 (Closing true 0) (px_app (TDone Stopped)) GBefore (ns 2)).
      go (px_0 (Leaving true) (px_app (TDone Stopped)) (GFirstJoin (ns 5)) (ns 2)). go (px_0 (Leaving true) (px_app (TDone Stopped)) GSecondJoin (ns 2)). answer. go (px_1 (Leaving true) (px_app (TDone Stopped)) [0%nat] [] false GSecondJoin (ns 2) true).
      tick (px_1 (Leaving true) (px_app (TDone Stopped)) [0%nat] [] false GSecondJoin (ns 2 + d) true); [exact (idle_3 _ m x A)|]. apply both_nil.
    - cbn [app In]. auto 20.
    - cbn [app In]. intros t ok' X. repeat (destruct X as [X|X]; [discriminate X|]). destruct X.
    - reflexivity. }
  destruct B as (s & h & (B1 & B2) & H1 & H2 & H3). exists s, h, (ns 2), true. split; [repeat constructor|]. split; [exact B1|]. split; [exact B2|]. split; [exact H1|]. split; [exact H2|]. rewrite H3, Ed. change (ns (c_shutdown_timeout ex_cfg)) with (ns 3). lia.
Qed.
Print Assumptions C102_in_time_refuted.
