From Verif Require Import Base BaseFacts M_Net M_Tracker M_Http M_Session M_Mse M_Config M_Magnet M_DhtMsg M_Dht S_Dht M_App S_App M_Announce S_Announce P_Announce P_Announce2 M_Get M_GetDht S_GetDht P_App5 P_App7 P_App8 P_GetDht P_GetDht2
  M_Commands M_Commands2 S_Commands S_Commands2 P_Commands.

Section QT.
Context (cfg : config) (pid : bytes) (key port : N) (json rq sp no : bool) (ih : bytes) (tr : tracker) (n : net).
Hypothesis IO : in_order n.
Let s := mkTS ih (tracker_flags rq sp no) (c_encrypt cfg) pid key port (c_numwant cfg).
Lemma told_start : start_announcement s = told_by_query cfg pid key port rq sp no ih.
Proof. unfold start_announcement, told_by_query, s. cbn. f_equal. unfold get_tracker_crypto; cbn. destruct rq, sp, no; try reflexivity; cbn; destruct (c_encrypt cfg); reflexivity. Qed.
Lemma told_stop : exists z, stop_announcement s = z /\ z = mkAnn ih pid 0 65535 0 EvStopped key (c_numwant cfg) port (an_crypto (told_by_query cfg pid key port rq sp no ih)).
Proof. eexists. split; [reflexivity|]. rewrite <- told_start. reflexivity. Qed.
Lemma qt_answered l stop out : query_tracker_cmd cfg pid key port json rq sp no ih tr n = (l, stop, out, true) ->
  let a := told_by_query cfg pid key port rq sp no ih in
  l = [a] /\ stop = Some (mkAnn ih pid 0 65535 0 EvStopped key (c_numwant cfg) port (an_crypto a)) /\
  exists t r, answered tr a n t r /\ t <= ns (c_announce_timeout cfg) /\ lists json out (ar_peers r).
Proof.
  unfold query_tracker_cmd, query_tracker. fold s. destruct (getter_run _ s _ _) as [[[l0 stop0] t] [ps|e]] eqn:Q; intros X; [|discriminate X]. injection X as <- <- <-.
  destruct (query_ok _ _ _ _ _ _ _ _ IO Q) as (-> & -> & LE & r & A & ->). cbv zeta. destruct told_stop as (z & -> & ->). rewrite told_start in *. split; [reflexivity|]. split; [reflexivity|].
  exists t, r. split; [exact A|]. split; [exact LE|]. apply listing_lists. apply Forall_forall. intros p. exact (answered_wf _ _ _ _ _ _ A).
Qed.
Lemma qt_answers t r : let a := told_by_query cfg pid key port rq sp no ih in answers tr a n t r -> t <= ns (c_announce_timeout cfg) ->
  exists out, query_tracker_cmd cfg pid key port json rq sp no ih tr n = ([a], Some (mkAnn ih pid 0 65535 0 EvStopped key (c_numwant cfg) port (an_crypto a)), out, true) /\ lists json out (ar_peers r).
Proof.
  cbv zeta. rewrite <- told_start. intros A LE. unfold query_tracker_cmd, query_tracker. fold s. exists (listing json (ar_peers r)).
  pose proof (answers_query _ _ _ _ _ _ IO A LE) as Q. split; [unfold tracker_query in Q; rewrite Q; reflexivity|].
  destruct (query_ok _ _ _ _ _ _ _ _ IO Q) as (_ & _ & _ & r' & A' & E). rewrite E. apply listing_lists. apply Forall_forall. intros p. exact (answered_wf _ _ _ _ _ _ A').
Qed.
End QT.

Lemma qd_node l s h t ih r json out ok : Forall wf_pev l -> prun app_new l = Some (s, h) -> In (OBegin t (CLookup ih)) h -> In (OReturn t r) h ->
  query_dht_cmd json r = (out, ok) ->
  (ok = true -> exists n sid ps, In (OServe t n sid) h /\ lists json out ps /\ ps <> [] /\ NoDup (map pr_addr ps) /\ forall p, In p ps <-> named h n sid ih p) /\
  (ok = false -> out = [] /\
     ((r = CreateFailed /\ In (PCreate t None) l) \/
      (r = HandleFailed /\ ((exists n, In (PResolve n []) l) \/ exists t', In (OBegin t' CShutdown) h)) \/
      (exists f n sid, r = Found f /\ In (OServe t n sid) h /\ forall p, ~ named h n sid ih p))).
Proof.
  intros W R B RT Q. set (w := mkWorld (fun _ => Ret []) (dht_found r) (fun _ => (0, (M_GetInfo.mkDial None [] [] 0 [], []), (M_GetInfo.mkDial None [] [] 0 [], []))) 0).
  assert (LU : looked_up h t (mkMagnet ih None []) r w) by (split; [reflexivity|]; split; [exact B|]; split; [exact RT|]; split; reflexivity).
  destruct (reasons _ _ _ t W R) as (R1 & R2). unfold query_dht_cmd, query_dht in Q. destruct r as [f| | |].
  - destruct (lookup_facts _ _ _ _ _ _ _ W R LU) as (n & sid & SV & LK & PE & ND & WF & _). cbn [mg_hash] in *. destruct (fp_peers f) as [|p0 ps0] eqn:EP; injection Q as <- <-.
    + split; [discriminate|]. intros _. split; [reflexivity|]. right. right. exists f, n, sid. split; [reflexivity|]. split; [exact SV|]. intros p X. apply PE in X. destruct X.
    + split; [|discriminate]. intros _. exists n, sid, (p0 :: ps0). split; [exact SV|]. split; [apply listing_lists; apply Forall_forall; intros p I; exact (proj1 (WF p I))|]. split; [discriminate|].
      split; [|exact PE]. clear -ND WF. induction ND as [|x xs N ND IH]; [constructor|]. cbn [map]. constructor; [|apply IH; intros p I; apply WF; right; exact I].
      intros I. apply in_map_iff in I. destruct I as (y & E & I). destruct (WF x (or_introl eq_refl)) as (_ & I1 & C1). destruct (WF y (or_intror I)) as (_ & I2 & C2).
      apply N. replace x with y; [exact I|]. destruct x, y; cbn in *; congruence.
  - injection Q as <- <-. split; [discriminate|]. intros _. split; [reflexivity|]. left. auto.
  - injection Q as <- <-. split; [discriminate|]. intros _. split; [reflexivity|]. right. left. auto.
  - destruct (lookup_not_stopped _ _ _ _ _ W R B RT).
Qed.
