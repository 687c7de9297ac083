(** Proofs for the process as a whole: leaving. *)
From Verif Require Import Base BaseFacts M_Net M_Tracker M_Session M_Announce M_Http M_Mse M_Config M_DhtMsg M_Dht S_Dht M_App S_App M_Async M_Process S_Process S_Announce
  P_Async P_App P_App2 P_App3 P_App4 P_App5 P_Announce P_Process P_Process2 P_Process3.

Section Proc.
Context (cfg : config) (pid : bytes) (key port : N).
Notation step := (zstep cfg pid key port).
Notation run := (zrun cfg pid key port).
Notation rel := (zrel cfg pid key port).
Notation prompt := (prompt cfg pid key port).
Notation limit := (ns (c_shutdown_timeout cfg)).

(** *** Running tasks have not ended *)
Definition disjoint (s : proc) : Prop := forall i, In i (g_running (z_group s)) -> ~ In i (g_ended (z_group s)).
Lemma disjoint_run l s h : run z_new l = Some (s, h) -> disjoint s.
Proof.
  intros R. refine (run_ind cfg pid key port (fun _ _ s => disjoint s) z_new _ _ l s h R); [intros i []|].
  clear. intros l h s e s' o R D EX E REL. assert (Z := zinv_run _ _ _ _ _ _ _ R). unfold disjoint in *. destruct REL; try exact D; cbn [z_group set_group].
  - cbn [gstep] in H. injection H as <-. exact D.
  - cbn [gstep] in H2. injection H2 as <-. cbn [g_running g_ended]. intros i [<-|X]; [|exact (D _ X)]. intros X.
    assert (Q : (g_next (z_group s) < g_next (z_group s))%nat) by (apply (gi_all _ (z_ginv _ _ _ Z)); auto). lia.
  - cbn [gstep] in H1. destruct (g_phase _); try discriminate. injection H1 as <-. exact D.
  - apply gend in H0. destruct H0 as (_ & ->). cbn [g_running g_ended]. intros j X. apply filter_In in X. destruct X as (X & NE). intros [<-|Y]; [rewrite Nat.eqb_refl in NE; discriminate|exact (D _ X Y)].
  - apply gend in H1. destruct H1 as (_ & ->). cbn [g_running g_ended]. intros j X. apply filter_In in X. destruct X as (X & NE). intros [<-|Y]; [rewrite Nat.eqb_refl in NE; discriminate|exact (D _ X Y)].
  - apply gtimeout in H. destruct H as (dl & _ & _ & _ & ->). exact D.
  - apply gjoin in H. destruct H as (_ & [(dl & _ & ->)|(_ & ->)]); intros i [].
  - apply gjoin in H. destruct H as (_ & [(dl & _ & ->)|(_ & ->)]); intros i [].
Qed.
Lemma task_of l s h i : run z_new l = Some (s, h) -> In i (g_running (z_group s)) -> exists q z b, nth_error (z_tasks s) i = Some (q, z, b).
Proof.
  intros R X. assert (Z := zinv_run _ _ _ _ _ _ _ R). assert (Q : (i < g_next (z_group s))%nat) by (apply (gi_all _ (z_ginv _ _ _ Z)); auto). rewrite (z_next _ _ _ Z) in Q.
  destruct (nth_error (z_tasks s) i) as [[[q z] b]|] eqn:N; [eauto|]. apply nth_error_None in N. lia.
Qed.

(** *** At the exit *)
Lemma exit_now l s h t ok : run z_new l = Some (s, h) -> In (t, OExit ok) h -> z_now s = t /\ z_stage s = Exited ok.
Proof.
  intros R. refine (run_ind cfg pid key port (fun _ h s => In (t, OExit ok) h -> z_now s = t /\ z_stage s = Exited ok) z_new _ _ l s h R); [intros []|].
  clear. intros l h s e s' o R IH EX E REL X. apply in_app_iff in X. destruct X as [X|X]; [destruct (z_noexit _ _ _ (zinv_run _ _ _ _ _ _ _ R) EX _ _ X)|].
  destruct (exit_only _ _ _ _ _ _ _ _ _ _ REL X) as (A & B & C). split; [|exact B]. rewrite (obs_now _ _ _ _ _ _ _ _ _ _ REL X).
  destruct REL; try discriminate; try (cbn [z_stage set_group set_query] in B; congruence). apply gjoin in H. destruct H as (_ & [(dl & _ & ->)|(_ & ->)]); reflexivity.
Qed.
Lemma all_stopped l s h t ok ta q ps : run z_new l = Some (s, h) -> In (t, OExit ok) h -> In (ta, OAnswered q ps) h ->
  exists a z, In (ta, OAnnounced q a) h /\ an_event a = EvStarted /\ an_event z = EvStopped /\ same_peer a z /\
    ((exists t1 t2, In (t1, OStopping q z) h /\ In (t2, OStopped q) h /\ ta <= t1 /\ t1 <= t2 /\ t2 <= t) \/
     (exists te t2, In (te, OEnd ok) h /\ In (t2, OGivenUp q) h /\ te + limit <= t2 /\ t2 <= t)).
Proof.
  intros R X A. destruct (exit_now _ _ _ _ _ R X) as (NOW & ST). assert (Z := zinv_run _ _ _ _ _ _ _ R). assert (T := tinv_run _ _ _ _ _ _ _ R).
  destruct (t_ans _ _ _ _ _ _ _ T _ _ _ A) as (x & t0 & i & b & N & _ & _ & NT & AN). exists (start_announcement (tq_session x)), (stop_announcement (tq_session x)).
  split; [exact AN|]. split; [reflexivity|]. split; [reflexivity|]. split; [repeat split|].
  assert (SG := z_staged _ _ _ Z). unfold stage_inv in SG. rewrite ST in SG. destruct SG as (_ & RN & _).
  assert (LT : (i < g_next (z_group s))%nat) by (rewrite (z_next _ _ _ Z); apply nth_error_Some; congruence). apply (gi_all _ (z_ginv _ _ _ Z)) in LT. rewrite RN in LT. destruct LT as [[]|EN].
  destruct (t_ended _ _ _ _ _ _ _ T _ _ _ _ NT EN) as [(t1 & t2 & Z1 & Z2 & Z3)|(t2 & te & ok' & Z1 & Z2 & Z3)].
  - left. exists t1, t2. split; [exact Z1|]. split; [exact Z2|]. split; [|split; [exact Z3|]].
    + destruct (t_stopping _ _ _ _ _ _ _ T _ _ _ Z1) as (j & ta' & ps' & _ & Y & L). destruct (t_ans1 _ _ _ _ _ _ _ T _ _ _ _ _ A Y) as (<- & _). exact L.
    + rewrite <- NOW. exact (z_past _ _ _ Z _ _ Z2).
  - right. exists te, t2. apply in_split in X. destruct X as (h1 & h2 & X). destruct (exit_last _ _ _ _ _ _ _ _ _ _ _ R X) as (_ & _ & te' & E).
    destruct (z_end1 _ _ _ Z te te' ok' ok) as (_ & <-); [exact Z2|rewrite X; apply in_or_app; auto|]. split; [exact Z2|]. split; [exact Z1|]. split; [exact Z3|]. rewrite <- NOW. exact (z_past _ _ _ Z _ _ Z1).
Qed.
Lemma exited_shown l s h ok : run z_new l = Some (s, h) -> z_stage s = Exited ok -> exists t, In (t, OExit ok) h.
Proof.
  intros R. refine (run_ind cfg pid key port (fun _ h s => z_stage s = Exited ok -> exists t, In (t, OExit ok) h) z_new _ _ l s h R); [discriminate|].
  clear. intros l h s e s' o R IH EX E REL X. assert (NX : z_stage s <> Exited ok) by (unfold exited in EX; destruct (z_stage s); congruence || discriminate).
  destruct REL; try (cbn [z_stage set_group set_query set_stage] in X; congruence). cbn [z_stage] in X. injection X as ->. exists (z_now s). apply in_or_app. right. left. reflexivity.
Qed.
(** *** Answers are the trackers', and announcements say who we are *)
Lemma begun_at l s h : run z_new l = Some (s, h) -> forall q x st, nth_error (z_queries s) q = Some (x, st) ->
  exists l1 l2 ih ov s1 h1, l = l1 ++ ZQuery ih ov (tq_tracker x) (tq_net x) :: l2 /\ length (queries_of l1) = q /\ run z_new l1 = Some (s1, h1) /\ tq_begun x = z_now s1 /\ tq_session x = z_session cfg pid key port ih ov.
Proof.
  intros R. refine (run_ind cfg pid key port (fun l h s => forall q x st, nth_error (z_queries s) q = Some (x, st) ->
    exists l1 l2 ih ov s1 h1, l = l1 ++ ZQuery ih ov (tq_tracker x) (tq_net x) :: l2 /\ length (queries_of l1) = q /\ run z_new l1 = Some (s1, h1) /\ tq_begun x = z_now s1 /\ tq_session x = z_session cfg pid key port ih ov) z_new _ _ l s h R); [intros [|q] x st; discriminate|].
  clear. intros l h s e s' o R IH EX E REL. assert (T := tinv_run _ _ _ _ _ _ _ R).
  assert (OLD : forall q x st, nth_error (z_queries s) q = Some (x, st) -> exists l1 l2 ih ov s1 h1, l ++ [e] = l1 ++ ZQuery ih ov (tq_tracker x) (tq_net x) :: l2 /\ length (queries_of l1) = q /\ run z_new l1 = Some (s1, h1) /\ tq_begun x = z_now s1 /\ tq_session x = z_session cfg pid key port ih ov).
  { intros q x st N. destruct (IH _ _ _ N) as (l1 & l2 & ih & ov & s1 & h1 & -> & A). exists l1, (l2 ++ [e]), ih, ov, s1, h1. split; [rewrite <- app_assoc; reflexivity|exact A]. }
  assert (SET : forall q0 x0 st0 st1 q x st, nth_error (z_queries s) q0 = Some (x0, st0) -> nth_error (M_App.set_nth (z_queries s) q0 (x0, st1)) q = Some (x, st) -> exists st', nth_error (z_queries s) q = Some (x, st')).
  { intros q0 x0 st0 st1 q x st N. rewrite set_nth_get. destruct (Nat.eqb_spec q0 q) as [->|NE]; [rewrite N; intros [= <- <-]; eauto|eauto]. }
  intros q' x' st' N. destruct REL; try (eapply OLD; exact N); cbn [z_queries set_query] in N; try (destruct (SET _ _ _ _ _ _ _ H N) as (st0 & N0); eapply OLD; exact N0).
  destruct (Nat.lt_ge_cases q' (length (z_queries s))) as [LT|GE]; [rewrite nth_error_app1 in N by exact LT; eapply OLD; exact N|]. rewrite nth_error_app2 in N by exact GE. destruct (q' - length (z_queries s))%nat as [|k] eqn:Q; [|destruct k; discriminate]. cbn [nth_error] in N. injection N as <- <-.
  exists l, [], ih, ov, s, h. split; [reflexivity|]. split; [rewrite <- (t_len _ _ _ _ _ _ _ T); lia|]. split; [exact R|]. split; reflexivity.
Qed.
Lemma answer_from l s h ta q ps : run z_new l = Some (s, h) -> In (ta, OAnswered q ps) h ->
  exists l1 l2 ih ov tr n s1 h1 a, l = l1 ++ ZQuery ih ov tr n :: l2 /\ length (queries_of l1) = q /\ run z_new l1 = Some (s1, h1) /\
    In (ta, OAnnounced q a) h /\ an_hash a = ih /\ an_pid a = pid /\ an_key a = key /\ an_port a = port /\
    (in_order n -> exists t r, answered tr a n t r /\ t <= ns (c_announce_timeout cfg) /\ ps = ar_peers r /\ z_now s1 + t <= ta).
Proof.
  intros R A. assert (T := tinv_run _ _ _ _ _ _ _ R). destruct (t_ans _ _ _ _ _ _ _ T _ _ _ A) as (x & t0 & i & b & N & Q & LE & NT & AN).
  destruct (begun_at _ _ _ R _ _ _ N) as (l1 & l2 & ih & ov & s1 & h1 & E1 & E2 & E3 & E4 & S). exists l1, l2, ih, ov, (tq_tracker x), (tq_net x), s1, h1, (start_announcement (tq_session x)).
  do 3 (split; [assumption|]). split; [exact AN|]. rewrite S. do 4 (split; [reflexivity|]). intros IO. rewrite S in Q. destruct (query_ok _ _ _ _ _ _ _ _ IO Q) as (_ & _ & L & r & Y & ->). exists t0, r. rewrite <- E4. auto.
Qed.
Lemma stop_only l s h t1 q z : run z_new l = Some (s, h) -> In (t1, OStopping q z) h -> an_event z = EvStopped /\ exists ta ps, In (ta, OAnswered q ps) h /\ ta <= t1.
Proof.
  intros R X. assert (T := tinv_run _ _ _ _ _ _ _ R). destruct (t_stopping _ _ _ _ _ _ _ T _ _ _ X) as (i & ta & ps & N & Y & L). split; [|eauto].
  destruct (t_ans _ _ _ _ _ _ _ T _ _ _ Y) as (x & _ & j & b & _ & _ & _ & NT & _). rewrite (nd_index _ _ _ _ _ _ _ _ (t_nd _ _ _ _ _ _ _ T) N NT) in N. rewrite NT in N. injection N as <- _. reflexivity.
Qed.
Lemma stop_once l s h t t' q z z' h1 h2 : run z_new l = Some (s, h) -> h = h1 ++ (t, OStopping q z) :: h2 -> ~ In (t', OStopping q z') h1 /\ ~ In (t', OStopping q z') h2.
Proof.
  intros R E. assert (N := t_once _ _ _ _ _ _ _ (tinv_run _ _ _ _ _ _ _ R)). rewrite E in N. unfold stoppings in N. rewrite flat_map_app in N. cbn [flat_map snd app] in N.
  apply NoDup_remove_2 in N. split; intros X; apply N; apply in_or_app; [left|right]; apply in_stoppings; eauto.
Qed.

(** *** No deadlock *)
Lemma leaving_moves l s h te ok : Forall wf_zev l -> run z_new l = Some (s, h) -> In (te, OEnd ok) h -> exited s = false ->
  (exists e, at_once e = true /\ step s e <> None) \/ exists q, under_way h q.
Proof.
  intros W R E EX. assert (Z := zinv_run _ _ _ _ _ _ _ R). assert (SG := z_staged _ _ _ Z). unfold stage_inv in SG. destruct (z_stage s) as [|ok' t|ok'|ok'|] eqn:ST.
  - destruct SG as (_ & _ & X). destruct (X _ _ E).
  - left. eapply closing_moves; eauto. eapply ainv_run; eauto.
  - destruct SG as (_ & PH). destruct (g_running (z_group s)) as [|i rn] eqn:RN.
    + left. exists ZJoin. split; [reflexivity|]. unfold zstep. rewrite EX. unfold gapply. cbn [gstep]. rewrite RN. destruct PH as [PH|(dl & PH)]; rewrite PH; cbn [option_map set_group z_stage z_group g_phase]; rewrite ST; discriminate.
    + assert (I : In i (g_running (z_group s))) by (rewrite RN; left; reflexivity). destruct (task_of _ _ _ _ R I) as (q & z & [|] & N).
      * right. exists q. assert (T := tinv_run _ _ _ _ _ _ _ R). split; [destruct (t_begun _ _ _ _ _ _ _ T _ _ _ N); eauto|]. intros t.
        assert (Q : forall t, ~ (In (t, OStopped q) h \/ In (t, OGivenUp q) h)); [|specialize (Q t); tauto]. intros t' X. destruct (t_over _ _ _ _ _ _ _ T _ _ X) as (j & z' & b' & N' & EN).
        rewrite <- (nd_index _ _ _ _ _ _ _ _ (t_nd _ _ _ _ _ _ _ T) N N') in EN. exact (disjoint_run _ _ _ R _ I EN).
      * left. exists (ZStop i). split; [reflexivity|]. unfold zstep. rewrite EX, N. replace (existsb _ _) with true; [discriminate|]. symmetry. apply existsb_exists. exists i. rewrite Nat.eqb_refl. auto.
  - unfold exited in EX. rewrite ST in EX. discriminate.
  - unfold exited in EX. rewrite ST in EX. discriminate.
Qed.

(** *** Prompt executions *)
Lemma prompt_last l : forall s0 e s h, prompt s0 (l ++ [e]) -> run s0 l = Some (s, h) ->
  prompt s0 l /\ forall n m s1 o1 x, e = ZTick n -> m < n -> step s (ZTick m) = Some (s1, o1) -> at_once x = true -> step s1 x = None.
Proof.
  induction l as [|a l IH]; intros s0 e s h P R; cbn [app zrun] in *.
  - injection R as <- <-. inversion P; subst. split; [constructor|assumption].
  - inversion P as [|s1 e1 s' o1 l1 E H Q]; subst. rewrite E in R. destruct (run s' l) as [[s2 o2]|] eqn:R2; [|discriminate]. injection R as <- <-.
    destruct (IH _ _ _ _ Q R2) as (P1 & P2). split; [econstructor; eauto|exact P2].
Qed.
Lemma tick_step s m : exited s = false -> step s (ZTick m) = Some (set_group s (mkG (g_running (z_group s)) (g_ended (z_group s)) (g_next (z_group s)) (g_cancelled (z_group s)) (g_phase (z_group s)) (g_now (z_group s) + m)), []).
Proof. intros EX. unfold zstep. rewrite EX. reflexivity. Qed.
Definition later (s : proc) (m : N) : proc := set_group s (mkG (g_running (z_group s)) (g_ended (z_group s)) (g_next (z_group s)) (g_cancelled (z_group s)) (g_phase (z_group s)) (g_now (z_group s) + m)).
Lemma idle s l n h : exited s = false -> prompt z_new (l ++ [ZTick n]) -> run z_new l = Some (s, h) -> forall m x, m < n -> at_once x = true -> step (later s m) x = None.
Proof. intros EX P R m x L A. destruct (prompt_last _ _ _ _ _ P R) as (_ & Q). exact (Q n m _ _ x eq_refl L (tick_step s m EX) A). Qed.
Lemma later_0 s : later s 0 = s.
Proof. unfold later, set_group. rewrite N.add_0_r. destruct s as [a b [c d e f g i] j k]. reflexivity. Qed.
Lemma in_existsb i r : In i r -> existsb (Nat.eqb i) r = true.
Proof. intros X. apply existsb_exists. exists i. rewrite Nat.eqb_refl. auto. Qed.

(** The end is announced at once. *)
Definition quick (h : list (N * zobs)) (s : proc) : Prop :=
  forall i q z b ta ps, nth_error (z_tasks s) i = Some (q, z, b) -> In (ta, OAnswered q ps) h ->
    (exists z', In (ta, OStopping q z') h) \/ In (ta, OGivenUp q) h \/ (b = false /\ In i (g_running (z_group s)) /\ ta = z_now s).
Lemma quick_run l s h : run z_new l = Some (s, h) -> prompt z_new l -> quick h s.
Proof.
  intros R. refine (run_ind cfg pid key port (fun l h s => prompt z_new l -> quick h s) z_new _ _ l s h R); [intros _ i q z b ta ps N; destruct i; discriminate|].
  clear. intros l h s e s' o R IH EX E REL P. destruct (prompt_last _ _ _ _ _ P R) as (P1 & _). specialize (IH P1). assert (Z := zinv_run _ _ _ _ _ _ _ R). assert (T := tinv_run _ _ _ _ _ _ _ R).
  assert (SAME : z_tasks s' = z_tasks s -> g_running (z_group s') = g_running (z_group s) -> z_now s' = z_now s -> (forall t q ps, ~ In (t, OAnswered q ps) o) -> quick (h ++ o) s').
  { intros A B C D i q z b ta ps N X. rewrite A in N. apply in_app_iff in X. destruct X as [X|X]; [|destruct (D _ _ _ X)]. rewrite B, C.
    destruct (IH _ _ _ _ _ _ N X) as [(z' & Y)|[Y|Y]]; [left; exists z'; apply in_or_app; auto|right; left; apply in_or_app; auto|auto]. }
  assert (OTHER : forall i g q1 (oo : zobs), gstep (z_group s) (GEnd i) = Some g -> (exists a b, nth_error (z_tasks s) i = Some (q1, a, b) /\ (b = true \/ oo = OGivenUp q1)) -> (forall q ps, oo <> OAnswered q ps) -> quick (h ++ [(z_now s, oo)]) (set_group s g)).
  { intros i g q1 oo G (a1 & b1 & N1 & K) NA j q z b ta ps N X. apply gend in G. destruct G as (_ & ->). cbn [set_group z_tasks z_group g_running] in *. apply in_app_iff in X. destruct X as [X|[X|[]]]; [|injection X as _ X; destruct (NA _ _ X)].
    destruct (IH _ _ _ _ _ _ N X) as [(z' & Y)|[Y|(Y1 & Y2 & Y3)]]; [left; exists z'; apply in_or_app; auto|right; left; apply in_or_app; auto|]. destruct (Nat.eq_dec i j) as [->|NE].
    - rewrite N1 in N. injection N as <- <- <-. destruct K as [->| ->]; [discriminate|]. right. left. subst ta. apply in_or_app. right. left. reflexivity.
    - right. right. split; [exact Y1|]. split; [|exact Y3]. apply filter_In. split; [exact Y2|]. destruct (Nat.eqb_spec i j); [congruence|reflexivity]. }
  destruct REL; try (apply SAME; auto; intros ? ? ? [X|[]]; discriminate X); try (apply SAME; auto; intros ? ? ? []; fail).
  - destruct (N.eq_dec n 0) as [->|NZ].
    + cbn [gstep] in H. injection H as <-. apply SAME; auto; unfold z_now; cbn; lia.
    + intros i q z b ta ps N X. rewrite app_nil_r in *. cbn [set_group z_tasks] in N. destruct (IH _ _ _ _ _ _ N X) as [Y|[Y|(Y1 & Y2 & Y3)]]; auto. exfalso.
      assert (Q := idle s l n h EX P R 0 (ZStop i) ltac:(lia) eq_refl). rewrite later_0 in Q. unfold zstep in Q. rewrite EX, N, Y1, (in_existsb _ _ Y2) in Q. discriminate.
  - (* answered *)
    cbn [gstep] in H2. injection H2 as <-. intros i q' z b ta ps' N X. cbn [z_tasks z_group g_running] in *.
    assert (NA : forall ta ps, ~ In (ta, OAnswered q ps) h). { intros ta' ps0 Y. destruct (t_ans _ _ _ _ _ _ _ T _ _ _ Y) as (x' & t' & j & b' & Y' & _). congruence. }
    apply in_app_iff in X. destruct X as [X|[X|[X|[]]]]; [|discriminate|].
    + destruct (Nat.lt_ge_cases i (length (z_tasks s))) as [LT|GE].
      * rewrite nth_error_app1 in N by exact LT. destruct (IH _ _ _ _ _ _ N X) as [(z' & Y)|[Y|(Y1 & Y2 & Y3)]]; [left; exists z'; apply in_or_app; auto|right; left; apply in_or_app; auto|].
        right. right. split; [exact Y1|]. split; [right; exact Y2|exact Y3].
      * rewrite nth_error_app2 in N by exact GE. destruct (i - length (z_tasks s))%nat as [|k]; [|destruct k; discriminate]. cbn [nth_error] in N. injection N as <- <- <-. destruct (NA _ _ X).
    + injection X as <- <- <-. destruct (Nat.lt_ge_cases i (length (z_tasks s))) as [LT|GE].
      * rewrite nth_error_app1 in N by exact LT. destruct (t_task _ _ _ _ _ _ _ T _ _ _ _ N) as (ta & ps0 & Y). destruct (NA _ _ Y).
      * rewrite nth_error_app2 in N by exact GE. destruct (i - length (z_tasks s))%nat as [|k] eqn:Q; [|destruct k; discriminate]. cbn [nth_error] in N. injection N as <- <-. right. right. split; [reflexivity|]. split; [|reflexivity].
        left. rewrite (z_next _ _ _ Z). lia.
  - apply SAME; auto. intros t' q' ps X. apply in_map_iff in X. destruct X as (a & X & _). discriminate.
  - cbn [gstep] in H1. destruct (g_phase _) eqn:PH; try discriminate. injection H1 as <-. apply SAME; auto.
  - (* begun *)
    intros j q' z b ta ps N X. cbn [z_tasks z_group] in *. apply in_app_iff in X. destruct X as [X|[X|[]]]; [|discriminate]. rewrite set_nth_get, H in N. destruct (Nat.eqb_spec i j) as [->|NE].
    + injection N as <- <- <-. destruct (IH _ _ _ _ _ _ H X) as [(z' & Y)|[Y|(Y1 & Y2 & Y3)]]; [left; exists z'; apply in_or_app; auto|right; left; apply in_or_app; auto|].
      left. exists a. apply in_or_app. right. left. subst ta. reflexivity.
    + destruct (IH _ _ _ _ _ _ N X) as [(z' & Y)|[Y|(Y1 & Y2 & Y3)]]; [left; exists z'; apply in_or_app; auto|right; left; apply in_or_app; auto|auto].
  - apply (OTHER i g q (OStopped q)); [exact H0|eauto 6|discriminate].
  - apply (OTHER i g q (OGivenUp q)); [exact H1|eauto 6|discriminate].
  - apply gtimeout in H. destruct H as (dl & _ & _ & _ & ->). apply SAME; auto.
  - pose proof H as H'. apply gjoin in H. destruct H as (RN & J). assert (Q : g_running g = g_running (z_group s) /\ g_now g = z_now s) by (destruct J as [(dl & _ & ->)|(_ & ->)]; cbn; auto). destruct Q as (Q1 & Q2). apply SAME; auto.
  - pose proof H as H'. apply gjoin in H. destruct H as (RN & J). assert (Q : g_running g = g_running (z_group s) /\ g_now g = z_now s) by (destruct J as [(dl & _ & ->)|(_ & ->)]; cbn; auto). destruct Q as (Q1 & Q2). apply SAME; auto. intros ? ? ? [X|[]]. discriminate X.
Qed.
Lemma announced_at_once l s h ta q ps : run z_new l = Some (s, h) -> prompt z_new l -> In (ta, OAnswered q ps) h -> ta < z_now s -> (exists z, In (ta, OStopping q z) h) \/ In (ta, OGivenUp q) h.
Proof.
  intros R P X L. assert (T := tinv_run _ _ _ _ _ _ _ R). destruct (t_ans _ _ _ _ _ _ _ T _ _ _ X) as (x & t0 & i & b & _ & _ & _ & NT & _).
  destruct (quick_run _ _ _ R P _ _ _ _ _ _ NT X) as [Y|[Y|(_ & _ & Y)]]; auto. lia.
Qed.
End Proc.
