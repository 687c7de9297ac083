(** Proofs for the process as a whole: the steps, and what is always so. *)
From Verif Require Import Base BaseFacts M_Net M_Tracker M_Session M_Announce M_Http M_Mse M_Config M_Dht S_Dht M_App S_App M_Async M_Process S_Process
  P_Async P_App P_App2 P_App3 P_App4 P_App5.

Section Proc.
Context (cfg : config) (pid : bytes) (key port : N).
Notation step := (zstep cfg pid key port).
Notation run := (zrun cfg pid key port).

(** *** The steps, spelled out *)
Inductive zrel (s : proc) : zev -> proc -> list (N * zobs) -> Prop :=
| z_tick n g : gstep (z_group s) (GTick n) = Some g -> zrel s (ZTick n) (set_group s g) []
| z_query ih ov tr n : z_stage s = Working ->
    zrel s (ZQuery ih ov tr n) (mkProc (z_stage s) (z_app s) (z_group s) (z_queries s ++ [(mkQuery (z_session cfg pid key port ih ov) tr n (z_now s), QRunning)]) (z_tasks s)) []
| z_answer q x t ps g : nth_error (z_queries s) q = Some (x, QRunning) ->
    tracker_query (ns (c_announce_timeout cfg)) (tq_session x) (tq_tracker x) (tq_net x) = ([start_announcement (tq_session x)], Some (stop_announcement (tq_session x)), t, Ok ps) ->
    tq_begun x + t <= z_now s -> gstep (z_group s) GSpawn = Some g ->
    zrel s (ZAnswer q) (mkProc (z_stage s) (z_app s) g (M_App.set_nth (z_queries s) q (x, QReturned)) (z_tasks s ++ [(q, stop_announcement (tq_session x), false)]))
      [(z_now s, OAnnounced q (start_announcement (tq_session x))); (z_now s, OAnswered q ps)]
| z_fail q x made t e : nth_error (z_queries s) q = Some (x, QRunning) ->
    tracker_query (ns (c_announce_timeout cfg)) (tq_session x) (tq_tracker x) (tq_net x) = (made, None, t, Err e) ->
    tq_begun x + t <= z_now s -> zrel s (ZAnswer q) (set_query s q x QReturned) (map (fun a => (z_now s, OAnnounced q a)) made)
| z_drop q x : nth_error (z_queries s) q = Some (x, QRunning) -> zrel s (ZDrop q) (set_query s q x QDropped) []
| z_dht e a o : dht_allowed (z_stage s) e = true -> pstep (z_app s) e = Some (a, o) ->
    zrel s (ZDht e) (mkProc (z_stage s) a (z_group s) (z_queries s) (z_tasks s)) []
| z_done ok a o : z_stage s = Working -> all_returned (p_calls (z_app s)) = true -> pstep (z_app s) (PCall CShutdown) = Some (a, o) ->
    zrel s (ZDone ok) (mkProc (Closing ok (length (p_calls (z_app s)))) a (z_group s) (z_queries s) (z_tasks s)) [(z_now s, OEnd ok)]
| z_closed ok t c r g : z_stage s = Closing ok t -> nth_error (p_calls (z_app s)) t = Some (c, TDone r) ->
    gstep (z_group s) (GCall (ns (c_shutdown_timeout cfg))) = Some g -> zrel s ZClosed (mkProc (Leaving ok) (z_app s) g (z_queries s) (z_tasks s)) []
| z_stop i q a : nth_error (z_tasks s) i = Some (q, a, false) -> In i (g_running (z_group s)) ->
    zrel s (ZStop i) (mkProc (z_stage s) (z_app s) (z_group s) (z_queries s) (M_App.set_nth (z_tasks s) i (q, a, true))) [(z_now s, OStopping q a)]
| z_stopped i q a g : nth_error (z_tasks s) i = Some (q, a, true) -> gstep (z_group s) (GEnd i) = Some g ->
    zrel s (ZStopped i) (set_group s g) [(z_now s, OStopped q)]
| z_giveup i q a b g : nth_error (z_tasks s) i = Some (q, a, b) -> g_cancelled (z_group s) = true -> gstep (z_group s) (GEnd i) = Some g ->
    zrel s (ZGiveUp i) (set_group s g) [(z_now s, OGivenUp q)]
| z_timeout g : gstep (z_group s) GTimeout = Some g -> zrel s ZTimeout (set_group s g) []
| z_join g : gstep (z_group s) GJoin = Some g -> (forall ok, z_stage s = Leaving ok -> g_phase g <> GReturned) -> zrel s ZJoin (set_group s g) []
| z_exit ok g : gstep (z_group s) GJoin = Some g -> z_stage s = Leaving ok -> g_phase g = GReturned ->
    zrel s ZJoin (mkProc (Exited ok) (z_app s) g (z_queries s) (z_tasks s)) [(z_now s, OExit ok)]
| z_panic : z_stage s = Working -> zrel s ZPanic (set_stage s Crashed) [(z_now s, OPanic)].

Lemma query_shape limit s tr n : exists t,
  (exists ps, tracker_query limit s tr n = ([start_announcement s], Some (stop_announcement s), t, Ok ps)) \/
  (exists made e, tracker_query limit s tr n = (made, None, t, Err e)).
Proof.
  unfold tracker_query, getter_run. destruct (timeout limit _) as [t [[u|e]|]]; [|eauto|eauto].
  destruct (timeout (limit - t) _) as [t' [[r|e]|]]; eauto.
Qed.
Lemma step_rel s e s' o : step s e = Some (s', o) -> exited s = false /\ zrel s e s' o.
Proof.
  unfold zstep. destruct (exited s) eqn:EX; [discriminate|]. intros H. split; [reflexivity|].
  destruct e as [n|ih ov tr n|q|q|e|ok| |i|i|i| | |]; unfold gapply in H.
  - destruct (gstep _ _) as [g|] eqn:G; [|discriminate]. cbn [option_map] in H. injection H as <- <-. exact (z_tick s n g G).
  - destruct (z_stage s) eqn:ST; try discriminate. injection H as <- <-. rewrite <- ST. apply z_query. exact ST.
  - destruct (nth_error (z_queries s) q) as [[x [| |]]|] eqn:N; try discriminate.
    destruct (query_shape (ns (c_announce_timeout cfg)) (tq_session x) (tq_tracker x) (tq_net x)) as (t & [(ps & Q)|(made & e & Q)]); rewrite Q in H.
    + destruct (_ <=? _) eqn:L; [|discriminate]. apply N.leb_le in L. destruct (gstep _ _) as [g|] eqn:G; [|discriminate]. cbn [option_map] in H. injection H as <- <-.
      exact (z_answer s q x t ps g N Q L G).
    + destruct (_ <=? _) eqn:L; [|discriminate]. apply N.leb_le in L. rewrite app_nil_r in H. injection H as <- <-. exact (z_fail s q x made t e N Q L).
  - destruct (nth_error (z_queries s) q) as [[x [| |]]|] eqn:N; try discriminate. injection H as <- <-. exact (z_drop s q x N).
  - destruct (dht_allowed _ _) eqn:D; [|discriminate]. destruct (pstep _ _) as [[a oa]|] eqn:P; [|discriminate]. injection H as <- <-. exact (z_dht s e a oa D P).
  - destruct (z_stage s) eqn:ST; try discriminate. destruct (all_returned _) eqn:A; [|discriminate]. destruct (pstep _ _) as [[a oa]|] eqn:P; [|discriminate].
    injection H as <- <-. exact (z_done s ok a oa ST A P).
  - destruct (z_stage s) as [|ok t| | |] eqn:ST; try discriminate. destruct (nth_error _ t) as [[c [| | | |r|]]|] eqn:N; try discriminate.
    destruct (gstep _ _) as [g|] eqn:G; [|discriminate]. cbn [option_map] in H. injection H as <- <-. exact (z_closed s ok t c r g ST N G).
  - destruct (nth_error _ i) as [[[q a] [|]]|] eqn:N; try discriminate. destruct (existsb _ _) eqn:X; [|discriminate]. injection H as <- <-.
    apply z_stop; [exact N|]. apply existsb_exists in X. destruct X as (j & J & E). apply Nat.eqb_eq in E. subst j. exact J.
  - destruct (nth_error _ i) as [[[q a] [|]]|] eqn:N; try discriminate. destruct (gstep _ _) as [g|] eqn:G; [|discriminate]. cbn [option_map] in H. injection H as <- <-.
    exact (z_stopped s i q a g N G).
  - destruct (nth_error _ i) as [[[q a] b]|] eqn:N; try discriminate. destruct (g_cancelled _) eqn:C; [|discriminate]. destruct (gstep _ _) as [g|] eqn:G; [|discriminate].
    cbn [option_map] in H. injection H as <- <-. exact (z_giveup s i q a b g N C G).
  - destruct (gstep _ _) as [g|] eqn:G; [|discriminate]. cbn [option_map] in H. injection H as <- <-. exact (z_timeout s g G).
  - destruct (gstep _ _) as [g|] eqn:G; [|discriminate]. cbn [option_map] in H.
    change (z_stage (set_group s g)) with (z_stage s) in H. change (z_group (set_group s g)) with g in H.
    destruct (z_stage s) as [|ok t|ok|ok|] eqn:ST; [| |destruct (g_phase g) eqn:PH| |]; injection H as <- <-; try (apply z_join; [exact G|]; intros ok' X; congruence).
    exact (z_exit s ok g G ST PH).
  - destruct (z_stage s) eqn:ST; try discriminate. injection H as <- <-. exact (z_panic s ST).
Qed.

Lemma run_app l l' : forall s, run s (l ++ l') = match run s l with Some (s1, o1) => match run s1 l' with Some (s2, o2) => Some (s2, o1 ++ o2) | None => None end | None => None end.
Proof.
  induction l as [|e l IH]; intros s; cbn [app zrun]; [destruct (run s l') as [[? ?]|]; reflexivity|]. destruct (step s e) as [[s1 o1]|]; [|reflexivity].
  rewrite IH. destruct (run s1 l) as [[s2 o2]|]; [|reflexivity]. destruct (run s2 l') as [[s3 o3]|]; [|reflexivity]. rewrite app_assoc. reflexivity.
Qed.
(** Induction over executions, from the end. *)
Lemma run_ind (P : list zev -> list (N * zobs) -> proc -> Prop) s0 :
  P [] [] s0 ->
  (forall l h s e s' o, run s0 l = Some (s, h) -> P l h s -> exited s = false -> step s e = Some (s', o) -> zrel s e s' o -> P (l ++ [e]) (h ++ o) s') ->
  forall l s h, run s0 l = Some (s, h) -> P l h s.
Proof.
  intros B S l. induction l as [|e l IH] using rev_ind; intros s h R; [injection R as <- <-; exact B|].
  rewrite run_app in R. destruct (run s0 l) as [[s1 o1]|] eqn:R1; [|discriminate]. cbn [zrun] in R. destruct (step s1 e) as [[s2 o2]|] eqn:E; [|discriminate].
  injection R as <- <-. rewrite app_nil_r. destruct (step_rel _ _ _ _ E). eapply S; eauto.
Qed.

(** *** The clock, the group and the stages *)
Lemma gend g i g' : gstep g (GEnd i) = Some g' -> In i (g_running g) /\ g' = mkG (filter (fun j => negb (Nat.eqb i j)) (g_running g)) (i :: g_ended g) (g_next g) (g_cancelled g) (g_phase g) (g_now g).
Proof.
  cbn [gstep]. destruct (existsb _ _) eqn:X; [|discriminate]. intros [= <-]. apply existsb_exists in X. destruct X as (j & J & E). apply Nat.eqb_eq in E. subst j. auto.
Qed.
Lemma gtimeout g g' : gstep g GTimeout = Some g' -> exists dl, g_phase g = GFirstJoin dl /\ g_running g <> [] /\ dl <= g_now g /\ g' = mkG (g_running g) (g_ended g) (g_next g) true GSecondJoin (g_now g).
Proof.
  cbn [gstep]. destruct (g_phase g) as [|dl| |] eqn:P; try discriminate. destruct (g_running g) eqn:R; [discriminate|]. destruct (_ <=? _) eqn:L; [|discriminate]. intros [= <-]. apply N.leb_le in L.
  exists dl. repeat split; auto; discriminate.
Qed.
Lemma gjoin g g' : gstep g GJoin = Some g' -> g_running g = [] /\
  ((exists dl, g_phase g = GFirstJoin dl /\ g' = mkG [] (g_ended g) (g_next g) (g_cancelled g) GSecondJoin (g_now g)) \/
   (g_phase g = GSecondJoin /\ g' = mkG [] (g_ended g) (g_next g) (g_cancelled g) GReturned (g_now g))).
Proof. cbn [gstep]. destruct (g_running g); [|discriminate]. destruct (g_phase g) as [|dl| |]; try discriminate; intros [= <-]; eauto. Qed.

Definition stage_inv (h : list (N * zobs)) (s : proc) : Prop :=
  match z_stage s with
  | Working => g_phase (z_group s) = GBefore /\ g_cancelled (z_group s) = false /\ (forall t ok, ~ In (t, OEnd ok) h)
  | Closing ok _ => g_phase (z_group s) = GBefore /\ g_cancelled (z_group s) = false /\ (exists te, In (te, OEnd ok) h)
  | Leaving ok => (exists te, In (te, OEnd ok) h /\ (g_cancelled (z_group s) = true -> te + ns (c_shutdown_timeout cfg) <= g_now (z_group s)) /\
                    (forall dl, g_phase (z_group s) = GFirstJoin dl -> g_cancelled (z_group s) = false /\ te + ns (c_shutdown_timeout cfg) <= dl)) /\
                  (g_phase (z_group s) = GSecondJoin \/ exists dl, g_phase (z_group s) = GFirstJoin dl)
  | Exited ok => g_phase (z_group s) = GReturned /\ g_running (z_group s) = [] /\ (exists te, In (te, OEnd ok) h /\ (g_cancelled (z_group s) = true -> te + ns (c_shutdown_timeout cfg) <= g_now (z_group s)))
  | Crashed => g_phase (z_group s) = GBefore /\ g_cancelled (z_group s) = false /\ (forall t ok, ~ In (t, OEnd ok) h)
  end.
Record zinv (h : list (N * zobs)) (s : proc) : Prop := {
  z_ginv : ginv (z_group s);
  z_next : g_next (z_group s) = length (z_tasks s);
  z_past : forall t x, In (t, x) h -> t <= z_now s;
  z_staged : stage_inv h s;
  z_end1 : forall t t' ok ok', In (t, OEnd ok) h -> In (t', OEnd ok') h -> t = t' /\ ok = ok';
  z_noexit : exited s = false -> forall t ok, ~ In (t, OExit ok) h }.

Lemma now_step s e s' o : zrel s e s' o -> z_now s <= z_now s' /\ (forall n, e <> ZTick n) \/ exists n, e = ZTick n /\ z_now s' = z_now s + n.
Proof.
  intros R. destruct R; try (left; split; [unfold z_now; cbn; try lia|discriminate]; fail).
  - right. exists n. split; [reflexivity|]. cbn [gstep] in H. injection H as <-. reflexivity.
  - left. split; [|discriminate]. cbn [gstep] in H2. injection H2 as <-. unfold z_now. cbn. lia.
  - left. split; [|discriminate]. cbn [gstep] in H1. destruct (g_phase _); try discriminate. injection H1 as <-. unfold z_now. cbn. lia.
  - left. split; [|discriminate]. apply gend in H0. destruct H0 as (_ & ->). unfold z_now. cbn. lia.
  - left. split; [|discriminate]. apply gend in H1. destruct H1 as (_ & ->). unfold z_now. cbn. lia.
  - left. split; [|discriminate]. apply gtimeout in H. destruct H as (dl & _ & _ & _ & ->). unfold z_now. cbn. lia.
  - left. split; [|discriminate]. apply gjoin in H. destruct H as (_ & [(dl & _ & ->)|(_ & ->)]); unfold z_now; cbn; lia.
  - left. split; [|discriminate]. apply gjoin in H. destruct H as (_ & [(dl & _ & ->)|(_ & ->)]); unfold z_now; cbn; lia.
Qed.
Lemma now_grows s e s' o : zrel s e s' o -> z_now s <= z_now s'.
Proof. intros R. destruct (now_step _ _ _ _ R) as [(L & _)|(n & _ & ->)]; [exact L|lia]. Qed.
Lemma obs_now s e s' o t x : zrel s e s' o -> In (t, x) o -> t = z_now s.
Proof.
  intros R X. destruct R; cbn [In] in X; try (destruct X; fail);
  try (destruct X as [X|[]]; injection X as <- _; reflexivity).
  - destruct X as [X|[X|[]]]; injection X as <- _; reflexivity.
  - apply in_map_iff in X. destruct X as (a & E & _). injection E as <- _. reflexivity.
Qed.

Lemma zinv_new : zinv [] z_new.
Proof.
  split; cbn; auto; try tauto; try (intros; discriminate).
  apply ginv_new.
Qed.
Lemma end_only s e s' o t ok : zrel s e s' o -> In (t, OEnd ok) o -> z_stage s = Working /\ t = z_now s /\ exists c, z_stage s' = Closing ok c.
Proof.
  intros R X. destruct R; cbn [In] in X; try (destruct X; fail); try (destruct X as [X|[]]; discriminate X).
  - destruct X as [X|[X|[]]]; discriminate X.
  - apply in_map_iff in X. destruct X as (a & E & _). discriminate E.
  - destruct X as [X|[]]. injection X as <- <-. cbn. eauto.
Qed.
Lemma exit_only s e s' o t ok : zrel s e s' o -> In (t, OExit ok) o -> z_stage s = Leaving ok /\ z_stage s' = Exited ok /\ o = [(t, OExit ok)].
Proof.
  intros R X. destruct R; cbn [In] in X; try (destruct X; fail); try (destruct X as [X|[]]; discriminate X).
  - destruct X as [X|[X|[]]]; discriminate X.
  - apply in_map_iff in X. destruct X as (a & E & _). discriminate E.
  - destruct X as [X|[]]. injection X as <- <-. cbn. auto.
Qed.
(** Steps that leave the stage and the group's phase alone. *)
Lemma stage_same h o s s' : stage_inv h s -> z_stage s' = z_stage s -> g_phase (z_group s') = g_phase (z_group s) -> g_cancelled (z_group s') = g_cancelled (z_group s) ->
  z_now s <= z_now s' -> (g_running (z_group s) = [] -> g_running (z_group s') = [] \/ exited s = false) -> (forall t ok, ~ In (t, OEnd ok) o) -> stage_inv (h ++ o) s'.
Proof.
  unfold stage_inv, z_now, exited. intros I -> -> -> L RU NE.
  assert (W : forall te ok, In (te, OEnd ok) h -> In (te, OEnd ok) (h ++ o)) by (intros; apply in_or_app; auto).
  destruct (z_stage s) as [|ok t|ok|ok|].
  - destruct I as (A & B & C). repeat split; auto. intros t ok X. apply in_app_iff in X. destruct X as [X|X]; [exact (C _ _ X)|exact (NE _ _ X)].
  - destruct I as (A & B & te & C). repeat split; eauto.
  - destruct I as ((te & A & B & C) & D). split; [|exact D]. exists te. split; [auto|]. split; [|exact C]. intros X. specialize (B X). lia.
  - destruct I as (A & B & te & C & D). repeat split; auto.
    + destruct (RU B) as [E|E]; [exact E|discriminate].
    + exists te. split; [auto|]. intros X. specialize (D X). lia.
  - destruct I as (A & B & C). repeat split; auto. intros t ok X. apply in_app_iff in X. destruct X as [X|X]; [exact (C _ _ X)|exact (NE _ _ X)].
Qed.
Lemma stage_step h s e s' o : zinv h s -> exited s = false -> zrel s e s' o -> stage_inv (h ++ o) s'.
Proof.
  intros Z EX R. assert (L := now_grows _ _ _ _ R). assert (I := z_staged _ _ Z).
  assert (NE : (forall ok, e <> ZDone ok) -> forall t ok, ~ In (t, OEnd ok) o).
  { intros D t ok X. destruct R; cbn [In] in X; try (destruct X; fail); try (destruct X as [X|[]]; discriminate X).
    - destruct X as [X|[X|[]]]; discriminate X.
    - apply in_map_iff in X. destruct X as (a & E & _). discriminate E.
    - destruct (D ok0 eq_refl). }
  pose proof R as R0. destruct R.
  all: try (apply (stage_same h _ s); [exact I|reflexivity|reflexivity|reflexivity|exact L|auto|apply NE; discriminate]; fail).
  - cbn [gstep] in H. injection H as <-. apply (stage_same h _ s); [exact I|reflexivity|reflexivity|reflexivity|exact L|auto|apply NE; discriminate].
  - cbn [gstep] in H2. injection H2 as <-. apply (stage_same h _ s); [exact I|reflexivity|reflexivity|reflexivity|exact L|auto|apply NE; discriminate].
  - unfold stage_inv in *. rewrite H in I. destruct I as (A & B & C). cbn [z_stage z_group]. split; [exact A|]. split; [exact B|]. exists (z_now s). apply in_or_app. right. left. reflexivity.
  - unfold stage_inv in *. rewrite H in I. destruct I as (A & B & te & C). cbn [gstep] in H1. rewrite A in H1. injection H1 as <-. cbn [z_stage z_group g_phase g_cancelled g_now].
    rewrite app_nil_r. assert (T := z_past _ _ Z _ _ C). unfold z_now in T. split; [|right; eauto]. exists te. split; [exact C|]. split; [congruence|]. intros dl [= <-]. split; [exact B|lia].
  - apply gend in H0. destruct H0 as (_ & ->). apply (stage_same h _ s); [exact I|reflexivity|reflexivity|reflexivity|exact L|auto|apply NE; discriminate].
  - apply gend in H1. destruct H1 as (_ & ->). apply (stage_same h _ s); [exact I|reflexivity|reflexivity|reflexivity|exact L|auto|apply NE; discriminate].
  - apply gtimeout in H. destruct H as (dl & P & RN & D & ->). rewrite app_nil_r. unfold stage_inv in *. cbn [set_group z_stage z_group g_phase g_cancelled g_now g_running].
    destruct (z_stage s) as [|ok t|ok|ok|] eqn:ST; try (destruct I as (A & _); congruence). destruct I as ((te & A & B & C) & _). destruct (C _ P) as (C1 & C2).
    split; [|auto]. exists te. split; [exact A|]. split; [intros _; lia|discriminate].
  - apply gjoin in H. destruct H as (RN & J). rewrite app_nil_r. unfold stage_inv in *. cbn [set_group z_stage z_group].
    destruct (z_stage s) as [|ok t|ok|ok|] eqn:ST.
    + destruct I as (A & _). destruct J as [(dl & P & _)|(P & _)]; congruence.
    + destruct I as (A & _). destruct J as [(dl & P & _)|(P & _)]; congruence.
    + destruct J as [(dl & P & ->)|(P & ->)]; [|destruct (H0 _ eq_refl); reflexivity]. destruct I as ((te & A & B & C) & _). cbn [g_phase g_cancelled g_now g_running].
      split; [|auto]. exists te. split; [exact A|]. split; [exact B|discriminate].
    + unfold exited in EX. rewrite ST in EX. discriminate.
    + unfold exited in EX. rewrite ST in EX. discriminate.
  - apply gjoin in H. destruct H as (RN & J). unfold stage_inv in *. rewrite H0 in I. cbn [z_stage z_group]. destruct I as ((te & A & B & C) & _).
    destruct J as [(dl & P & ->)|(P & ->)]; [discriminate|]. cbn [g_phase g_cancelled g_now g_running]. repeat split; auto. exists te. split; [apply in_or_app; auto|exact B].
  - unfold stage_inv in *. rewrite H in I. destruct I as (A & B & C). cbn [set_stage z_stage z_group]. split; [exact A|]. split; [exact B|]. intros t ok X. apply in_app_iff in X.
    destruct X as [X|[X|[]]]; [exact (C _ _ X)|discriminate X].
Qed.
Lemma zinv_step h s e s' o : zinv h s -> exited s = false -> zrel s e s' o -> zinv (h ++ o) s'.
Proof.
  intros Z EX R. assert (L := now_grows _ _ _ _ R). assert (SG := stage_step _ _ _ _ _ Z EX R). destruct Z as [GI NX PA ST E1 NO]. split.
  - destruct R; try exact GI; try (eapply gstep_inv; eassumption).
  - destruct R; try exact NX; cbn [z_group z_tasks set_group].
    + cbn [gstep] in H. injection H as <-. exact NX.
    + cbn [gstep] in H2. injection H2 as <-. rewrite app_length. cbn. rewrite NX. lia.
    + cbn [gstep] in H1. destruct (g_phase _); try discriminate. injection H1 as <-. exact NX.
    + rewrite set_nth_length. exact NX.
    + apply gend in H0. destruct H0 as (_ & ->). exact NX.
    + apply gend in H1. destruct H1 as (_ & ->). exact NX.
    + apply gtimeout in H. destruct H as (dl & _ & _ & _ & ->). exact NX.
    + apply gjoin in H. destruct H as (_ & [(dl & _ & ->)|(_ & ->)]); exact NX.
    + apply gjoin in H. destruct H as (_ & [(dl & _ & ->)|(_ & ->)]); exact NX.
  - intros t x X. apply in_app_iff in X. destruct X as [X|X]; [specialize (PA _ _ X); lia|]. rewrite (obs_now _ _ _ _ _ _ R X). exact L.
  - exact SG.
  - intros t t' ok ok' X Y. apply in_app_iff in X, Y.
    assert (Q : forall t ok, In (t, OEnd ok) o -> forall t0 ok0, ~ In (t0, OEnd ok0) h).
    { intros t1 ok1 B t0 ok0. destruct (end_only _ _ _ _ _ _ R B) as (W & _). unfold stage_inv in ST. rewrite W in ST. destruct ST as (_ & _ & ST). apply ST. }
    destruct X as [X|X], Y as [Y|Y].
    + exact (E1 _ _ _ _ X Y).
    + destruct (Q _ _ Y _ _ X).
    + destruct (Q _ _ X _ _ Y).
    + destruct (end_only _ _ _ _ _ _ R X) as (_ & A1 & c1 & B1), (end_only _ _ _ _ _ _ R Y) as (_ & A2 & c2 & B2). split; congruence.
  - intros EX' t ok X. apply in_app_iff in X. destruct X as [X|X]; [exact (NO EX _ _ X)|]. destruct (exit_only _ _ _ _ _ _ R X) as (_ & A & _). unfold exited in EX'. rewrite A in EX'. discriminate.
Qed.
Lemma zinv_run l s h : run z_new l = Some (s, h) -> zinv h s.
Proof. intros R. refine (run_ind (fun _ h s => zinv h s) z_new zinv_new _ l s h R). intros. eapply zinv_step; eauto. Qed.

(** *** Exit status *)
Lemma exit_last l s h h1 t ok h2 : run z_new l = Some (s, h) -> h = h1 ++ (t, OExit ok) :: h2 ->
  h2 = [] /\ z_stage s = Exited ok /\ exists te, In (te, OEnd ok) h1.
Proof.
  intros R. revert h1 h2. refine (run_ind (fun _ h s => forall h1 h2, h = h1 ++ (t, OExit ok) :: h2 -> h2 = [] /\ z_stage s = Exited ok /\ exists te, In (te, OEnd ok) h1) z_new _ _ l s h R).
  - intros [|] h2; discriminate.
  - clear. intros l h s e s' o R IH EX E REL h1 h2 EQ. destruct (in_app_or h o (t, OExit ok)) as [X|X]; [rewrite EQ; apply in_elt| |].
    + destruct (z_noexit _ _ (zinv_run _ _ _ R) EX _ _ X).
    + destruct (exit_only _ _ _ _ _ _ REL X) as (A & B & ->). assert (Q : h2 = []).
      { destruct h2 as [|y h2] using rev_ind; [reflexivity|]. rewrite (app_comm_cons h2 [y]), app_assoc in EQ. apply app_inj_tail in EQ. destruct EQ as (-> & _).
        destruct (z_noexit _ _ (zinv_run _ _ _ R) EX t ok). apply in_elt. }
      subst h2. apply app_inj_tail in EQ. destruct EQ as (<- & _). split; [reflexivity|]. split; [exact B|].
      assert (I := z_staged _ _ (zinv_run _ _ _ R)). unfold stage_inv in I. rewrite A in I. destruct I as ((te & I & _) & _). eauto.
Qed.
End Proc.
