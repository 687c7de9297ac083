(** Proofs for the process as a whole: the "stopped" announcements. *)
From Verif Require Import Base BaseFacts M_Net M_Tracker M_Session M_Announce M_Http M_Mse M_Config M_Dht S_Dht M_App S_App M_Async M_Process S_Process S_Announce
  P_Async P_App P_App3 P_Announce P_Process.

Section Proc.
Context (cfg : config) (pid : bytes) (key port : N).
Notation step := (zstep cfg pid key port).
Notation run := (zrun cfg pid key port).
Notation rel := (zrel cfg pid key port).

Definition tquestion (t : nat * announcement * bool) : nat := fst (fst t).
Definition stoppings (h : list (N * zobs)) : list nat := flat_map (fun o => match snd o with OStopping q _ => [q] | _ => [] end) h.
Lemma in_stoppings h q : In q (stoppings h) <-> exists t z, In (t, OStopping q z) h.
Proof.
  unfold stoppings. rewrite in_flat_map. split.
  - intros ([t x] & X & Y). cbn [snd] in Y. destruct x; cbn [In] in Y; try (destruct Y; fail). destruct Y as [->|[]]. eauto.
  - intros (t & z & X). exists (t, OStopping q z). split; [exact X|left; reflexivity].
Qed.
Record tinv (l : list zev) (h : list (N * zobs)) (s : proc) : Prop := {
  t_len : length (z_queries s) = length (queries_of l);
  t_q : forall q x st, nth_error (z_queries s) q = Some (x, st) ->
    exists ih ov, nth_error (queries_of l) q = Some (ih, ov, tq_tracker x, tq_net x) /\ tq_session x = z_session cfg pid key port ih ov;
  t_ans : forall ta q ps, In (ta, OAnswered q ps) h -> exists x t i b, nth_error (z_queries s) q = Some (x, QReturned) /\
    tracker_query (ns (c_announce_timeout cfg)) (tq_session x) (tq_tracker x) (tq_net x) = ([start_announcement (tq_session x)], Some (stop_announcement (tq_session x)), t, Ok ps) /\
    tq_begun x + t <= ta /\ nth_error (z_tasks s) i = Some (q, stop_announcement (tq_session x), b) /\ In (ta, OAnnounced q (start_announcement (tq_session x))) h;
  t_ans1 : forall ta ta' q ps ps', In (ta, OAnswered q ps) h -> In (ta', OAnswered q ps') h -> ta = ta' /\ ps = ps';
  t_nd : NoDup (map tquestion (z_tasks s));
  t_task : forall i q z b, nth_error (z_tasks s) i = Some (q, z, b) -> exists ta ps, In (ta, OAnswered q ps) h;
  t_stopping : forall t1 q z, In (t1, OStopping q z) h -> exists i ta ps, nth_error (z_tasks s) i = Some (q, z, true) /\ In (ta, OAnswered q ps) h /\ ta <= t1;
  t_begun : forall i q z, nth_error (z_tasks s) i = Some (q, z, true) -> exists t1, In (t1, OStopping q z) h;
  t_once : NoDup (stoppings h);
  t_ended : forall i q z b, nth_error (z_tasks s) i = Some (q, z, b) -> In i (g_ended (z_group s)) ->
    (exists t1 t2, In (t1, OStopping q z) h /\ In (t2, OStopped q) h /\ t1 <= t2) \/
    (exists t2 te ok, In (t2, OGivenUp q) h /\ In (te, OEnd ok) h /\ te + ns (c_shutdown_timeout cfg) <= t2);
  t_over : forall t2 q, In (t2, OStopped q) h \/ In (t2, OGivenUp q) h -> exists i z b, nth_error (z_tasks s) i = Some (q, z, b) /\ In i (g_ended (z_group s)) }.

Lemma queries_app l e : queries_of (l ++ [e]) = queries_of l ++ queries_of [e].
Proof. apply flat_map_app. Qed.
Lemma tinv_new : tinv [] [] z_new.
Proof. split; cbn; try tauto; try constructor; try (intros; destruct q; discriminate); try (intros; destruct i; discriminate). Qed.

(** Steps that change neither the queries nor the tasks, and observe nothing of them. *)
Lemma tinv_quiet l h s e s' o : tinv l h s -> z_queries s' = z_queries s -> z_tasks s' = z_tasks s -> g_ended (z_group s') = g_ended (z_group s) -> queries_of [e] = [] ->
  (forall t x, In (t, x) o -> match x with OAnnounced _ _ | OEnd _ | OExit _ | OPanic => True | _ => False end) -> tinv (l ++ [e]) (h ++ o) s'.
Proof.
  intros [A B C D E F G H I J K] EQ ET EE QE O.
  assert (N : forall (P : zobs -> Prop), (forall x, P x -> match x with OAnnounced _ _ | OEnd _ | OExit _ | OPanic => False | _ => True end) -> forall t x, P x -> In (t, x) (h ++ o) -> In (t, x) h).
  { intros P HP t x X Y. apply in_app_iff in Y. destruct Y as [Y|Y]; [exact Y|]. specialize (HP x X). specialize (O _ _ Y). destruct x; tauto. }
  assert (W : forall y, In y h -> In y (h ++ o)) by (intros; apply in_or_app; auto).
  assert (SO : stoppings o = []).
  { unfold stoppings. clear - O. induction o as [|[t x] o IH]; [reflexivity|]. cbn [flat_map snd]. rewrite IH by (intros; eapply O; right; eauto). specialize (O t x (or_introl eq_refl)). destruct x; try destruct O; reflexivity. }
  split; rewrite ?EQ, ?ET, ?EE.
  - rewrite queries_app, QE, app_nil_r. exact A.
  - rewrite queries_app, QE, app_nil_r. exact B.
  - intros ta q ps X. apply (N (fun x => exists q ps, x = OAnswered q ps)) in X; [|intros x (? & ? & ->); exact Logic.I|eauto]. destruct (C _ _ _ X) as (x & t & i & b & Y). exists x, t, i, b. intuition.
  - intros ta ta' q ps ps' X Y. apply (N (fun x => exists q ps, x = OAnswered q ps)) in X; [|intros x (? & ? & ->); exact Logic.I|eauto].
    apply (N (fun x => exists q ps, x = OAnswered q ps)) in Y; [|intros x (? & ? & ->); exact Logic.I|eauto]. eapply D; eauto.
  - exact E.
  - intros i q z b X. destruct (F _ _ _ _ X) as (ta & ps & Y). eauto.
  - intros t1 q z X. apply (N (fun x => exists q z, x = OStopping q z)) in X; [|intros x (? & ? & ->); exact Logic.I|eauto]. destruct (G _ _ _ X) as (i & ta & ps & Y & Y' & Y''). eauto 8.
  - intros i q z X. destruct (H _ _ _ X). eauto.
  - unfold stoppings in *. rewrite flat_map_app, SO, app_nil_r. exact I.
  - intros i q z b X Y. destruct (J _ _ _ _ X Y) as [(t1 & t2 & Z1 & Z2 & Z3)|(t2 & te & ok & Z1 & Z2 & Z3)]; [left|right]; eauto 8.
  - intros t2 q X. apply (K t2). destruct X as [X|X].
    + apply (N (fun x => x = OStopped q)) in X; [auto|intros x ->; exact Logic.I|reflexivity].
    + apply (N (fun x => x = OGivenUp q)) in X; [auto|intros x ->; exact Logic.I|reflexivity].
Qed.
Lemma nd_index (tasks : list (nat * announcement * bool)) i j q z b z' b' : NoDup (map tquestion tasks) -> nth_error tasks i = Some (q, z, b) -> nth_error tasks j = Some (q, z', b') -> i = j.
Proof.
  intros ND A B. apply (proj1 (NoDup_nth_error _) ND).
  - rewrite map_length. apply nth_error_Some. congruence.
  - rewrite !nth_error_map, A, B. reflexivity.
Qed.
Lemma map_set_nth {A B} (f : A -> B) : forall (l : list A) i x y, nth_error l i = Some y -> f y = f x -> map f (M_App.set_nth l i x) = map f l.
Proof. induction l as [|a l IH]; intros [|i] x y; cbn [nth_error M_App.set_nth map]; try discriminate; [intros [= ->] ->; reflexivity|]. intros N E. f_equal. eapply IH; eauto. Qed.
Lemma set_query_get s q x st q' y st' : nth_error (z_queries s) q = Some (x, QRunning) -> nth_error (M_App.set_nth (z_queries s) q (x, st)) q' = Some (y, st') ->
  (q' = q /\ y = x /\ st' = st) \/ (q' <> q /\ nth_error (z_queries s) q' = Some (y, st')).
Proof. intros N. rewrite set_nth_get, N. destruct (Nat.eqb_spec q q') as [->|NE]; [intros [= <- <-]; auto|right; auto]. Qed.

Lemma tinv_step l h s e s' o : tinv l h s -> zinv cfg h s -> exited s = false -> rel s e s' o -> tinv (l ++ [e]) (h ++ o) s'.
Proof.
  intros T Z EX R. pose proof R as R0. destruct R.
  - apply (tinv_quiet l h s); auto; [|intros ? ? []]. cbn [gstep] in H. injection H as <-. reflexivity.
  - rewrite app_nil_r. destruct T as [A B C D E F G I J K L]. split; cbn [z_queries z_tasks z_group]; auto.
    + rewrite queries_app, !app_length, A. reflexivity.
    + intros q x st. rewrite queries_app. destruct (Nat.lt_ge_cases q (length (z_queries s))) as [LT|GE].
      * rewrite !nth_error_app1 by (rewrite <- ?A; exact LT). apply B.
      * rewrite !nth_error_app2 by (rewrite <- ?A; exact GE). rewrite A. destruct (q - length (queries_of l))%nat as [|[|k]]; cbn [nth_error]; try discriminate. intros [= <- <-]. cbn. eauto.
    + intros ta q ps X. destruct (C _ _ _ X) as (x & t & i & b & Y & Y'). exists x, t, i, b. split; [|exact Y']. rewrite nth_error_app1 by (apply nth_error_Some; congruence). exact Y.
  - (* a query is answered *)
    cbn [gstep] in H2. injection H2 as <-. destruct T as [A B C D E F G I J K L].
    assert (NA : forall ta ps, ~ In (ta, OAnswered q ps) h). { intros ta ps' X. destruct (C _ _ _ X) as (x' & t' & i & b & Y & _). congruence. }
    assert (NT : forall i z b, nth_error (z_tasks s) i <> Some (q, z, b)). { intros i z b X. destruct (F _ _ _ _ X) as (ta & ps' & Y). exact (NA _ _ Y). }
    assert (OA : forall ta q' ps', In (ta, OAnswered q' ps') (h ++ [(z_now s, OAnnounced q (start_announcement (tq_session x))); (z_now s, OAnswered q ps)]) ->
      In (ta, OAnswered q' ps') h \/ (ta = z_now s /\ q' = q /\ ps' = ps)).
    { intros ta q' ps' X. apply in_app_iff in X. destruct X as [X|[X|[X|[]]]]; [auto|discriminate|injection X as <- <- <-; auto]. }
    assert (W : forall y, In y h -> In y (h ++ [(z_now s, OAnnounced q (start_announcement (tq_session x))); (z_now s, OAnswered q ps)])) by (intros; apply in_or_app; auto).
    assert (TN : forall i y, nth_error (z_tasks s) i = Some y -> nth_error (z_tasks s ++ [(q, stop_announcement (tq_session x), false)]) i = Some y).
    { intros i y X. rewrite nth_error_app1; [exact X|]. apply nth_error_Some. congruence. }
    assert (TI : forall i q' z b, nth_error (z_tasks s ++ [(q, stop_announcement (tq_session x), false)]) i = Some (q', z, b) ->
       nth_error (z_tasks s) i = Some (q', z, b) \/ (i = length (z_tasks s) /\ q' = q /\ b = false)).
    { intros i q' z b. destruct (Nat.lt_ge_cases i (length (z_tasks s))) as [LT|GE]; [rewrite nth_error_app1 by exact LT; auto|]. rewrite nth_error_app2 by exact GE.
      destruct (i - length (z_tasks s))%nat as [|k] eqn:Q; cbn [nth_error]; [|destruct k; discriminate]. intros [= <- <- <-]. right. split; [lia|auto]. }
    split; cbn [z_queries z_tasks z_group g_ended].
    + rewrite set_nth_length, queries_app, app_length, A. cbn. lia.
    + intros q' y st X. rewrite queries_app. cbn [queries_of flat_map]. rewrite app_nil_r. destruct (set_query_get _ _ _ _ _ _ _ H X) as [(-> & -> & ->)|(_ & X')]; eapply B; eauto.
    + intros ta q' ps' X. destruct (OA _ _ _ X) as [X'|(-> & -> & ->)].
      * destruct (C _ _ _ X') as (x' & t' & i & b & Y1 & Y2 & Y3 & Y4 & Y5). exists x', t', i, b. split; [|auto]. rewrite set_nth_other; [exact Y1|congruence].
      * exists x, t, (length (z_tasks s)), false. split; [apply (set_nth_same _ _ _ _ H)|]. split; [exact H0|]. split; [exact H1|]. split; [|apply in_or_app; right; left; reflexivity].
        rewrite nth_error_app2, Nat.sub_diag by lia. reflexivity.
    + intros ta ta' q' ps1 ps2 X Y. destruct (OA _ _ _ X) as [X'|(-> & -> & ->)], (OA _ _ _ Y) as [Y'|(Y1 & Y2 & Y3)]; subst.
      * eapply D; eauto. * destruct (NA _ _ X'). * destruct (NA _ _ Y'). * auto.
    + rewrite map_app. cbn [map tquestion fst]. apply NoDup_app_snoc; [exact E|]. intros X. apply in_map_iff in X. destruct X as ([[q' z] b] & Q & X). cbn in Q. subst q'. apply In_nth_error in X. destruct X as (i & X). exact (NT _ _ _ X).
    + intros i q' z b X. destruct (TI _ _ _ _ X) as [X'|(_ & -> & _)]; [destruct (F _ _ _ _ X') as (ta & ps' & Y); eauto|]. exists (z_now s), ps. apply in_or_app. right. right. left. reflexivity.
    + intros t1 q' z X. apply in_app_iff in X. destruct X as [X|[X|[X|[]]]]; try discriminate. destruct (G _ _ _ X) as (i & ta & ps' & Y1 & Y2 & Y3). exists i, ta, ps'. auto.
    + intros i q' z X. destruct (TI _ _ _ _ X) as [X'|(_ & _ & [=])]. destruct (I _ _ _ X'). eauto.
    + unfold stoppings in *. rewrite flat_map_app. cbn. rewrite app_nil_r. exact J.
    + intros i q' z b X Y. destruct (TI _ _ _ _ X) as [X'|(-> & _)].
      * destruct (K _ _ _ _ X' Y) as [(t1 & t2 & Z1 & Z2 & Z3)|(t2 & te & ok & Z1 & Z2 & Z3)]; [left|right]; eauto 8.
      * assert (Q : (length (z_tasks s) < g_next (z_group s))%nat) by (apply (gi_all _ (z_ginv _ _ _ Z)); auto). rewrite (z_next _ _ _ Z) in Q. lia.
    + intros t2 q' X. destruct (L t2 q') as (i & z & b & Y1 & Y2); [|exists i, z, b; auto]. destruct X as [X|X]; apply in_app_iff in X; destruct X as [X|[X|[X|[]]]]; try discriminate; auto.
  - (* a query fails *)
    assert (T' : tinv (l ++ [ZAnswer q]) (h ++ map (fun a => (z_now s, OAnnounced q a)) made) s).
    { apply (tinv_quiet l h s); auto. intros t' y X. apply in_map_iff in X. destruct X as (a & EQ & _). injection EQ as <- <-. exact Logic.I. }
    clear T. destruct T' as [A B C D E F G I J K L]. split; cbn [set_query z_queries z_tasks z_group]; auto.
    + rewrite set_nth_length. exact A.
    + intros q' y st X. destruct (set_query_get _ _ _ _ _ _ _ H X) as [(-> & -> & ->)|(_ & X')]; eapply B; eauto.
    + intros ta q' ps' X. destruct (C _ _ _ X) as (x' & t' & i & b & Y1 & Y'). exists x', t', i, b. split; [|exact Y']. rewrite set_nth_other; [exact Y1|congruence].
  - assert (T' : tinv (l ++ [ZDrop q]) (h ++ []) s) by (apply (tinv_quiet l h s); auto; intros ? ? []).
    clear T. destruct T' as [A B C D E F G I J K L]. split; cbn [set_query z_queries z_tasks z_group]; auto.
    + rewrite set_nth_length. exact A.
    + intros q' y st X. destruct (set_query_get _ _ _ _ _ _ _ H X) as [(-> & -> & ->)|(_ & X')]; eapply B; eauto.
    + intros ta q' ps' X. destruct (C _ _ _ X) as (x' & t' & i & b & Y1 & Y'). exists x', t', i, b. split; [|exact Y']. rewrite set_nth_other; [exact Y1|congruence].
  - apply (tinv_quiet l h s); auto. intros ? ? [].
  - apply (tinv_quiet l h s); auto. intros t x [X|[]]. injection X as <- <-. exact Logic.I.
  - apply (tinv_quiet l h s); auto; [|intros ? ? []]. cbn [gstep] in H1. destruct (g_phase _); try discriminate. injection H1 as <-. reflexivity.
  - (* a task begins *)
    destruct T as [A B C D E F G I J K L].
    assert (W : forall y, In y h -> In y (h ++ [(z_now s, OStopping q a)])) by (intros; apply in_or_app; auto).
    assert (TI : forall j q' z b, nth_error (M_App.set_nth (z_tasks s) i (q, a, true)) j = Some (q', z, b) -> (j = i /\ q' = q /\ z = a /\ b = true) \/ (j <> i /\ nth_error (z_tasks s) j = Some (q', z, b))).
    { intros j q' z b. rewrite set_nth_get, H. destruct (Nat.eqb_spec i j) as [->|NE]; [intros [= <- <- <-]; auto|right; auto]. }
    assert (TF : forall j q' z b, nth_error (z_tasks s) j = Some (q', z, b) -> exists b', nth_error (M_App.set_nth (z_tasks s) i (q, a, true)) j = Some (q', z, b') /\ (b = true -> b' = true)).
    { intros j q' z b X. destruct (Nat.eq_dec i j) as [->|NE].
      - rewrite H in X. injection X as <- <- <-. exists true. split; [apply (set_nth_same _ _ _ _ H)|auto].
      - exists b. rewrite set_nth_other by exact NE. auto. }
    split; cbn [z_queries z_tasks z_group].
    + rewrite queries_app, app_length, A. cbn. lia.
    + rewrite queries_app. cbn [queries_of flat_map]. rewrite app_nil_r. exact B.
    + intros ta q' ps X. apply in_app_iff in X. destruct X as [X|[X|[]]]; [|discriminate]. destruct (C _ _ _ X) as (x & t & j & b & Y1 & Y2 & Y3 & Y4 & Y5).
      destruct (TF _ _ _ _ Y4) as (b' & Y4' & _). exists x, t, j, b'. auto 10.
    + intros ta ta' q' ps ps' X Y. apply in_app_iff in X, Y. destruct X as [X|[X|[]]], Y as [Y|[Y|[]]]; try discriminate. eapply D; eauto.
    + erewrite map_set_nth; [exact E|exact H|reflexivity].
    + intros j q' z b X. destruct (TI _ _ _ _ X) as [(-> & -> & -> & ->)|(_ & X')]; [destruct (F _ _ _ _ H) as (ta & ps & Y)|destruct (F _ _ _ _ X') as (ta & ps & Y)]; eauto.
    + intros t1 q' z X. apply in_app_iff in X. destruct X as [X|[X|[]]].
      * destruct (G _ _ _ X) as (j & ta & ps & Y1 & Y2 & Y3). destruct (TF _ _ _ _ Y1) as (b' & Y4 & Y5). rewrite (Y5 eq_refl) in Y4. exists j, ta, ps. auto.
      * injection X as <- <- <-. destruct (F _ _ _ _ H) as (ta & ps & Y). exists i, ta, ps. split; [apply (set_nth_same _ _ _ _ H)|]. split; [auto|]. exact (z_past _ _ _ Z _ _ Y).
    + intros j q' z X. destruct (TI _ _ _ _ X) as [(-> & -> & -> & _)|(_ & X')]; [exists (z_now s); apply in_or_app; right; left; reflexivity|destruct (I _ _ _ X'); eauto].
    + unfold stoppings in *. rewrite flat_map_app. cbn [flat_map snd app]. apply NoDup_app_snoc; [exact J|]. intros X. apply in_stoppings in X. destruct X as (t & z & X).
      destruct (G _ _ _ X) as (j & _ & _ & Y & _). assert (Q := nd_index _ _ _ _ _ _ _ _ E H Y). subst j. congruence.
    + intros j q' z b X Y. assert (Q : exists b0, nth_error (z_tasks s) j = Some (q', z, b0)) by (destruct (TI _ _ _ _ X) as [(-> & -> & -> & _)|(_ & X')]; eauto). destruct Q as (b0 & Q).
      destruct (K _ _ _ _ Q Y) as [(t1 & t2 & Z1 & Z2 & Z3)|(t2 & te & ok & Z1 & Z2 & Z3)]; [left|right]; eauto 8.
    + intros t2 q' X. destruct (L t2 q') as (j & z & b & Y1 & Y2); [|destruct (TF _ _ _ _ Y1) as (b' & Y3 & _); exists j, z, b'; auto]. destruct X as [X|X]; apply in_app_iff in X; destruct X as [X|[X|[]]]; try discriminate; auto.
  - (* a task ends *)
    apply gend in H0. destruct H0 as (IR & ->). destruct T as [A B C D E F G I J K L].
    assert (W : forall y, In y h -> In y (h ++ [(z_now s, OStopped q)])) by (intros; apply in_or_app; auto).
    split; cbn [set_group z_queries z_tasks z_group g_ended].
    + rewrite queries_app, app_length, A. cbn. lia.
    + rewrite queries_app. cbn [queries_of flat_map]. rewrite app_nil_r. exact B.
    + intros ta q' ps X. apply in_app_iff in X. destruct X as [X|[X|[]]]; [|discriminate]. destruct (C _ _ _ X) as (x & t & j & b & Y1 & Y2 & Y3 & Y4 & Y5). exists x, t, j, b. auto 10.
    + intros ta ta' q' ps ps' X Y. apply in_app_iff in X, Y. destruct X as [X|[X|[]]], Y as [Y|[Y|[]]]; try discriminate. eapply D; eauto.
    + exact E.
    + intros j q' z b X. destruct (F _ _ _ _ X) as (ta & ps & Y). eauto.
    + intros t1 q' z X. apply in_app_iff in X. destruct X as [X|[X|[]]]; [|discriminate]. destruct (G _ _ _ X) as (j & ta & ps & Y1 & Y2 & Y3). exists j, ta, ps. auto.
    + intros j q' z X. destruct (I _ _ _ X). eauto.
    + unfold stoppings in *. rewrite flat_map_app. cbn. rewrite app_nil_r. exact J.
    + intros j q' z b X [<-|Y].
      * rewrite H in X. injection X as <- <- <-. left. destruct (I _ _ _ H) as (t1 & Y). exists t1, (z_now s). split; [auto|]. split; [apply in_or_app; right; left; reflexivity|]. exact (z_past _ _ _ Z _ _ Y).
      * destruct (K _ _ _ _ X Y) as [(t1 & t2 & Z1 & Z2 & Z3)|(t2 & te & ok & Z1 & Z2 & Z3)]; [left|right]; eauto 8.
    + intros t2 q' X. assert (Q : (In (t2, OStopped q') h \/ In (t2, OGivenUp q') h) \/ q' = q). { destruct X as [X|X]; apply in_app_iff in X; destruct X as [X|[X|[]]]; try discriminate; auto. injection X as _ <-. auto. }
      destruct Q as [Q| ->]; [|exists i, a, true; split; [exact H|left; reflexivity]]. destruct (L t2 q' Q) as (j & z & b & Y1 & Y2). exists j, z, b. split; [exact Y1|right; exact Y2].
  - (* a task is given up *)
    apply gend in H1. destruct H1 as (IR & ->). destruct T as [A B C D E F G I J K L].
    assert (W : forall y, In y h -> In y (h ++ [(z_now s, OGivenUp q)])) by (intros; apply in_or_app; auto).
    split; cbn [set_group z_queries z_tasks z_group g_ended].
    + rewrite queries_app, app_length, A. cbn. lia.
    + rewrite queries_app. cbn [queries_of flat_map]. rewrite app_nil_r. exact B.
    + intros ta q' ps X. apply in_app_iff in X. destruct X as [X|[X|[]]]; [|discriminate]. destruct (C _ _ _ X) as (x & t & j & b' & Y1 & Y2 & Y3 & Y4 & Y5). exists x, t, j, b'. auto 10.
    + intros ta ta' q' ps ps' X Y. apply in_app_iff in X, Y. destruct X as [X|[X|[]]], Y as [Y|[Y|[]]]; try discriminate. eapply D; eauto.
    + exact E.
    + intros j q' z b' X. destruct (F _ _ _ _ X) as (ta & ps & Y). eauto.
    + intros t1 q' z X. apply in_app_iff in X. destruct X as [X|[X|[]]]; [|discriminate]. destruct (G _ _ _ X) as (j & ta & ps & Y1 & Y2 & Y3). exists j, ta, ps. auto.
    + intros j q' z X. destruct (I _ _ _ X). eauto.
    + unfold stoppings in *. rewrite flat_map_app. cbn. rewrite app_nil_r. exact J.
    + intros j q' z b' X [<-|Y].
      * rewrite H in X. injection X as <- <- <-. right. assert (SG := z_staged _ _ _ Z). unfold stage_inv in SG. unfold exited in EX.
        destruct (z_stage s) as [|ok c|ok|ok|]; try (destruct SG as (_ & SG & _); congruence); try discriminate. destruct SG as ((te & S1 & S2 & _) & _).
        exists (z_now s), te, ok. split; [apply in_or_app; right; left; reflexivity|]. split; [auto|]. exact (S2 H0).
      * destruct (K _ _ _ _ X Y) as [(t1 & t2 & Z1 & Z2 & Z3)|(t2 & te & ok & Z1 & Z2 & Z3)]; [left|right]; eauto 8.
    + intros t2 q' X. assert (Q : (In (t2, OStopped q') h \/ In (t2, OGivenUp q') h) \/ q' = q). { destruct X as [X|X]; apply in_app_iff in X; destruct X as [X|[X|[]]]; try discriminate; auto. injection X as _ <-. auto. }
      destruct Q as [Q| ->]; [|exists i, a, b; split; [exact H|left; reflexivity]]. destruct (L t2 q' Q) as (j & z & b' & Y1 & Y2). exists j, z, b'. split; [exact Y1|right; exact Y2].
  - apply (tinv_quiet l h s); auto; [|intros ? ? []]. apply gtimeout in H. destruct H as (dl & _ & _ & _ & ->). reflexivity.
  - apply (tinv_quiet l h s); auto; [|intros ? ? []]. apply gjoin in H. destruct H as (_ & [(dl & _ & ->)|(_ & ->)]); reflexivity.
  - apply (tinv_quiet l h s); auto; [|intros t x [X|[]]; injection X as <- <-; exact Logic.I]. apply gjoin in H. destruct H as (_ & [(dl & _ & ->)|(_ & ->)]); reflexivity.
  - apply (tinv_quiet l h s); auto. intros t x [X|[]]. injection X as <- <-. exact Logic.I.
Qed.
Lemma tinv_run l s h : run z_new l = Some (s, h) -> tinv l h s.
Proof.
  intros R. refine (run_ind cfg pid key port (fun l h s => tinv l h s) z_new tinv_new _ l s h R). intros. eapply tinv_step; eauto. eapply zinv_run; eauto.
Qed.
End Proc.
