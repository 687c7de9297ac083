(** Proofs for the process as a whole: how long leaving takes. *)
From Verif Require Import Base BaseFacts M_Net M_Tracker M_Session M_Announce M_Http M_Mse M_Config M_DhtMsg M_Dht S_Dht M_App S_App M_Async M_Process S_Process S_Announce
  P_Async P_App P_App2 P_App3 P_App4 P_App5 P_Announce P_Process P_Process2 P_Process3 P_Process4.

Section Proc.
Context (cfg : config) (pid : bytes) (key port : N).
Notation step := (zstep cfg pid key port).
Notation run := (zrun cfg pid key port).
Notation rel := (zrel cfg pid key port).
Notation prompt := (prompt cfg pid key port).
Notation limit := (ns (c_shutdown_timeout cfg)).

(** *** In time *)
Definition settled (l : list zev) : Prop := forall l1 l2 q, l = l1 ++ ZJoin :: l2 -> ~ In (ZAnswer q) l2.
Lemma settled_less l e : settled (l ++ [e]) -> settled l.
Proof. intros S l1 l2 q -> X. apply (S l1 (l2 ++ [e]) q); [rewrite <- app_assoc; reflexivity|apply in_or_app; auto]. Qed.
Lemma settled_answer l q : settled (l ++ [ZAnswer q]) -> ~ In ZJoin l.
Proof. intros S X. apply in_split in X. destruct X as (l1 & l2 & ->). apply (S l1 (l2 ++ [ZAnswer q]) q); [rewrite <- app_assoc; reflexivity|apply in_or_app; right; left; reflexivity]. Qed.
Definition timely (l : list zev) (h : list (N * zobs)) (s : proc) : Prop :=
  forall te ok, In (te, OEnd ok) h ->
    match z_stage s with
    | Working | Crashed => True
    | Closing _ _ => z_now s = te
    | _ => z_now s <= te + limit /\
        (forall dl, g_phase (z_group s) = GFirstJoin dl -> dl = te + limit) /\
        (g_phase (z_group s) = GSecondJoin -> g_cancelled (z_group s) = true \/ (In ZJoin l /\ g_running (z_group s) = []))
    end.
Lemma timely_same l h s e s' o : timely l h s -> z_stage s' = z_stage s -> z_group s' = z_group s -> (forall t ok, ~ In (t, OEnd ok) o) -> timely (l ++ [e]) (h ++ o) s'.
Proof.
  intros T A B C te ok X. apply in_app_iff in X. destruct X as [X|X]; [|destruct (C _ _ X)]. specialize (T _ _ X). rewrite A. unfold z_now in *. rewrite B. destruct (z_stage s); auto.
  - destruct T as (T1 & T2 & T3). repeat split; auto. intros P. destruct (T3 P) as [Q|(Q1 & Q2)]; auto. right. split; [apply in_or_app; auto|exact Q2].
  - destruct T as (T1 & T2 & T3). repeat split; auto. intros P. destruct (T3 P) as [Q|(Q1 & Q2)]; auto. right. split; [apply in_or_app; auto|exact Q2].
Qed.
Lemma timely_end l h s e i g t x : timely l h s -> gstep (z_group s) (GEnd i) = Some g -> (forall ok, x <> OEnd ok) -> timely (l ++ [e]) (h ++ [(t, x)]) (set_group s g).
Proof.
  intros T G NX te ok X. apply in_app_iff in X. destruct X as [X|[X|[]]]; [|injection X as _ X; destruct (NX _ X)]. specialize (T _ _ X). apply gend in G. destruct G as (_ & ->). unfold z_now in *. cbn [set_group z_stage z_group g_now g_phase g_cancelled g_running].
  destruct (z_stage s); auto; destruct T as (T1 & T2 & T3); (repeat split; auto); intros P; (destruct (T3 P) as [Q|(Q1 & Q2)]; auto); right; (split; [apply in_or_app; auto|rewrite Q2; reflexivity]).
Qed.
Lemma timely_run l s h : Forall wf_zev l -> run z_new l = Some (s, h) -> prompt z_new l -> settled l -> timely l h s.
Proof.
  intros W R. revert W. refine (run_ind cfg pid key port (fun l h s => Forall wf_zev l -> prompt z_new l -> settled l -> timely l h s) z_new _ _ l s h R); [intros _ _ _ te ok []|].
  clear. intros l h s e s' o R IH EX E REL W P S. apply Forall_app in W. destruct W as (W & _). destruct (prompt_last _ _ _ _ _ _ _ _ _ P R) as (P1 & _). specialize (IH W P1 (settled_less _ _ S)).
  assert (Z := zinv_run _ _ _ _ _ _ _ R). assert (SG := z_staged _ _ _ Z). unfold stage_inv in SG.
  destruct REL; try (apply timely_same with (s := s); auto; fail).
  - (* tick *)
    destruct (N.eq_dec n 0) as [->|NZ].
    + cbn [gstep] in H. injection H as <-. apply timely_same with (s := s); auto. cbn. rewrite N.add_0_r. destruct (z_group s); reflexivity.
    + assert (Q := idle cfg pid key port s l n h EX P R). cbn [gstep] in H. injection H as <-. rewrite app_nil_r. intros te ok X. specialize (IH te ok X). unfold z_now in *. cbn [set_group z_stage z_group g_now g_phase g_running g_cancelled].
      assert (Q0 := fun x => Q 0 x ltac:(lia)). rewrite later_0 in Q0.
      destruct (z_stage s) as [|ok' t|ok'|ok'|] eqn:ST; [exact Logic.I| | |unfold exited in EX; rewrite ST in EX; discriminate|unfold exited in EX; rewrite ST in EX; discriminate].
      * exfalso. destruct (closing_moves cfg pid key port h s ok' t Z (ainv_run _ _ _ _ _ _ _ W R) ST) as (x & X1 & X2). exact (X2 (Q0 x X1)).
      * destruct IH as (I1 & I2 & I3). destruct SG as (_ & [PH|(dl & PH)]).
        -- exfalso. destruct (g_running (z_group s)) as [|i rn] eqn:RN.
           ++ specialize (Q0 ZJoin eq_refl). unfold zstep in Q0. rewrite EX in Q0. unfold gapply in Q0. cbn [gstep] in Q0. rewrite RN, PH in Q0. cbn [option_map set_group z_stage z_group g_phase] in Q0. rewrite ST in Q0. discriminate.
           ++ destruct (I3 PH) as [CA|(_ & X0)]; [|discriminate]. assert (I : In i (g_running (z_group s))) by (rewrite RN; left; reflexivity). destruct (task_of _ _ _ _ _ _ _ _ R I) as (q & z & b & N).
              specialize (Q0 (ZGiveUp i) eq_refl). unfold zstep in Q0. rewrite EX, N, CA in Q0. unfold gapply in Q0. cbn [gstep] in Q0. rewrite (in_existsb _ _ I) in Q0. discriminate.
        -- pose proof (I2 _ PH) as DL. assert (L : g_now (z_group s) + n <= te + limit).
           { destruct (N.le_gt_cases (g_now (z_group s) + n) (te + limit)) as [L|L]; [exact L|]. exfalso. set (m := te + limit - g_now (z_group s)). destruct (g_running (z_group s)) as [|i rn] eqn:RN.
             - specialize (Q m ZJoin ltac:(subst m; lia) eq_refl). unfold zstep in Q. change (exited (later s m)) with (exited s) in Q. rewrite EX in Q. unfold gapply, later in Q. cbn [gstep set_group z_group g_running g_phase] in Q. rewrite RN, PH in Q.
               cbn [option_map set_group z_stage z_group g_phase] in Q. rewrite ST in Q. discriminate.
             - specialize (Q m ZTimeout ltac:(subst m; lia) eq_refl). unfold zstep in Q. change (exited (later s m)) with (exited s) in Q. rewrite EX in Q. unfold gapply, later in Q. cbn [gstep set_group z_group g_running g_phase g_now] in Q. rewrite RN, PH in Q.
               replace (dl <=? g_now (z_group s) + m) with true in Q by (symmetry; apply N.leb_le; subst m; lia). discriminate. }
           repeat split; auto. intros PH2. congruence.
  - (* answered *)
    cbn [gstep] in H2. injection H2 as <-. intros te ok X. assert (X' : In (te, OEnd ok) h) by (apply in_app_iff in X; destruct X as [X|[X|[X|[]]]]; [exact X|discriminate|discriminate]). specialize (IH te ok X'). unfold z_now in *. cbn [z_stage z_group g_now g_phase g_running g_cancelled].
    assert (NJ := settled_answer _ _ S). destruct (z_stage s); auto; destruct IH as (I1 & I2 & I3); (repeat split; auto); intros PH; (destruct (I3 PH) as [Q|(Q1 & _)]; [auto|destruct (NJ Q1)]).
  - apply timely_same with (s := s); auto. intros t' ok X. apply in_map_iff in X. destruct X as (a & X & _). discriminate.
  - (* done *)
    intros te ok' X. cbn [z_stage]. unfold z_now. cbn [z_group]. apply in_app_iff in X. destruct X as [X|[X|[]]]; [|injection X as <- <-; reflexivity].
    rewrite H in SG. destruct SG as (_ & _ & NE). destruct (NE _ _ X).
  - (* closed *)
    cbn [gstep] in H1. destruct (g_phase (z_group s)) eqn:PH; try discriminate. injection H1 as <-. intros te ok' X. rewrite app_nil_r in X. specialize (IH te ok' X). rewrite H in IH. unfold z_now in *. cbn [z_stage z_group set_group set_stage g_now g_phase].
    split; [lia|]. split; [intros dl [= <-]; lia|discriminate].
  - apply timely_same with (s := s); auto. intros t' ok [X|[]]. discriminate X.
  - eapply timely_end; eauto. discriminate.
  - eapply timely_end; eauto. discriminate.
  - (* timeout *)
    apply gtimeout in H. destruct H as (dl & PH & _ & _ & ->). intros te ok X. rewrite app_nil_r in X. specialize (IH te ok X). unfold z_now in *. cbn [set_group z_stage z_group g_now g_phase g_running g_cancelled].
    destruct (z_stage s); auto; destruct IH as (I1 & I2 & I3); (repeat split; auto; discriminate).
  - (* join *)
    apply gjoin in H. destruct H as (RN & J). intros te ok X. rewrite app_nil_r in X. specialize (IH te ok X). unfold z_now in *. cbn [set_group z_stage z_group].
    destruct J as [(dl & PH & ->)|(PH & ->)]; cbn [g_now g_phase g_running g_cancelled]; (destruct (z_stage s); auto; destruct IH as (I1 & I2 & I3); (repeat split; auto; try discriminate); intros _; right; (split; [apply in_or_app; right; left; reflexivity|reflexivity])).
  - (* exit *)
    apply gjoin in H. destruct H as (RN & J). intros te ok' X. assert (X' : In (te, OEnd ok') h) by (apply in_app_iff in X; destruct X as [X|[X|[]]]; [exact X|discriminate]). specialize (IH te ok' X'). rewrite H0 in IH. unfold z_now in *. cbn [set_group set_stage z_stage z_group].
    destruct IH as (I1 & I2 & I3). destruct J as [(dl & PH & ->)|(PH & ->)]; cbn [g_now g_phase g_running g_cancelled] in *; (repeat split; auto; try discriminate); intros _; right; (split; [apply in_or_app; right; left; reflexivity|reflexivity]).
  - intros te ok X. exact Logic.I.
Qed.
Lemma in_time l s h te ok : Forall wf_zev l -> run z_new l = Some (s, h) -> prompt z_new l -> settled l -> In (te, OEnd ok) h -> z_now s <= te + limit.
Proof.
  intros W R P S X. assert (T := timely_run _ _ _ W R P S te ok X). assert (SG := z_staged _ _ _ (zinv_run _ _ _ _ _ _ _ R)). unfold stage_inv in SG. destruct (z_stage s).
  - destruct SG as (_ & _ & NE). destruct (NE _ _ X).
  - lia.
  - apply T.
  - apply T.
  - destruct SG as (_ & _ & NE). destruct (NE _ _ X).
Qed.

(** *** The number of steps *)
Local Open Scope nat_scope.
Definition wt (st : tstate) : nat := match st with TLock | TCreate => 3 | TSend _ => 2 | TWait _ => 1 | _ => 0 end.
Definition lighter (calls calls' : list (call * tstate)) : Prop := forall t c st', nth_error calls' t = Some (c, st') -> exists st, nth_error calls t = Some (c, st) /\ wt st' <= wt st.
Lemma lighter_refl calls : lighter calls calls.
Proof. intros t c st N. eauto. Qed.
Lemma lighter_put (calls : list (call * tstate)) t c st st' : nth_error calls t = Some (c, st) -> wt st' <= wt st -> lighter calls (M_App.set_nth calls t (c, st')).
Proof.
  intros N L i c0 st0. rewrite set_nth_get. destruct (Nat.eqb_spec t i) as [->|NE]; [|eauto]. rewrite N. intros [= <- <-]. eauto.
Qed.
Lemma lighter_deliver n callers o s s' p : deliver s n callers o = (s', p) -> lighter (p_calls s) (p_calls s').
Proof.
  intros E. refine (deliver_ind (fun s1 _ => lighter (p_calls s) (p_calls s1)) n callers o s [] (lighter_refl _) _ _ _ E). clear - s. intros s1 h sid r t c m V _ _ N i c0 st0. unfold M_App.finish. cbn [fst p_calls]. rewrite set_nth_get. destruct (Nat.eqb_spec t i) as [->|NE]; [|apply V].
  rewrite N. intros [= <- <-]. destruct (V _ _ _ N) as (st & X & _). exists st. split; [exact X|cbn; lia].
Qed.
Lemma lighter_acted s n a chan callers o s' p : acted s n a chan callers o = (s', p) -> lighter (p_calls s) (p_calls s').
Proof. unfold acted. match goal with |- context [deliver ?z n callers o] => destruct (deliver z n callers o) as [s2 p2] eqn:D end. intros [= <- <-]. apply lighter_deliver in D. exact D. Qed.
Lemma lighter_dies s n d s' p : dies s n d = (s', p) -> lighter (p_calls s) (p_calls s').
Proof.
  intros E. apply dies_calls in E. destruct E as (_ & _ & G & _). intros t c st N. rewrite G in N. destruct (nth_error (p_calls s) t) as [[c0 st0]|]; [|discriminate]. destruct (no_wait_change n (c0, st0)); injection N as <- <-; exists st0; split; cbn; auto; lia.
Qed.
Lemma lighter_step s e s' o : pstep s e = Some (s', o) -> (forall c, e <> PCall c) -> lighter (p_calls s) (p_calls s').
Proof.
  intros E NC. destruct e as [c|t|t r|t|n boot|n oks|n e|t]; cbn [pstep] in E; [destruct (NC _ eq_refl)|..]; clear NC; revert E.
  - destruct (p_lock s); [discriminate|]. destruct (nth_error (p_calls s) t) as [[c [| |m|m|r0|]]|] eqn:N; try discriminate.
    destruct c as [hash|], (p_handle s) as [n|]; intros [= <- <-]; (eapply lighter_put; [exact N|cbn; lia]).
  - destruct (nth_error (p_calls s) t) as [[c [| |m|m|r0|]]|] eqn:N; try discriminate. destruct r as [[id v6]|]; intros [= <- <-]; (eapply lighter_put; [exact N|cbn; lia]).
  - destruct (nth_error (p_calls s) t) as [[c [| |m|m|r0|]]|] eqn:N; try discriminate. destruct (nth_error (p_nodes s) m) as [d|]; [|discriminate].
    destruct (dn_state d) as [? ?|a|]; [destruct (Nat.ltb _ _); [|discriminate]|destruct (Nat.ltb _ _); [|discriminate]|]; intros [= <- <-]; (eapply lighter_put; [exact N|cbn; lia]).
  - destruct (nth_error (p_nodes s) n) as [d|]; [|discriminate]. destruct (dn_state d) as [id v6|a|]; try discriminate. destruct (a_running _).
    + intros [= <- <-]. apply lighter_refl.
    + intros [= E]. eapply lighter_dies; eauto.
  - destruct (nth_error (p_nodes s) n) as [d|]; [|discriminate]. destruct (dn_state d) as [id v6|a|]; try discriminate. destruct (dn_chan d) as [|[t hash|t] chan]; try discriminate.
    + destruct (astep a (ALookup hash oks)) as [[a1 o1]|]; [|discriminate]. destruct (acted s n a1 chan _ o1) as [s1 p1] eqn:E. intros [= <- <-]. eapply lighter_acted; eauto.
    + destruct (astep a AShutdown) as [[a1 o1]|]; [|discriminate]. destruct (dies s n d) as [s1 p1] eqn:E. intros [= <- <-]. eapply lighter_dies; eauto.
  - destruct (nth_error (p_nodes s) n) as [d|]; [|discriminate]. destruct (dn_state d) as [id v6|a|]; try discriminate. destruct e as [? ?| |from msg pick oks|k pick]; try discriminate;
    (destruct (astep a _) as [[a1 o1]|]; [|discriminate]; intros [= E]; eapply lighter_acted; eauto).
  - destruct (nth_error (p_calls s) t) as [[c [| |m|m|r0|]]|] eqn:N; try discriminate; intros [= <- <-]; (eapply lighter_put; [exact N|cbn; lia]).
Qed.
(** The call that shuts the node down *)
Definition call_wt (s : proc) : nat :=
  match z_stage s with Closing _ t => match nth_error (p_calls (z_app s)) t with Some (_, st) => wt st | None => 0 end | _ => 0 end.
Lemma dht_wt s e s' o : ainv s -> z_stage s <> Working -> z_stage s <> Crashed -> dht_allowed (z_stage s) e = true -> pstep (z_app s) e = Some (s', o) -> wf_pev e ->
  let s1 := mkProc (z_stage s) s' (z_group s) (z_queries s) (z_tasks s) in
  call_wt s1 + (if at_once (ZDht e) then 1 else 0) <= call_wt s.
Proof.
  intros [(la & ha & V & NC) A O] NW NCR DA E WF s1. assert (NP : forall c, e <> PCall c) by (intros c X; subst e; cbn in DA; destruct c; [destruct (z_stage s); congruence|discriminate]).
  assert (LT := lighter_step _ _ _ _ E NP).
  assert (DONE : forall i c st, nth_error (p_calls (z_app s)) i = Some (c, st) -> (exists r, st = TDone r) \/ exists ok t, z_stage s = Closing ok t /\ i = t /\ c = CShutdown).
  { intros i c st N. unfold calls_over in O. destruct (z_stage s) as [|ok t|ok|ok|] eqn:ST; [congruence| | | |congruence]; [|left; eauto|left; eauto]. destruct O as ((st0 & O1) & O2). destruct (O2 _ _ _ N) as [->|X]; [|auto]. right. exists ok, t. repeat split. congruence. }
  assert (CW : forall ok t, z_stage s = Closing ok t -> exists st st', nth_error (p_calls (z_app s)) t = Some (CShutdown, st) /\ nth_error (p_calls s') t = Some (CShutdown, st') /\ call_wt s = wt st /\ call_wt s1 = wt st' /\ wt st' <= wt st).
  { intros ok t ST. unfold calls_over in O. rewrite ST in O. destruct O as ((st & N) & _). destruct (still_there _ _ _ _ _ _ _ _ _ V WF E N) as (st' & N'). exists st, st'. unfold call_wt, s1. cbn [z_stage z_app]. rewrite ST, N, N'. repeat split; auto. destruct (LT _ _ _ N') as (st0 & X & Y). congruence. }
  assert (REST : (exists ok t, z_stage s = Closing ok t) \/ (call_wt s1 = 0 /\ call_wt s = 0)). { unfold call_wt, s1. cbn [z_stage z_app]. destruct (z_stage s); [congruence|left; eauto|auto|auto|congruence]. }
  destruct e as [c|t|t r|t|n boot|n oks|n e|t]; cbn [at_once]; try discriminate DA; try (destruct REST as [(ok & i & ST)|(-> & ->)]; [destruct (CW _ _ ST) as (st & st' & _ & _ & -> & -> & L); lia|lia]).
  - cbn [pstep] in E. destruct (p_lock (z_app s)); [discriminate|]. destruct (nth_error (p_calls (z_app s)) t) as [[c [| |m|m|r0|]]|] eqn:N; try discriminate. destruct (DONE _ _ _ N) as [(r & X)|(ok & t' & ST & -> & ->)]; [discriminate|].
    destruct (CW _ _ ST) as (st & st' & N0 & N1 & -> & -> & _). rewrite N in N0. injection N0 as <-. destruct (p_handle (z_app s)) as [n|]; injection E as <- <-; unfold M_App.finish in N1; cbn [fst p_calls] in N1; rewrite set_nth_get, Nat.eqb_refl, N in N1; injection N1 as <-; cbn; lia.
  - cbn [pstep] in E. destruct (nth_error (p_calls (z_app s)) t) as [[c [| |m|m|r0|]]|] eqn:N; try discriminate. destruct (DONE _ _ _ N) as [(r & X)|(ok & t' & ST & -> & ->)]; [discriminate|].
    destruct (CW _ _ ST) as (st & st' & N0 & N1 & -> & -> & _). rewrite N in N0. injection N0 as <-. destruct (nth_error (p_nodes (z_app s)) m) as [d|]; [|discriminate].
    destruct (dn_state d) as [? ?|a|]; [destruct (Nat.ltb _ _); [|discriminate]|destruct (Nat.ltb _ _); [|discriminate]|]; injection E as <- <-; unfold M_App.finish in N1; cbn [fst p_calls] in N1; rewrite set_nth_get, Nat.eqb_refl, N in N1; injection N1 as <-; cbn; lia.
  - cbn [pstep] in E. destruct (nth_error (p_nodes (z_app s)) n) as [d|] eqn:ND; [|discriminate]. destruct (dn_state d) as [id v6|a|]; try discriminate. destruct (dn_chan d) as [|m chan] eqn:CH; [discriminate|].
    destruct (node_zero _ _ _ _ (v_nodes _ _ _ V) ND) as (-> & EN).
    destruct (v_nodes _ _ _ V) as [(A1 & A2 & _)|(d' & A1 & A2 & _ & _ & _ & A6 & NI)]; [rewrite A2 in ND; discriminate|]. rewrite A2 in ND. injection ND as ->.
    destruct (n_chan _ _ _ _ NI m) as (c & st & N & ME & Q); [rewrite CH; left; reflexivity|].
    assert (NG : st <> TGone) by (intros ->; exact (NC _ (v_gone _ _ _ V _ _ N))). destruct Q as [->|Q]; [|congruence]. destruct (DONE _ _ _ N) as [(r & X)|(ok & t' & ST & T1 & ->)]; [discriminate|]. subst t'.
    destruct (CW _ _ ST) as (st & st' & N0 & N1 & -> & -> & _). rewrite N in N0. injection N0 as <-. rewrite ME in E. cbn [message] in E.
    destruct (astep a AShutdown) as [[a1 o1]|]; [|discriminate]. destruct (dies (z_app s) 0 d) as [s2 p2] eqn:DE. injection E as <- <-. apply dies_calls in DE. destruct DE as (_ & _ & G & _). rewrite G, N in N1. cbn [no_wait_change Nat.eqb fst] in N1. injection N1 as <-. cbn. lia.
Qed.

Definition nrun (qs : list (tquery * qstate)) : nat := length (filter (fun x => match snd x with QRunning => true | _ => false end) qs).
Definition unbegun (ts : list (nat * announcement * bool)) : nat := length (filter (fun x => negb (snd x)) ts).
Definition stage_wt (s : proc) : nat :=
  match z_stage s with
  | Working => 6 | Closing _ _ => 3 + call_wt s
  | Leaving _ => match g_phase (z_group s) with GFirstJoin _ => 2 | _ => 1 end
  | Exited _ | Crashed => 0
  end.
Definition mu (s : proc) : nat := 3 * nrun (z_queries s) + length (g_running (z_group s)) + unbegun (z_tasks s) + stage_wt s.
Lemma filter_set {X} (p : X -> bool) : forall l i x y, nth_error l i = Some x -> length (filter p (M_App.set_nth l i y)) + (if p x then 1 else 0) = length (filter p l) + (if p y then 1 else 0).
Proof.
  induction l as [|a l IH]; intros [|i] x y; cbn [nth_error M_App.set_nth filter]; try discriminate.
  - intros [= ->]. destruct (p x), (p y); cbn [length]; lia.
  - intros N. specialize (IH i x y N). destruct (p a); cbn [length]; lia.
Qed.
Lemma nrun_set qs q x st st' : nth_error qs q = Some (x, st) -> nrun (M_App.set_nth qs q (x, st')) + (match st with QRunning => 1 | _ => 0 end) = nrun qs + (match st' with QRunning => 1 | _ => 0 end).
Proof. intros N. unfold nrun. assert (E := filter_set (fun x => match snd x with QRunning => true | _ => false end) qs q _ (x, st') N). cbn [snd] in E. destruct st, st'; exact E. Qed.
Lemma filter_less {X} (p : X -> bool) l x : In x l -> p x = false -> S (length (filter p l)) <= length l.
Proof.
  intros I P. apply in_split in I. destruct I as (l1 & l2 & ->). rewrite filter_app. cbn [filter]. rewrite P, !app_length. cbn [length].
  assert (F : forall l : list X, length (filter p l) <= length l) by (intros l; induction l as [|a l IH]; cbn; [lia|destruct (p a); cbn; lia]). assert (F1 := F l1). assert (F2 := F l2). lia.
Qed.
Lemma gend_less g i g' : gstep g (GEnd i) = Some g' -> S (length (g_running g')) <= length (g_running g).
Proof. intros G. apply gend in G. destruct G as (I & ->). cbn [g_running]. apply (filter_less _ _ i I). rewrite Nat.eqb_refl. reflexivity. Qed.
Lemma mu_step l s h e s' o : Forall wf_zev l -> wf_zev e -> run z_new l = Some (s, h) -> z_stage s <> Working -> exited s = false -> rel s e s' o -> mu s' + (if at_once e then 1 else 0) <= mu s /\ z_stage s' <> Working /\ queries_of [e] = [].
Proof.
  intros W We R NW EX REL. assert (NCR : z_stage s <> Crashed) by (intros X; unfold exited in EX; rewrite X in EX; discriminate). assert (Z := zinv_run _ _ _ _ _ _ _ R). assert (A := ainv_run _ _ _ _ _ _ _ W R). assert (SG := z_staged _ _ _ Z). unfold stage_inv in SG. destruct REL; try congruence.
  - cbn [gstep] in H. injection H as <-. split; [|split; [exact NW|reflexivity]]. unfold mu, stage_wt, call_wt, set_group. cbn [z_queries z_group z_tasks z_stage z_app g_running g_phase at_once] in *. cbv beta iota in *. lia.
  - cbn [gstep] in H2. injection H2 as <-. split; [|split; [exact NW|reflexivity]]. assert (Q := nrun_set _ _ _ _ QReturned H). unfold mu, stage_wt, call_wt, unbegun. cbn [z_queries z_group z_tasks z_stage z_app g_running g_phase at_once length]. rewrite filter_app, app_length. cbn [filter snd negb length] in *. cbv beta iota in *. lia.
  - split; [|split; [exact NW|reflexivity]]. assert (Q := nrun_set _ _ _ _ QReturned H). unfold mu, stage_wt, call_wt, set_query. cbn [z_queries z_group z_tasks z_stage z_app at_once] in *. cbv beta iota in *. lia.
  - split; [|split; [exact NW|reflexivity]]. assert (Q := nrun_set _ _ _ _ QDropped H). unfold mu, stage_wt, call_wt, set_query. cbn [z_queries z_group z_tasks z_stage z_app at_once] in *. cbv beta iota in *. lia.
  - split; [|split; [exact NW|reflexivity]]. assert (WP : wf_pev e) by (destruct e; exact We || exact Logic.I). assert (Q := dht_wt s e a o A NW NCR H H0 WP). cbv zeta in Q. unfold mu, stage_wt. cbn [z_queries z_group z_tasks z_stage] in *. destruct (z_stage s) eqn:ST; try congruence.
    + lia.
    + unfold call_wt in Q. cbn [z_stage] in Q. rewrite ST in Q. lia.
    + unfold call_wt in Q. cbn [z_stage] in Q. rewrite ST in Q. lia.
  - cbn [gstep] in H1. destruct (g_phase (z_group s)) eqn:PH; try discriminate. injection H1 as <-. split; [|split; [discriminate|reflexivity]]. unfold mu, stage_wt, set_stage, set_group. cbn [z_queries z_group z_tasks z_stage g_running g_phase at_once]. rewrite H. lia.
  - split; [|split; [exact NW|reflexivity]]. assert (Q := filter_set (fun x => negb (snd x)) (z_tasks s) i _ (q, a, true) H). cbn [snd negb] in Q. unfold mu, stage_wt, call_wt, unbegun in *. cbn [z_queries z_group z_tasks z_stage z_app at_once] in *. cbv beta iota in *. lia.
  - split; [|split; [exact NW|reflexivity]]. assert (Q := gend_less _ _ _ H0). apply gend in H0. destruct H0 as (_ & H0). unfold mu, stage_wt, call_wt, set_group. cbn [z_queries z_group z_tasks z_stage z_app at_once]. rewrite H0 in *. cbn [g_phase g_running] in *. lia.
  - split; [|split; [exact NW|reflexivity]]. assert (Q := gend_less _ _ _ H1). apply gend in H1. destruct H1 as (_ & H1). unfold mu, stage_wt, call_wt, set_group. cbn [z_queries z_group z_tasks z_stage z_app at_once]. rewrite H1 in *. cbn [g_phase g_running] in *. lia.
  - split; [|split; [exact NW|reflexivity]]. apply gtimeout in H. destruct H as (dl & PH & _ & _ & ->). unfold mu, stage_wt, set_group. cbn [z_queries z_group z_tasks z_stage at_once g_running g_phase]. rewrite PH. destruct (z_stage s); try congruence; [destruct SG; congruence|lia|destruct SG; congruence].
  - split; [|split; [exact NW|reflexivity]]. pose proof H as H'. apply gjoin in H. destruct H as (RN & J). unfold mu, stage_wt, set_group. cbn [z_queries z_group z_tasks z_stage at_once]. rewrite RN. destruct (z_stage s) eqn:ST; try congruence.
    + destruct SG as (PH & _). destruct J as [(dl & X & _)|(X & _)]; congruence.
    + destruct J as [(dl & PH & ->)|(PH & ->)]; cbn [g_phase g_running] in *; [rewrite PH; cbn; lia|]. exfalso. exact (H0 _ eq_refl eq_refl).
    + destruct SG as (PH & _). destruct J as [(dl & X & _)|(X & _)]; congruence.
  - split; [|split; [discriminate|reflexivity]]. pose proof H as H'. apply gjoin in H. destruct H as (RN & J). unfold mu, stage_wt, set_group, set_stage. cbn [z_queries z_group z_tasks z_stage at_once]. rewrite RN, H0. destruct J as [(dl & PH & ->)|(PH & ->)]; cbn [g_phase g_running] in *; rewrite PH; cbn; lia.
Qed.
Lemma room_run l s h : run z_new l = Some (s, h) -> nrun (z_queries s) + length (z_tasks s) <= length (z_queries s).
Proof.
  intros R. refine (run_ind cfg pid key port (fun _ _ s => nrun (z_queries s) + length (z_tasks s) <= length (z_queries s)) z_new _ _ l s h R); [cbn; lia|].
  clear. intros l h s e s' o R IH EX E REL. destruct REL; try exact IH; cbn [z_queries z_tasks set_query]; rewrite ?set_nth_length, ?app_length.
  - unfold nrun in *. rewrite filter_app, app_length. cbn [filter snd length]. lia.
  - assert (Q := nrun_set _ _ _ _ QReturned H). cbv beta iota in Q. cbn [length]. lia.
  - assert (Q := nrun_set _ _ _ _ QReturned H). cbv beta iota in Q. lia.
  - assert (Q := nrun_set _ _ _ _ QDropped H). cbv beta iota in Q. lia.
  - exact IH.
Qed.
Lemma filter_le {X} (p : X -> bool) (l : list X) : length (filter p l) <= length l.
Proof. induction l as [|a l IH]; cbn; [lia|destruct (p a); cbn; lia]. Qed.
Lemma mu_bound l s h : run z_new l = Some (s, h) -> mu s <= 3 * length (queries_of l) + 6.
Proof.
  intros R. assert (Z := zinv_run _ _ _ _ _ _ _ R). assert (B := room_run _ _ _ R). rewrite <- (t_len _ _ _ _ _ _ _ (tinv_run _ _ _ _ _ _ _ R)).
  assert (U : unbegun (z_tasks s) <= length (z_tasks s)) by apply filter_le.
  assert (G : length (g_running (z_group s)) <= length (z_tasks s)).
  { rewrite <- (z_next _ _ _ Z). rewrite <- (seq_length (g_next (z_group s)) 0). apply NoDup_incl_length; [exact (gi_nodup _ (z_ginv _ _ _ Z))|]. intros i X. apply in_seq. assert (i < g_next (z_group s)) by (apply (gi_all _ (z_ginv _ _ _ Z)); auto). lia. }
  assert (C : call_wt s <= 3). { unfold call_wt. destruct (z_stage s); try lia. destruct (nth_error _ _) as [[c st]|]; [|lia]. destruct st; cbn; lia. }
  assert (ST : stage_wt s <= 6). { unfold stage_wt. destruct (z_stage s); try lia. destruct (g_phase _); lia. }
  unfold mu. lia.
Qed.
Lemma run_snoc l e s h : run z_new (l ++ [e]) = Some (s, h) -> exists s1 h1 o, run z_new l = Some (s1, h1) /\ step s1 e = Some (s, o) /\ h = h1 ++ o.
Proof.
  rewrite run_app. destruct (run z_new l) as [[s1 h1]|]; [|discriminate]. cbn [zrun]. destruct (step s1 e) as [[s2 o2]|] eqn:E; [|discriminate]. intros [= <- <-]. exists s1, h1, o2. rewrite app_nil_r. auto.
Qed.
Lemma few_steps l l' s h s' h' te ok : Forall wf_zev (l ++ l') -> run z_new l = Some (s, h) -> In (te, OEnd ok) h -> run z_new (l ++ l') = Some (s', h') ->
  length (filter at_once l') <= 3 * length (queries_of l) + 6.
Proof.
  intros W R X R'. assert (B := mu_bound _ _ _ R).
  assert (NW : z_stage s <> Working). { intros ST. assert (SG := z_staged _ _ _ (zinv_run _ _ _ _ _ _ _ R)). unfold stage_inv in SG. rewrite ST in SG. destruct SG as (_ & _ & N). exact (N _ _ X). }
  assert (Q : mu s' + length (filter at_once l') <= mu s /\ z_stage s' <> Working); [|lia]. clear B X. revert W s' h' R'. induction l' as [|e l' IH] using rev_ind; intros W s' h' R'.
  - rewrite app_nil_r, R in R'. injection R' as <- _. cbn. split; [lia|exact NW].
  - rewrite app_assoc in *. apply Forall_app in W. destruct W as (W & We). inversion We as [|? ? We1 _]; subst. destruct (run_snoc _ _ _ _ R') as (s1 & h1 & o & R1 & E & _). destruct (IH W _ _ R1) as (I1 & I2). apply step_rel in E. destruct E as (EX & E).
    destruct (mu_step _ _ _ _ _ _ W We1 R1 I2 EX E) as (Q1 & Q2 & _). split; [|exact Q2]. rewrite filter_app, app_length. cbn [filter]. destruct (at_once e); cbn [length]; lia.
Qed.
End Proc.
