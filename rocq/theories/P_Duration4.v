From Verif Require Import Base BaseFacts M_Nursery S_Nursery P_Nursery M_Resolve P_Resolve P_Resolve2 M_Batch P_Batch M_Duration S_Duration P_Duration P_Duration2 P_Duration3.
Local Open Scope nat_scope.

Section B.
Context {Mg E : Type} (download : nat -> outcome bool) (d : job Mg -> nat) (delta : nat) (BD : forall j, d j <= delta).
Context (n : nat) (parsed : res E (list Mg)).
Notation ustep := (@ustep Mg download d).
Notation urun := (@urun Mg download d).
Notation bstep := (@bstep Mg download).
Notation batch_prompt := (@batch_prompt Mg download d).
Notation binv := (@binv Mg E download n parsed).
Implicit Types (s : bst Mg) (x : ust Mg) (h : list (obs Mg bool)).

Definition bover (m : bmain Mg) : bool := match m with BExit _ | BPanicked => true | _ => false end.
Record uinv x h (a K : nat) : Prop := {
  z_b : binv (u_b x) h;
  z_p : pinv d delta (b_pool (u_b x)) (u_began x) (u_now x) h a K;
  z_now : u_now x = a + K;
  z_k : K <> 0 -> forall rest, b_main (u_b x) <> BSpawn rest
}.
Lemma main_frame s s' o : bstep s BMain = Some (s', o) -> n_workers (b_pool s') = n_workers (b_pool s) /\ started o = [] /\
  ((exists rest, b_main s = BSpawn rest) \/ n_queue (b_pool s') = n_queue (b_pool s) /\ forall rest, b_main s' <> BSpawn rest).
Proof.
  intros H. cbn [M_Batch.bstep] in H. destruct (b_main s) as [[|m rest]|su to|ok|] eqn:EM; try discriminate; cbn [nstep] in H.
  - destruct (n_handles (b_pool s)); [discriminate|]. injection H as <- <-. cbn. eauto.
  - destruct (n_handles (b_pool s)); [discriminate|]. destruct (n_closed (b_pool s)); injection H as <- <-; cbn; eauto.
  - destruct (n_alive (b_pool s)); [|destruct (n_out (b_pool s)) eqn:EO; discriminate].
    destruct (n_out (b_pool s)) as [|[j [b|]] q] eqn:EO.
    + cbn [andb] in H. destruct (forallb is_stopped (n_workers (b_pool s))); [|discriminate]. injection H as <- <-. cbn. split; [reflexivity|]. split; [reflexivity|]. right. split; [reflexivity|discriminate].
    + injection H as <- <-. cbn. split; [reflexivity|]. split; [reflexivity|]. right. split; [reflexivity|discriminate].
    + injection H as <- <-. cbn. split; [reflexivity|]. split; [reflexivity|]. right. split; [reflexivity|discriminate].
Qed.
Lemma uinv_act x h a K e x' o : uinv x h a K -> ustep x (UAct e) = Some (x', o) -> uinv x' (h ++ o) a K.
Proof.
  intros [VB VP NOW HK] H. cbn [M_Duration.ustep] in H. match type of H with (if ?b then _ else _) = _ => destruct b; [|discriminate] end.
  destruct (bstep (u_b x) e) as [[s' o']|] eqn:EB; [|discriminate]. injection H as <- <-.
  pose proof (binv_step _ _ _ _ _ _ _ _ VB EB) as VB'. destruct e as [|w].
  - destruct (main_frame _ _ _ EB) as (W1 & S1 & Q1).
    assert (QT : K = 0 \/ n_queue (b_pool s') = n_queue (b_pool (u_b x)) /\ forall rest, b_main s' <> BSpawn rest)
      by (destruct Q1 as [(rest & X)|Q1]; [|right; exact Q1]; left; destruct K; [reflexivity|]; destruct (HK (Nat.neq_succ_0 _) _ X)).
    split; cbn [u_b u_now u_began]; auto; [|destruct QT as [->|(_ & QT)]; [congruence|auto]].
    apply (pinv_same _ _ _ _ _ _ _ _ _ _ VP); try assumption. destruct QT as [->|(QT & _)]; auto.
  - cbn [M_Batch.bstep] in EB. destruct (wstep _ (b_pool (u_b x)) w) as [[tn o]|] eqn:EW; [|discriminate]. injection EB as <- <-.
    split; cbn [u_b u_now u_began b_pool b_main]; auto. exact (pinv_w _ _ _ _ _ _ _ _ _ _ _ _ VP EW).
Qed.
Lemma uidle_pool x : (forall a, ustep x (UAct a) = None) -> quiet d (fun j => download (fst j)) (b_pool (u_b x)) (u_began x) (u_now x).
Proof.
  intros Q e O. specialize (Q (BWork e)). cbn [M_Duration.ustep] in Q. rewrite O in Q. cbn [M_Batch.bstep] in Q.
  destruct (wstep _ _ _) as [[]|]; [discriminate|reflexivity].
Qed.
Lemma uidle_main x : (forall a, ustep x (UAct a) = None) -> bstep (u_b x) BMain = None.
Proof. intros Q. specialize (Q BMain). cbn [M_Duration.ustep] in Q. destruct (bstep (u_b x) BMain) as [[]|]; [discriminate|reflexivity]. Qed.
Lemma uidle_recv x h : binv (u_b x) h -> (forall a, ustep x (UAct a) = None) -> bover (b_main (u_b x)) = false -> exists su to, b_main (u_b x) = BRecv su to.
Proof.
  intros V Q NE. pose proof (uidle_main _ Q) as M. cbn [M_Batch.bstep] in M. pose proof (b_st _ _ _ _ _ V) as ST.
  destruct (b_main (u_b x)) as [[|m rest]|su to|ok|]; try discriminate; eauto; cbn [nstep] in M.
  - destruct ST as (_ & _ & HN & _). rewrite HN in M. discriminate.
  - destruct ST as (_ & CL & HN & _). rewrite HN, CL in M. discriminate.
Qed.
Lemma uidle_some x h : binv (u_b x) h -> (forall a, ustep x (UAct a) = None) -> bover (b_main (u_b x)) = false ->
  existsb is_running (n_workers (b_pool (u_b x))) = true.
Proof.
  intros V Q NE. destruct (existsb is_running (n_workers (b_pool (u_b x)))) eqn:EX; [reflexivity|exfalso].
  destruct (uidle_recv _ _ V Q NE) as (su & to & EM). pose proof (uidle_main _ Q) as M. cbn [M_Batch.bstep] in M. rewrite EM in M.
  destruct (nstep (b_pool (u_b x)) Recv) as [[? ?]|] eqn:ER; [discriminate|].
  pose proof (quiet_none _ _ _ _ _ (uidle_pool _ Q) EX) as WN. pose proof (wstuck _ _ WN ER) as SK. pose proof (b_st _ _ _ _ _ V) as ST. rewrite EM in ST.
  rewrite (stuck_ends _ _ _ (b_inv _ _ _ _ _ V) (proj2 (b_flags _ _ _ _ _ V)) SK) in M; [discriminate|].
  apply (i_closed _ _ _ (b_inv _ _ _ _ _ V)). left. apply ST.
Qed.
Lemma uinv_wait x h a K t x' o : uinv x h a K -> (forall a, ustep x (UAct a) = None) ->
  (forall w j, nth_error (n_workers (b_pool (u_b x))) w = Some (WRunning j) -> u_now x + t <= u_began x w + d j) ->
  ustep x (UWait t) = Some (x', o) -> exists a' K', uinv x' (h ++ o) a' K'.
Proof.
  intros [VB VP NOW HK] Q I1 H. cbn [M_Duration.ustep] in H.
  assert (NE : bover (b_main (u_b x)) = false) by (destruct (b_main (u_b x)); try discriminate; reflexivity).
  assert (H' : (mkU (u_b x) (u_now x + t) (u_began x), []) = (x', o)) by (destruct (b_main (u_b x)); try discriminate; congruence). clear H.
  injection H' as <- <-. rewrite app_nil_r. destruct (uidle_recv _ _ VB Q NE) as (su & to & EM). destruct (b_flags _ _ _ _ _ VB) as (ND & AL).
  pose proof (uidle_pool _ Q) as QP.
  destruct (forallb is_running (n_workers (b_pool (u_b x)))) eqn:E1.
  - exists (a + t), K. split; cbn [u_b u_now u_began]; auto; [exact (pinv_busy _ _ _ _ _ _ _ _ _ VP I1 (all_running _ E1))|lia].
  - pose proof (uidle_some _ _ VB Q NE) as E2. destruct (some_running _ E2) as (i & j & EI). exists a, (K + t).
    split; cbn [u_b u_now u_began]; auto; [|lia|intros _ rest; rewrite EM; discriminate].
    apply (pinv_last _ _ _ _ _ _ _ _ _ i j BD VP I1); [|exact EI]. exact (quiet_drained _ _ _ _ _ _ _ (b_inv _ _ _ _ _ VB) ND AL QP E1).
Qed.
Lemma uinv_run l : forall x h a K x' h', uinv x h a K -> urun x l = Some (x', h') -> batch_prompt x l -> exists a' K', uinv x' (h ++ h') a' K'.
Proof.
  induction l as [|e l IH]; intros x h a K x' h' V H PR; cbn [M_Duration.urun] in H.
  - injection H as <- <-. rewrite app_nil_r. exists a, K. exact V.
  - destruct (ustep x e) as [[x1 o1]|] eqn:EU; [|discriminate]. destruct (urun x1 l) as [[x2 o2]|] eqn:E2; [|discriminate]. injection H as <- <-.
    cbn [S_Duration.batch_prompt] in PR. destruct PR as (P1 & P2). rewrite EU in P2. rewrite app_assoc.
    assert (V1 : exists a' K', uinv x1 (h ++ o1) a' K').
    { destruct e as [e|t]; [exists a, K; exact (uinv_act _ _ _ _ _ _ _ V EU)|]. destruct P1 as (Q & I). exact (uinv_wait _ _ _ _ _ _ _ V Q I EU). }
    destruct V1 as (a' & K' & V1). exact (IH _ _ _ _ _ _ V1 E2 P2).
Qed.
Lemma uinv_start : uinv (u_start (b_start n parsed)) [] 0 0.
Proof.
  split; cbn [u_start u_b u_now u_began]; [apply binv_start| |reflexivity|congruence].
  unfold b_start. destruct parsed as [[|m ms]|e]; cbn [b_pool]; apply pinv_new.
Qed.
Lemma batch_duration l x h : urun (u_start (b_start n parsed)) l = Some (x, h) -> batch_prompt (u_start (b_start n parsed)) l ->
  n * u_now x <= total d (started h) + n * delta.
Proof.
  intros H PR. destruct (uinv_run _ _ _ _ _ _ _ uinv_start H PR) as (a & K & [VB VP NOW _]). cbn [app] in *.
  pose proof (p_sum _ _ _ _ _ _ _ _ VP) as SP. pose proof (p_last _ _ _ _ _ _ _ _ VP) as LP. rewrite (i_len _ _ _ (b_inv _ _ _ _ _ VB)) in SP.
  rewrite NOW, Nat.mul_add_distr_l. apply Nat.add_le_mono; [|apply Nat.mul_le_mono_l; exact LP]. eapply Nat.le_trans; [apply Nat.le_add_r|exact SP].
Qed.
Definition acc (s : bst Mg) h : Prop :=
  match b_main s with BSpawn rest => map snd (accepted h) ++ rest = ms parsed | _ => exists rest, map snd (accepted h) ++ rest = ms parsed end.
Lemma acc_some s h : acc s h -> exists rest, map snd (accepted h) ++ rest = ms parsed.
Proof. unfold acc. destruct (b_main s); eauto. Qed.
Lemma acc_step s h e s' o : acc s h -> bstep s e = Some (s', o) -> acc s' (h ++ o).
Proof.
  intros A H. destruct e as [|w]; cbn [M_Batch.bstep] in H.
  - pose proof (acc_some _ _ A) as AS. unfold acc in A |- *. rewrite accepted_app, map_app.
    destruct (b_main s) as [[|m rest]|su to|ok|] eqn:EM; try discriminate; cbn [nstep] in H.
    + destruct (n_handles (b_pool s)); [discriminate|]. injection H as <- <-. cbn [b_main accepted pick flat_map map]. rewrite app_nil_r. exact AS.
    + destruct (n_handles (b_pool s)); [discriminate|]. destruct (n_closed (b_pool s)); injection H as <- <-; cbn [b_main].
      * rewrite app_nil_r. exact AS.
      * rewrite <- app_assoc. exact A.
    + destruct (n_alive (b_pool s)); [|destruct (n_out (b_pool s)) eqn:EO; discriminate].
      destruct (n_out (b_pool s)) as [|[j [b|]] q] eqn:EO.
      * cbn [andb] in H. destruct (forallb is_stopped (n_workers (b_pool s))); [|discriminate]. injection H as <- <-. cbn [b_main]. rewrite app_nil_r. exact AS.
      * injection H as <- <-. cbn [b_main]. rewrite app_nil_r. exact AS.
      * injection H as <- <-. cbn [b_main]. rewrite app_nil_r. exact AS.
  - destruct (wstep _ (b_pool s) w) as [[p o']|] eqn:EW; [|discriminate]. injection H as <- <-. destruct (wstep_frame _ _ _ _ _ EW) as (_ & _ & _ & _ & _ & _ & OA & _).
    unfold acc in *. cbn [b_main]. rewrite accepted_app, OA, app_nil_r. exact A.
Qed.
Lemma urun_acc l : forall x h x' h', binv (u_b x) h -> acc (u_b x) h -> urun x l = Some (x', h') -> binv (u_b x') (h ++ h') /\ acc (u_b x') (h ++ h').
Proof.
  induction l as [|e l IH]; intros x h x' h' V A H; cbn [M_Duration.urun] in H.
  - injection H as <- <-. rewrite app_nil_r. split; assumption.
  - destruct (ustep x e) as [[x1 o1]|] eqn:EU; [|discriminate]. destruct (urun x1 l) as [[x2 o2]|] eqn:E2; [|discriminate]. injection H as <- <-.
    rewrite app_assoc. destruct e as [e|t]; cbn [M_Duration.ustep] in EU.
    + match type of EU with (if ?b then _ else _) = _ => destruct b; [|discriminate] end.
      destruct (bstep (u_b x) e) as [[s' o']|] eqn:EB; [|discriminate]. injection EU as <- <-.
      apply (IH _ _ _ _) with (3 := E2); [exact (binv_step _ _ _ _ _ _ _ _ V EB)|exact (acc_step _ _ _ _ _ A EB)].
    + assert (H' : (mkU (u_b x) (u_now x + t) (u_began x), []) = (x1, o1)) by (destruct (b_main (u_b x)); try discriminate; congruence).
      injection H' as <- <-. rewrite app_nil_r. refine (IH _ _ _ _ _ _ E2); assumption.
Qed.
Lemma batch_numbers links l x h : parsed = Ok links -> urun (u_start (b_start n parsed)) l = Some (x, h) -> batch_prompt (u_start (b_start n parsed)) l ->
  n * u_now x <= length links * delta + n * delta.
Proof.
  intros EP H PR. eapply Nat.le_trans; [exact (batch_duration _ _ _ H PR)|]. apply Nat.add_le_mono_r.
  assert (A0 : acc (u_b (u_start (b_start n parsed))) []) by (rewrite EP; cbn [u_start u_b b_start]; destruct links; unfold acc, ms; rewrite EP; cbn; eauto).
  destruct (urun_acc _ (u_start (b_start n parsed)) _ _ _ (binv_start _ _ _) A0 H) as (V & A). cbn [app] in V, A. pose proof (started_le _ _ _ (b_inv _ _ _ _ _ V)) as SL.
  assert (AL : length (accepted h) <= length links).
  { destruct (acc_some _ _ A) as (rest & X). unfold ms in X. rewrite EP in X. rewrite <- X, app_length, map_length. apply Nat.le_add_r. }
  eapply Nat.le_trans; [exact (total_le d delta (started h) BD)|]. rewrite Nat.mul_comm. apply Nat.mul_le_mono_r. eapply Nat.le_trans; eassumption.
Qed.
Lemma batch_goes_on l x h : urun (u_start (b_start n parsed)) l = Some (x, h) -> (forall ok, b_main (u_b x) <> BExit ok) -> b_main (u_b x) <> BPanicked ->
  (forall a, ustep x (UAct a) = None) ->
  (forall w j, nth_error (n_workers (b_pool (u_b x))) w = Some (WRunning j) -> u_now x + 1 <= u_began x w + d j) /\ ustep x (UWait 1) <> None.
Proof.
  intros H N1 N2 Q. split.
  - intros w j EI. exact (quiet_late _ _ _ _ _ _ _ (uidle_pool _ Q) EI).
  - cbn [M_Duration.ustep]. destruct (b_main (u_b x)) as [| |ok|]; try discriminate; [destruct (N1 ok eq_refl)|destruct (N2 eq_refl)].
Qed.
End B.
