(** The jobs of a batch that have asked for something and have not finished are running. *)
From Verif Require Import Base M_Nursery S_Nursery P_Nursery M_Resolve S_Resolve M_Batch P_Batch M_Magnet M_Config M_Get M_Save M_BatchCmd P_BatchCmd.
Local Open Scope nat_scope.

Lemma is_running_in k (s : nst magnet bool) : is_running k s = true -> exists j, In (WRunning j) (n_workers s) /\ fst j = k.
Proof.
  unfold is_running. rewrite existsb_exists. intros (x & I & E). destruct x as [| | |j|j r| ]; try discriminate E. apply Nat.eqb_eq in E. eauto.
Qed.
Section B.
Context (show_url : M_Tracker.url -> bytes) (parse_url : bytes -> option M_Tracker.url) (cfg : config) (pid : bytes) (template : list M_Template.elem) (content : bytes) (trips : nat -> trip).
Notation magnets := (batch_magnets parse_url content).
Notation crun := (crun show_url cfg pid template magnets trips).
Notation cinv := (cinv show_url parse_url cfg pid template content trips).
Notation n := (N.to_nat (c_batch_jobs cfg)).

Lemma started_app (a b : list (obs magnet bool)) : started (a ++ b) = started a ++ started b.
Proof. apply pick_app. Qed.
Lemma crun_started l : forall s h s' h', cinv s h -> (forall k o, In (k, o) (c_log s) -> exists m, In (k, m) (started h)) -> crun s l = Some (s', h') ->
  forall k o, In (k, o) (c_log s') -> exists m, In (k, m) (started (h ++ h')).
Proof.
  induction l as [|e l IH]; intros s h s' h' V L H; cbn [M_BatchCmd.crun] in H; [injection H as <- <-; rewrite app_nil_r; exact L|].
  destruct (cstep _ _ _ _ _ _ s e) as [[s1 o1]|] eqn:E1; [|discriminate]. destruct (crun s1 l) as [[s2 o2]|] eqn:E2; [|discriminate]. injection H as <- <-.
  rewrite app_assoc. apply (IH s1 (h ++ o1)); [eapply cinv_step; eauto| |exact E2]. clear IH E2.
  intros k o I. rewrite started_app. destruct e as [e|k']; cbn [M_BatchCmd.cstep] in E1.
  - destruct (may_finish _ _ _ _ _ _ s e); [|discriminate]. destruct (bstep _ (c_batch s) e) as [[b' o']|]; [|discriminate]. injection E1 as <- <-. cbn [c_log] in I.
    destruct (L _ _ I) as (m & X). exists m. apply in_or_app. auto.
  - destruct (is_running k' (b_pool (c_batch s))) eqn:ER; [|discriminate]. destruct (nth_error _ _) as [x|]; [|discriminate]. injection E1 as <- <-. cbn [c_log] in I.
    apply in_app_or in I. destruct I as [I|[[= <- <-]|[]]]; [destruct (L _ _ I) as (m & X); exists m; apply in_or_app; auto|].
    apply is_running_in in ER as ([k0 m] & I & <-). cbn [fst].
    pose proof (b_inv _ _ _ _ _ (c_inv _ _ _ _ _ _ _ _ _ V)) as VI. pose proof (i_run _ _ _ VI k0) as R.
    pose proof (W_le (f_run k0) _ _ I) as W1. cbn [f_run] in W1. unfold is_job in W1. cbn [fst] in W1. rewrite Nat.eqb_refl in W1.
    destruct (cj_out k0 (started h)) as ([k1 m1] & I1 & E); [lia|]. cbn in E. subst k1. exists m1. apply in_or_app. auto.
Qed.
Lemma batch_writes l s h : batch_cmd show_url parse_url cfg pid template content trips l = Some (s, h) ->
  (forall k o, In (k, o) (c_log s) -> exists m, In (k, m) (started h)) /\
  forall ks, NoDup ks -> (forall k, In k ks -> (exists o, In (k, o) (c_log s)) /\ forall m r, ~ In ((k, m), r) (finished h)) -> length ks <= n.
Proof.
  intros H. pose proof (creach _ _ _ _ _ _ _ _ _ _ H) as V.
  assert (ST : forall k o, In (k, o) (c_log s) -> exists m, In (k, m) (started h)).
  { apply (crun_started l _ [] _ _ (cinv_start _ _ _ _ _ _ _)); [intros k o []|exact H]. }
  split; [exact ST|]. intros ks ND K. pose proof (c_inv _ _ _ _ _ _ _ _ _ V) as VB. pose proof (b_inv _ _ _ _ _ VB) as VI.
  destruct (b_flags _ _ _ _ _ VB) as (_ & AL). destruct (i_alive _ _ _ VI AL) as (AB & _).
  set (jobs := map (fun w => match w with WRunning j => fst j | _ => 0 end) (n_workers (b_pool (c_batch s)))).
  assert (LJ : length jobs = n) by (unfold jobs; rewrite map_length; exact (i_len _ _ _ VI)). rewrite <- LJ.
  apply NoDup_incl_length; [exact ND|]. intros k I. destruct (K k I) as ((o & O) & NF). destruct (ST k o O) as (m & S).
  pose proof (i_run _ _ _ VI k) as R. rewrite AB, cj_nil in R. pose proof (cj_in _ _ S) as C. cbn [fst] in C.
  destruct (Nat.eq_0_gt_0_cases (cj k (map fst (finished h)))) as [Z|Z].
  - destruct (Nat.eq_0_gt_0_cases (W (f_run k) (n_workers (b_pool (c_batch s))))) as [Z2|Z2]; [lia|].
    assert (X : exists w, In w (n_workers (b_pool (c_batch s))) /\ f_run k w <> 0).
    { clear - Z2. induction (n_workers (b_pool (c_batch s))) as [|w ws IH]; [rewrite W_nil in Z2; lia|]. rewrite W_cons in Z2.
      destruct (Nat.eq_dec (f_run k w) 0) as [E|E]; [destruct IH as (w' & I & N); [lia|exists w'; split; [right; exact I|exact N]]|exists w; split; [left; reflexivity|exact E]]. }
    destruct X as (w & IW & NW). unfold jobs. apply in_map_iff. exists w. split; [|exact IW]. destruct w as [| | |j|j r|]; cbn [f_run] in NW; try contradiction. unfold is_job in NW.
    destruct (Nat.eqb_spec (fst j) k) as [E|E]; [exact E|contradiction].
  - exfalso. destruct (cj_out k (map fst (finished h))) as ([k1 m1] & I1 & E); [lia|]. cbn in E. subst k1. apply in_map_iff in I1. destruct I1 as ([j r] & EJ & I1). cbn in EJ. subst j. exact (NF _ _ I1).
Qed.
End B.
