From Verif Require Import Base BaseFacts M_Net M_Types M_Tracker M_Template S_Template M_Save M_Magnet M_Config M_Http
  M_Nursery S_Nursery P_Nursery M_Resolve P_Resolve P_Resolve2 M_Batch P_Batch M_Get S_Get P_Get M_BatchCmd S_BatchCmd P_Disk P_BatchCmd P_BatchCmd2.
Local Open Scope nat_scope.

Section B.
Context (show_url : url -> bytes) (parse_url : bytes -> option url) (cfg : config) (pid : bytes) (template : list elem) (content : bytes) (trips : nat -> trip).
Notation magnets := (batch_magnets parse_url content).
Notation bjob := (bjob show_url cfg pid template magnets trips).
Notation ops := (bjob_ops show_url cfg pid template magnets trips).
Notation ends := (bjob_ends show_url cfg pid template magnets trips).
Notation result := (bjob_result show_url cfg pid template magnets trips).
Notation cstep := (cstep show_url cfg pid template magnets trips).
Notation crun := (crun show_url cfg pid template magnets trips).
Notation run := (batch_cmd show_url parse_url cfg pid template content trips).
Notation n := (N.to_nat (c_batch_jobs cfg)).
Notation parsed := (parse_magnets_file parse_url content).
Implicit Types (s : cst) (h : list (obs magnet bool)).

Lemma project l : forall s s' h, crun s l = Some (s', h) -> exists l', brun result (c_batch s) l' = Some (c_batch s', h).
Proof.
  induction l as [|e l IH]; intros s s' h H; cbn [M_BatchCmd.crun] in H; [injection H as <- <-; exists []; reflexivity|].
  destruct (cstep s e) as [[s1 o1]|] eqn:E1; [|discriminate]. destruct (crun s1 l) as [[s2 o2]|] eqn:E2; [|discriminate]. injection H as <- <-.
  destruct (IH _ _ _ E2) as (l' & R). destruct e as [e|k]; cbn [M_BatchCmd.cstep] in E1.
  - destruct (may_finish _ _ _ _ _ _ s e); [|discriminate]. destruct (bstep result (c_batch s) e) as [[b o]|] eqn:EB; [|discriminate]. injection E1 as <- <-. cbn [c_batch] in R.
    exists (e :: l'). cbn [brun]. rewrite EB, R. reflexivity.
  - destruct (is_running _ _); [|discriminate]. destruct (nth_error _ _); [|discriminate]. injection E1 as <- <-. exists l'. exact R.
Qed.
Lemma running_job s h x j : cinv show_url parse_url cfg pid template content trips s h -> nth_error (n_workers (b_pool (c_batch s))) x = Some (WRunning j) ->
  (exists rest, map snd (S_Nursery.accepted h) ++ rest = magnets) -> fst j < length magnets.
Proof.
  intros V E R. pose proof (c_inv _ _ _ _ _ _ _ _ _ V) as VB. apply (job_number result n parsed _ _ _ VB); [|exact R].
  apply (i_from _ _ _ (b_inv _ _ _ _ _ VB)). do 5 right. exists (WRunning j). split; [eapply nth_error_In; exact E|reflexivity].
Qed.

Lemma cprogress l s h : run l = Some (s, h) -> (forall k, k < length magnets -> ends k = true) -> (forall e, cstep s e = None) ->
  (exists ok, b_main (c_batch s) = BExit ok) \/ (b_main (c_batch s) = BPanicked /\ exists k, k < length magnets /\ bjob k = Some Panic).
Proof.
  intros H EN ST. pose proof (creach _ _ _ _ _ _ _ _ _ _ H) as V. pose proof (c_inv _ _ _ _ _ _ _ _ _ V) as VB.
  destruct (project _ _ _ _ H) as (l' & R). cbn [c_start c_batch] in R.
  destruct (b_main (c_batch s)) as [rest|su to|ok|] eqn:EM; [| |left; eauto|].
  - exfalso. pose proof (b_st _ _ _ _ _ VB) as B. rewrite EM in B.
    pose proof (ST (CTask BMain)) as SM. cbn [M_BatchCmd.cstep may_finish bstep] in SM. rewrite EM in SM. destruct B as (_ & S2 & S3 & _).
    destruct rest; cbn [nstep] in SM; rewrite ?S3, ?S2 in SM; discriminate.
  - exfalso. pose proof (b_st _ _ _ _ _ VB) as B. rewrite EM in B. destruct B as (S1 & _).
    destruct (bprogress result n parsed _ _ _ R) as [(ok & X)|(X & _)]; try congruence.
    intros e. pose proof (ST (CTask e)) as SE. cbn [M_BatchCmd.cstep] in SE. destruct (may_finish _ _ _ _ _ _ s e) eqn:MF.
    + destruct (bstep result (c_batch s) e) as [[b o]|]; [discriminate|reflexivity].
    + destruct e as [|[x|x|x|x|x|x|x]]; try discriminate. cbn [may_finish] in MF. cbn [bstep wstep].
      destruct (nth_error (n_workers (b_pool (c_batch s))) x) as [[| | |j| |]|] eqn:EX; try reflexivity. exfalso.
      assert (K : fst j < length magnets). { eapply running_job; eauto. exists []. rewrite app_nil_r. exact S1. }
      rewrite (EN _ K) in MF. cbn [andb] in MF. apply Nat.eqb_neq in MF.
      pose proof (ST (CRequest (fst j))) as SR. cbn [M_BatchCmd.cstep] in SR.
      replace (is_running (fst j) (b_pool (c_batch s))) with true in SR.
      * destruct (c_part _ _ _ _ _ _ _ _ _ V (fst j)) as (rest & RR). destruct (nth_error (ops (fst j)) (length (requests (fst j) (c_log s)))) eqn:E1; [discriminate|].
        apply nth_error_None in E1. apply MF. rewrite <- RR in *. rewrite app_length in *. lia.
      * symmetry. unfold is_running. apply existsb_exists. exists (WRunning j). split; [eapply nth_error_In; exact EX|apply Nat.eqb_refl].
  - right. split; [reflexivity|]. pose proof (b_st _ _ _ _ _ VB) as B. rewrite EM in B. destruct B as (k & K & D). exists k. split; [exact K|].
    unfold bjob_result in D. destruct (bjob k) as [[[o b]|]|]; try discriminate. reflexivity.
Qed.
Lemma panicked l s h : run l = Some (s, h) -> b_main (c_batch s) = BPanicked -> exists k, k < length magnets /\ bjob k = Some Panic.
Proof.
  intros H EM. pose proof (creach _ _ _ _ _ _ _ _ _ _ H) as V. pose proof (b_st _ _ _ _ _ (c_inv _ _ _ _ _ _ _ _ _ V)) as B. rewrite EM in B. destruct B as (k & K & D). exists k. split; [exact K|].
  unfold bjob_result in D. destruct (bjob k) as [[[o b]|]|]; try discriminate. reflexivity.
Qed.
Lemma no_panic src ts l s h : length pid = 20 -> reads src ts -> parse_template src = Ret (Ok template) -> (forall k b, concat (t_cut (trips k) b) = b) ->
  (forall k m, nth_error magnets k = Some m -> sound_world m (t_world (trips k)) /\ forall c, to_try m (t_world (trips k)) c -> clock_fits cfg (t_world (trips k)) c) ->
  run l = Some (s, h) -> b_main (c_batch s) <> BPanicked.
Proof.
  intros LP RD PT CUT SD H EM. destruct (panicked _ _ _ H EM) as (k & K & J). destruct (nth_error magnets k) as [m|] eqn:E; [|apply nth_error_None in E; lia].
  unfold M_BatchCmd.bjob in J. rewrite E in J. destruct (SD k m E) as ((W1 & W2) & CF).
  exact (get_no_panic show_url cfg pid m (t_world (trips k)) (magnets_hash _ _ _ _ E) LP W1 src ts template (t_cut (trips k)) RD PT (CUT k) (t_sched (trips k)) (t_fail (trips k)) W2 CF J).
Qed.

(** The number of steps is bounded. *)
Fixpoint total (f : nat -> nat) (k : nat) : nat := match k with O => 0 | S k => total f k + f k end.
Lemma total_add f g k : total (fun i => f i + g i) k = total f k + total g k.
Proof. induction k as [|k IH]; cbn; lia. Qed.
Lemma total_le f g k : (forall i, i < k -> f i <= g i) -> total f k <= total g k.
Proof. induction k as [|k IH]; intros H; cbn; [lia|]. specialize (IH ltac:(intros; apply H; lia)). specialize (H k ltac:(lia)). lia. Qed.
Lemma total_one j k : total (fun i => if Nat.eqb j i then 1 else 0) k = if Nat.ltb j k then 1 else 0.
Proof.
  induction k as [|k IH]; cbn [total]; [reflexivity|]. rewrite IH. destruct (Nat.eqb_spec j k) as [->|N].
  - rewrite (proj2 (Nat.ltb_ge k k)) by lia. rewrite (proj2 (Nat.ltb_lt k (S k))) by lia. reflexivity.
  - destruct (Nat.ltb_spec j k); [rewrite (proj2 (Nat.ltb_lt j (S k))) by lia|rewrite (proj2 (Nat.ltb_ge j (S k))) by lia]; reflexivity.
Qed.
Lemma total_log log k : (forall j o, In (j, o) log -> j < k) -> length log = total (fun i => length (requests i log)) k.
Proof.
  induction log as [|[j o] log IH]; intros H.
  - cbn. clear. induction k as [|k IH]; cbn; lia.
  - cbn [length]. rewrite IH by (intros ? ? X; eapply H; right; exact X).
    transitivity (total (fun i => (if Nat.eqb j i then 1 else 0) + length (requests i log)) k).
    + rewrite total_add, total_one, (proj2 (Nat.ltb_lt j k)); [reflexivity|]. eapply H. left. reflexivity.
    + apply Nat.le_antisymm; apply total_le; intros i _; unfold requests; cbn [filter fst]; destruct (Nat.eqb j i); cbn; lia.
Qed.
Lemma log_bound s h : cinv show_url parse_url cfg pid template content trips s h -> length (c_log s) <= total (fun i => length (ops i)) (length magnets).
Proof.
  intros V. rewrite (total_log (c_log s) (length magnets)).
  - apply total_le. intros i _. destruct (c_part _ _ _ _ _ _ _ _ _ V i) as (rest & R). rewrite <- R, app_length. lia.
  - intros j o X. destruct (c_part _ _ _ _ _ _ _ _ _ V j) as (rest & R). apply in_requests in X.
    assert (Y : In o (ops j)) by (rewrite <- R; apply in_or_app; auto). apply nth_error_Some. intros E. unfold bjob_ops, M_BatchCmd.bjob in Y. rewrite E in Y. destruct Y.
Qed.
Lemma run_split a : forall b s s' h, crun s (a ++ b) = Some (s', h) -> exists s1 h1 h2, crun s a = Some (s1, h1) /\ crun s1 b = Some (s', h2).
Proof.
  induction a as [|e a IH]; intros b s s' h H; cbn [app M_BatchCmd.crun] in *; [eauto|].
  destruct (cstep s e) as [[s1 o1]|]; [|discriminate]. destruct (crun s1 (a ++ b)) as [[s2 o2]|] eqn:E; [|discriminate]. injection H as <- <-.
  destruct (IH _ _ _ _ E) as (s3 & h3 & h4 & A & B). rewrite A. eauto 6.
Qed.
Lemma mu_run l : forall s s' h, crun s l = Some (s', h) -> length l + bmu result (c_batch s') + length (c_log s) <= bmu result (c_batch s) + length (c_log s').
Proof.
  induction l as [|e l IH]; intros s s' h H; cbn [M_BatchCmd.crun] in H; [injection H as <- <-; cbn; lia|].
  destruct (cstep s e) as [[s1 o1]|] eqn:E1; [|discriminate]. destruct (crun s1 l) as [[s2 o2]|] eqn:E2; [|discriminate]. injection H as <- <-.
  specialize (IH _ _ _ E2). cbn [length]. destruct e as [e|k]; cbn [M_BatchCmd.cstep] in E1.
  - destruct (may_finish _ _ _ _ _ _ s e); [|discriminate]. destruct (bstep result (c_batch s) e) as [[b o]|] eqn:EB; [|discriminate]. injection E1 as <- <-. cbn [c_batch c_log] in *.
    pose proof (bmu_step result _ _ _ _ EB). lia.
  - destruct (is_running _ _); [|discriminate]. destruct (nth_error _ _); [|discriminate]. injection E1 as <- <-. cbn [c_batch c_log] in *. rewrite app_length in IH. cbn in IH. lia.
Qed.
Lemma cterminates : exists bound, forall l s h, run l = Some (s, h) -> length l <= bound.
Proof.
  exists (bmu result (c_batch (c_start parse_url cfg content)) + total (fun i => length (ops i)) (length magnets)). intros l s h H.
  pose proof (mu_run _ _ _ _ H) as X. pose proof (log_bound _ _ (creach _ _ _ _ _ _ _ _ _ _ H)) as Y. cbn [c_start c_log length] in X. cbn [c_start c_batch] in *. lia.
Qed.
End B.
