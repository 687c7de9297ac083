(** The pools of a magnet's trackers and peers, and of a batch, keep to their sizes. *)
From Verif Require Import Base M_Nursery S_Nursery P_Nursery M_Resolve S_Resolve P_Resolve P_Resolve3 M_Batch P_Batch M_Net M_Magnet M_Config M_Get M_BatchCmd P_Dht.
Local Open Scope nat_scope.

Lemma inv_concurrency {J R} n (s : nst J R) h : inv n s h -> length (started h) <= n + length (finished h) + length (aborted h).
Proof.
  intros H. pose proof (i_count _ _ _ H). pose proof (i_len _ _ _ H).
  pose proof (W_bound running1 1 (n_workers s) ltac:(intros []; cbn; lia)). lia.
Qed.
Lemma inv_idle {J R} n (s : nst J R) h : inv n s h -> accepted h = [] -> started h = [].
Proof.
  intros H E. destruct (started h) as [|j r] eqn:ES; [reflexivity|exfalso].
  pose proof (i_pre _ _ _ H (fst j)) as P1. rewrite ES in P1. pose proof (i_queue _ _ _ H) as Q. rewrite E in Q.
  destruct (taken h); [|discriminate]. unfold cj, is_job in P1. cbn in P1. rewrite Nat.eqb_refl in P1. discriminate.
Qed.

Section R.
Context {T P A M : Type} (addr_eqb : A -> A -> bool) (addr : P -> A) (addr_eqb_spec : forall a b, addr_eqb a b = true <-> a = b).
Context (announce : nat -> outcome (list P)) (fetch : P -> outcome (option M)).
Lemma magnet_limits nt np (trackers : list T) dht s0 l (s : rst T P A M) hT hP :
  r_start nt np trackers dht = Some s0 -> rrun addr_eqb addr announce fetch s0 l = Some (s, hT, hP) ->
  length (started hT) <= nt + length (finished hT) + length (aborted hT) /\
  length (started hP) <= np + length (finished hP) + length (aborted hP).
Proof.
  intros H0 H. destruct (reach_inv _ _ addr_eqb_spec _ _ _ _ _ _ _ _ _ _ _ H0 H) as (V & D & F). split; [|exact (inv_concurrency _ _ _ (v_p _ _ _ _ _ _ _ _ _ _ V))].
  destruct (v_t _ _ _ _ _ _ _ _ _ _ V) as (n & I0 & E). destruct (r_dht s) eqn:ED.
  - rewrite (inv_idle _ _ _ I0 (v_dht _ _ _ _ _ _ _ _ _ _ V ED)). cbn. lia.
  - rewrite <- (E eq_refl). exact (inv_concurrency _ _ _ I0).
Qed.
End R.
Lemma batch_limit {Mg E} download n (parsed : res E (list Mg)) l s h : brun download (b_start n parsed) l = Some (s, h) ->
  length (started h) <= n + length (finished h) + length (aborted h).
Proof. intros H. exact (inv_concurrency _ _ _ (b_inv _ _ _ _ _ (breach _ _ _ _ _ _ H))). Qed.

(** For the commands 'get' and 'batch' the sizes are those configured. *)
Lemma get_limits cfg pid m w s0 l s hT hP : get_start cfg m w = Some s0 -> get_run cfg pid m w s0 l = Some (s, hT, hP) ->
  length (started hT) <= N.to_nat (c_tracker_jobs cfg) + length (finished hT) + length (aborted hT) /\
  length (started hP) <= N.to_nat (c_peer_jobs cfg) + length (finished hP) + length (aborted hP).
Proof. intros H0 H. exact (magnet_limits _ _ sa_eqb_eq _ _ _ _ _ _ _ _ _ _ _ H0 H). Qed.
Lemma crun_brun show_url cfg pid template magnets trips l : forall s s' h, crun show_url cfg pid template magnets trips s l = Some (s', h) ->
  exists l', brun (bjob_result show_url cfg pid template magnets trips) (c_batch s) l' = Some (c_batch s', h).
Proof.
  induction l as [|e l IH]; intros s s' h H; cbn [crun] in H.
  - injection H as <- <-. exists []. reflexivity.
  - destruct (cstep show_url cfg pid template magnets trips s e) as [[s1 o1]|] eqn:E; [|discriminate].
    destruct (crun show_url cfg pid template magnets trips s1 l) as [[s2 o2]|] eqn:E2; [|discriminate]. injection H as <- <-.
    destruct (IH _ _ _ E2) as (l' & R). destruct e as [e|k]; cbn [cstep] in E.
    + destruct (may_finish _ _ _ _ _ _ s e); [|discriminate].
      destruct (bstep (bjob_result show_url cfg pid template magnets trips) (c_batch s) e) as [[b o]|] eqn:EB; [|discriminate]. injection E as <- <-.
      exists (e :: l'). cbn [brun]. rewrite EB. cbn [c_batch] in R. rewrite R. reflexivity.
    + destruct (is_running _ _); [|discriminate]. destruct (nth_error _ _); [|discriminate]. injection E as <- <-. exists l'. exact R.
Qed.
Lemma batch_cmd_limit show_url parse_url cfg pid template content trips l s h : batch_cmd show_url parse_url cfg pid template content trips l = Some (s, h) ->
  length (started h) <= N.to_nat (c_batch_jobs cfg) + length (finished h) + length (aborted h).
Proof.
  intros H. unfold batch_cmd in H. destruct (crun_brun _ _ _ _ _ _ _ _ _ _ H) as (l' & R). exact (batch_limit _ _ _ _ _ _ R).
Qed.
