From Verif Require Import Base BaseFacts M_Nursery S_Nursery P_Nursery M_Async S_Async M_Resolve S_Resolve P_Resolve P_Resolve2.
From Coq Require Import Permutation.
Local Open Scope nat_scope.

Section R3.
Context {T P A M : Type} (addr_eqb : A -> A -> bool) (addr : P -> A) (addr_eqb_spec : forall a b, addr_eqb a b = true <-> a = b).
Context (announce : nat -> outcome (list P)) (fetch : P -> outcome (option M)).
Context (nt np : nat) (trackers : list T) (dht : option (list P)).
Notation rst := (rst T P A M).
Notation rstep := (@rstep T P A M addr_eqb addr announce fetch).
Notation rrun := (@rrun T P A M addr_eqb addr announce fetch).
Definition found_of : list P := match dht with Some f => f | None => [] end.
Notation rinv := (@rinv T P A M addr announce fetch nt np trackers found_of).
Implicit Types (s : rst) (hT : list (obs T (list P))) (hP : list (obs P (option M))).

Lemma start_inv s0 : r_start nt np trackers dht = Some s0 -> rinv s0 [] [] /\ (r_dht s0 = true <-> trackers = []) /\ (trackers = [] -> dht = Some found_of).
Proof.
  unfold r_start, found_of. destruct trackers as [|t ts] eqn:ET.
  - destruct dht as [found|]; [|discriminate]. intros X. injection X as <-. split; [apply rinv_init_dht|]. split; [split; reflexivity|auto].
  - intros X. injection X as <-. split; [apply rinv_init|]. split; [split; discriminate|discriminate].
Qed.
Lemma reach_inv s0 l s hT hP : r_start nt np trackers dht = Some s0 -> rrun s0 l = Some (s, hT, hP) ->
  rinv s hT hP /\ (r_dht s = true <-> trackers = []) /\ (trackers = [] -> dht = Some found_of).
Proof.
  intros H0 H. destruct (start_inv _ H0) as (V & D & F). split; [|rewrite (dht_run _ _ _ _ _ _ _ _ _ H); auto].
  exact (rinv_run _ _ addr_eqb_spec _ _ _ _ _ _ _ _ _ _ _ _ _ V H).
Qed.
Lemma dht_cases s : (r_dht s = true <-> trackers = []) -> (trackers = [] /\ r_dht s = true) \/ (trackers <> [] /\ r_dht s = false).
Proof. intros E. destruct (r_dht s); [left|right]; split; auto; [apply E; reflexivity|]. intros X. apply E in X. discriminate. Qed.

Lemma c_known s0 l s hT hP : r_start nt np trackers dht = Some s0 -> rrun s0 l = Some (s, hT, hP) -> forall p, In p (contacted hP) -> known trackers dht announce p.
Proof.
  intros H0 H p IN. destruct (reach_inv _ _ _ _ _ H0 H) as (V & D & F). unfold known.
  destruct (contacted_from _ _ _ _ _ _ _ _ _ _ V) as (C1 & _). apply C1 in IN.
  destruct (dht_cases _ D) as [(E & DT)|(E & DT)]; rewrite DT in IN; cbn [pulled] in IN.
  - left. split; [exact E|]. exists found_of. auto.
  - right. eapply reported_from; eauto.
Qed.
Lemma c_success s0 l s hT hP i : r_start nt np trackers dht = Some s0 -> rrun s0 l = Some (s, hT, hP) -> r_main s = MReturned (Some i) ->
  exists before p, results hP = before ++ [(p, Ret (Some i))] /\ (forall x, In x before -> snd x = Ret None) /\
    fetch p = Ret (Some i) /\ In p (contacted hP) /\ known trackers dht announce p.
Proof.
  intros H0 H E. destruct (reach_inv _ _ _ _ _ H0 H) as (V & D & F). destruct (success _ _ _ _ _ _ _ _ _ _ _ V E) as (b & p & S1 & S2 & S3 & S4).
  exists b, p. conjs; auto. eapply c_known; eauto.
Qed.
Lemma c_failure s0 l s hT hP : np <> 0 -> nt <> 0 -> (forall k, announce k <> Panic) -> r_start nt np trackers dht = Some s0 -> rrun s0 l = Some (s, hT, hP) ->
  r_main s = MReturned None ->
  (forall p, In p (contacted hP) -> fetch p = Ret None) /\ forall p, known trackers dht announce p -> exists p', In p' (contacted hP) /\ addr p' = addr p.
Proof.
  intros N0 N1 CALM H0 H E. destruct (reach_inv _ _ _ _ _ H0 H) as (V & D & F). split; [eapply failure; [exact N0|exact V|exact E]|].
  destruct (failure_all _ _ _ _ _ _ _ _ _ _ N0 N1 CALM V E) as (F1 & F2).
  intros p [(K1 & fd & K2 & K3)|(k & ps & K1 & K2 & K3)].
  - destruct (dht_cases _ D) as [(_ & DT)|(X & _)]; [|contradiction]. rewrite (F1 DT). exists p. split; [|reflexivity]. rewrite (F K1) in K2. congruence.
  - destruct (dht_cases _ D) as [(X & _)|(_ & DT)]; [rewrite X in K1; cbn in K1; lia|]. eapply F2; eauto.
Qed.
Lemma c_once s0 l s hT hP : r_start nt np trackers dht = Some s0 -> rrun s0 l = Some (s, hT, hP) ->
  (trackers <> [] -> NoDup (map addr (contacted hP))) /\
  (trackers = [] -> accepted hT = [] /\ exists rest, dht = Some (contacted hP ++ rest)) /\
  (exists rest, trackers = map snd (accepted hT) ++ rest).
Proof.
  intros H0 H. destruct (reach_inv _ _ _ _ _ H0 H) as (V & D & F). destruct (contacted_from _ _ _ _ _ _ _ _ _ _ V) as (C1 & C2 & C3).
  pose proof (v_dht _ _ _ _ _ _ _ _ _ _ V) as DA.
  destruct (dht_cases _ D) as [(E & DT)|(E & DT)].
  - conjs; [contradiction| |].
    + intros _. split; [auto|]. destruct (C3 DT) as (rest & R). exists rest. rewrite (F E), R. reflexivity.
    + rewrite (DA DT). exists []. exact E.
  - conjs; [auto|contradiction|]. pose proof (v_spawn _ _ _ _ _ _ _ _ _ _ V) as SP.
    destruct (r_main s); try (destruct SP as (_ & SP); destruct (SP DT) as (SP1 & _); exists []; rewrite app_nil_r; auto; fail).
    destruct SP as (SP & _). eauto.
Qed.
Lemma c_progress s0 l s hT hP : r_start nt np trackers dht = Some s0 -> rrun s0 l = Some (s, hT, hP) -> (forall e, rstep s e = None) ->
  (exists r, r_main s = MReturned r) \/ (r_main s = MPanicked /\ exists p, In p (contacted hP) /\ fetch p = Panic).
Proof.
  intros H0 H ST. destruct (reach_inv _ _ _ _ _ H0 H) as (V & D & F). destruct (progress _ _ _ _ _ _ _ _ _ _ _ V ST) as [X|X]; [auto|].
  right. split; [exact X|]. eapply panics; eauto.
Qed.
Lemma c_terminates s0 : exists bound, forall l s hT hP, rrun s0 l = Some (s, hT, hP) -> length l <= bound.
Proof. eexists. intros l s hT hP H. eapply rmu_run; eauto. Qed.
Lemma c_panic s0 l s hT hP : r_start nt np trackers dht = Some s0 -> rrun s0 l = Some (s, hT, hP) -> (forall k, announce k <> Panic) -> (forall p, fetch p <> Panic) ->
  r_main s <> MPanicked /\ (r_job s = JPanicked -> exists i, r_main s = MReturned (Some i)).
Proof.
  intros H0 H C1 C2. destruct (reach_inv _ _ _ _ _ H0 H) as (V & D & F). split.
  - intros E. destruct (panics _ _ _ _ _ _ _ _ _ _ V E) as (p & _ & X). eapply C2; eauto.
  - intros E. destruct (v_panic _ _ _ _ _ _ _ _ _ _ V E) as [(k & X)|X]; [exfalso; eapply C1; eauto|exact X].
Qed.
End R3.
