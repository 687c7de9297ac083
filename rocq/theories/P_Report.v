(** Lemmas about what is logged about failures (M_Report, S_Report). *)
From Verif Require Import Base BaseFacts M_Nursery S_Nursery P_Nursery M_Resolve S_Resolve P_Resolve P_Resolve2 P_Resolve3 M_Report S_Report.
From Coq Require Import Permutation.
Local Open Scope nat_scope.

Lemma complement {X} (l l' : list X) : NoDup l -> incl l l' -> exists rest, Permutation (l ++ rest) l'.
Proof.
  revert l'. induction l as [|x l IH]; intros l' N I; [exists l'; reflexivity|].
  inversion N as [|y q NX NL]. subst. destruct (in_split x l' (I x (or_introl eq_refl))) as (a & b & ->).
  destruct (IH (a ++ b) NL) as (rest & R).
  - intros y Y. specialize (I y (or_intror Y)). rewrite in_app_iff in *. cbn [In] in I. destruct I as [I|[<-|I]]; [auto|contradiction|auto].
  - exists rest. cbn [app]. rewrite R. apply Permutation_middle.
Qed.
Lemma numbered {X} (l : list (nat * X)) n k x : map fst l = seq 0 n -> In (k, x) l -> nth_error (map snd l) k = Some x.
Proof.
  intros E IN. destruct (In_nth_error _ _ IN) as (i & I).
  assert (F : nth_error (map fst l) i = Some k) by (rewrite nth_error_map, I; reflexivity).
  assert (L : i < n). { rewrite <- (seq_length n 0), <- E. apply nth_error_Some. congruence. }
  rewrite E, nth_error_nth' with (d := 0) in F by (rewrite seq_length; exact L). rewrite seq_nth in F by exact L. injection F as <-.
  cbn [plus]. rewrite nth_error_map, I. reflexivity.
Qed.
Lemma numbered_back {X} (l : list (nat * X)) n k x : map fst l = seq 0 n -> nth_error (map snd l) k = Some x -> In (k, x) l.
Proof.
  intros E K. rewrite nth_error_map in K. destruct (nth_error l k) as [[k' x']|] eqn:EA; [|discriminate K]. injection K as ->.
  assert (k' = k) as ->; [|apply nth_error_In with (n := k); exact EA].
  assert (F : nth_error (map fst l) k = Some k') by (rewrite nth_error_map, EA; reflexivity).
  rewrite E in F. assert (LT : k < n). { rewrite <- (seq_length n 0). apply nth_error_Some. congruence. }
  rewrite nth_error_nth' with (d := 0) in F by (rewrite seq_length; exact LT). rewrite seq_nth in F by exact LT. injection F as <-. reflexivity.
Qed.
Lemma finish_nodup {J R} n (s : nst J R) h : inv n s h -> NoDup (map fst (map fst (finished h))) /\ NoDup (map fst (map fst (delivered h))) /\
  incl (map fst (finished h)) (accepted h) /\ incl (map fst (delivered h)) (accepted h).
Proof.
  intros V. pose proof (acc_nodup _ _ _ V) as ND.
  assert (A : incl (map fst (finished h)) (accepted h)). { intros x X. apply (i_from _ _ _ V). auto. }
  assert (L : forall k, cj k (map fst (finished h)) <= 1).
  { intros k. pose proof (cj_nodup k _ ND). pose proof (i_run _ _ _ V k). pose proof (i_pre _ _ _ V k).
    rewrite (i_queue _ _ _ V), cj_app in *. lia. }
  split; [apply nodup_cj; exact L|]. split; [apply nodup_cj; intros k; pose proof (L k); pose proof (i_send _ _ _ V k); lia|]. split; [exact A|].
  intros x X. apply A. apply in_map_iff in X. destruct X as ([j r] & <- & X). apply in_map_iff. exists (j, r). split; [reflexivity|]. apply (i_res _ _ _ V). auto.
Qed.

Section R.
Context {T P A M E X : Type} (addr_eqb : A -> A -> bool) (addr : P -> A) (addr_eqb_spec : forall a b, addr_eqb a b = true <-> a = b).
Context (announce : nat -> outcome (list P)) (fetch : P -> outcome (option M)) (te : nat -> option E) (pe : P -> option X).
Notation rst := (rst T P A M).
Notation rstep := (@rstep T P A M addr_eqb addr announce fetch).
Notation rrun := (@rrun T P A M addr_eqb addr announce fetch).
Notation lrun := (@lrun T P A M E X addr_eqb addr announce fetch te pe).
Notation writes := (@writes T P A M E X te pe).
Implicit Types (s : rst) (hT : list (obs T (list P))) (hP : list (obs P (option M))) (g : list (report T P E X)).

Definition t_of (l : list (job T * outcome (list P))) : list (nat * T * E) :=
  flat_map (fun d => match te (fst (fst d)) with Some e => [(fst (fst d), snd (fst d), e)] | None => [] end) l.
Definition p_of (l : list (job P * outcome (option M))) : list (P * X) :=
  flat_map (fun d => match snd d with Ret None => match pe (snd (fst d)) with Some e => [(snd (fst d), e)] | None => [] end | _ => [] end) l.

Lemma nstep_finished {J R} (s : nst J R) e (s' : nst J R) o : nstep s e = Some (s', o) -> (forall w r, e <> Finish w r) -> finished o = [].
Proof.
  intros H NF. destruct e; cbn [nstep] in H; try (exfalso; eapply NF; reflexivity);
  repeat match type of H with
  | match ?x with _ => _ end = Some _ => destruct x; try discriminate
  | (if ?x then _ else _) = Some _ => destruct x; try discriminate
  end; injection H as <- <-; try reflexivity. apply lost_obs.
Qed.
Lemma nstep_delivered {J R} (s : nst J R) e (s' : nst J R) o : nstep s e = Some (s', o) -> e <> Recv -> delivered o = [].
Proof.
  intros H NF. destruct e; cbn [nstep] in H; try (exfalso; eapply NF; reflexivity);
  repeat match type of H with
  | match ?x with _ => _ end = Some _ => destruct x; try discriminate
  | (if ?x then _ else _) = Some _ => destruct x; try discriminate
  end; injection H as <- <-; try reflexivity. apply lost_obs.
Qed.
Lemma writes_step s e s' o1 o2 : rstep s e = Some (s', o1, o2) ->
  tracker_reports (writes s e) = t_of (finished o1) /\ peer_reports (writes s e) = p_of (delivered o2).
Proof.
  intros H. destruct e as [| | |w|w]; cbn [M_Report.writes].
  - cbn [M_Resolve.rstep] in H. destruct (r_main s) as [[|t rest]| |i|i|i|r|] eqn:EM; try discriminate.
    + destruct (nstep _ _) as [[tn o]|] eqn:E1; [|discriminate]. injection H as <- <- <-.
      rewrite (nstep_finished _ _ _ _ E1) by discriminate. split; reflexivity.
    + destruct (nstep _ _) as [[tn o]|] eqn:E1; [|discriminate]. injection H as <- <- <-.
      rewrite (nstep_finished _ _ _ _ E1) by discriminate. split; reflexivity.
    + destruct (nstep (r_peers s) Recv) as [[pn o]|] eqn:E1.
      * injection H as <- <- <-. cbn [nstep] in E1. destruct (n_alive _); [|discriminate]. destruct (n_out (r_peers s)) as [|[[k p] r] q]; [discriminate|].
        injection E1 as <- <-. cbn [delivered pick flat_map app p_of snd fst]. destruct r as [[i|]|]; [split; reflexivity| |split; reflexivity].
        destruct (pe p); split; reflexivity.
      * destruct (nstep (r_peers s) End) as [[pn o]|] eqn:E2; [|discriminate]. injection H as <- <- <-.
        cbn [nstep] in E2. destruct (n_out (r_peers s)) as [|]; [|discriminate]. destruct (_ && _); [|discriminate]. injection E2 as <- <-. split; reflexivity.
    + injection H as <- <- <-. split; reflexivity.
    + destruct (nstep _ _) as [[tn o]|] eqn:E1; [|discriminate]. injection H as <- <- <-.
      rewrite (nstep_delivered _ _ _ _ E1) by discriminate. split; reflexivity.
    + destruct (nstep _ _) as [[tn o]|] eqn:E1; [|discriminate]. injection H as <- <- <-.
      rewrite (nstep_delivered _ _ _ _ E1) by discriminate. split; reflexivity.
  - cbn [M_Resolve.rstep] in H. destruct (r_job s) as [| |p| | |] eqn:EJ; try discriminate.
    + destruct (r_cur s) as [|p cur]; [|destruct (_ && _); injection H as <- <- <-; split; reflexivity].
      destruct (r_dht s); [destruct (job_ends s); [|discriminate]; injection H as <- <- <-; split; reflexivity|].
      destruct (nstep (r_trackers s) Recv) as [[tn o]|] eqn:E1.
      * cbn [nstep] in E1. destruct (n_alive _); [|discriminate]. destruct (n_out (r_trackers s)) as [|[j r] q]; [discriminate|]. injection E1 as <- <-.
        destruct r as [ps|]; [injection H as <- <- <-; split; reflexivity|].
        destruct (job_ends s); [|discriminate]. destruct (nstep _ DropStream) as [[tn' o']|] eqn:E2; [|discriminate]. injection H as <- <- <-.
        change (ODeliver j Panic :: o') with ([ODeliver j Panic] ++ o'). rewrite finished_app, (nstep_finished _ _ _ _ E2) by discriminate. split; reflexivity.
      * destruct (nstep (r_trackers s) End) as [[tn o]|] eqn:E2; [|discriminate]. destruct (job_ends s); [|discriminate]. injection H as <- <- <-.
        rewrite (nstep_finished _ _ _ _ E2) by discriminate. split; reflexivity.
    + destruct (nstep (r_peers s) (Spawn p)) as [[pn o]|] eqn:E1; [|discriminate]. pose proof (nstep_delivered _ _ _ _ E1 ltac:(discriminate)) as F.
      assert (G : forall tn o', nstep (r_trackers s) DropStream = Some (tn, o') -> finished o' = []).
      { intros tn o' E2. apply (nstep_finished _ _ _ _ E2). discriminate. }
      destruct (nstep (r_trackers s) DropStream) as [[tn o']|]; repeat match type of H with
        | match ?x with _ => _ end = Some _ => destruct x; try discriminate
        end; injection H as <- <- <-; rewrite ?F, ?(G _ _ eq_refl); split; reflexivity.
  - cbn [M_Resolve.rstep] in H. destruct (r_abort s); [|discriminate]. destruct (r_job s); try discriminate. destruct (job_ends s); [|discriminate].
    destruct (nstep _ _) as [[tn o]|] eqn:E1; [|discriminate]. injection H as <- <- <-.
    rewrite (nstep_finished _ _ _ _ E1) by discriminate. split; reflexivity.
  - cbn [M_Resolve.rstep] in H. destruct (wstep _ _ w) as [[tn o]|] eqn:E1; [|discriminate]. injection H as <- <- <-.
    destruct w as [w|w|w|w|w|w|w]; cbn [wstep] in E1; try (rewrite (nstep_finished _ _ _ _ E1) by discriminate; split; reflexivity).
    cbn [nstep] in E1. destruct (nth_error (n_workers (r_trackers s)) w) as [[| | |[k t]| |]|]; try discriminate. injection E1 as <- <-.
    cbn [finished pick flat_map app t_of fst snd]. destruct (te k); split; reflexivity.
  - cbn [M_Resolve.rstep] in H. destruct (wstep _ _ w) as [[tn o]|] eqn:E1; [|discriminate]. injection H as <- <- <-.
    destruct (wstep_frame _ _ _ _ _ E1) as (_ & _ & _ & _ & _ & _ & _ & OD & _). rewrite OD. split; reflexivity.
Qed.
Lemma reports_app a b : tracker_reports (a ++ b : list (report T P E X)) = tracker_reports a ++ tracker_reports b /\ peer_reports (a ++ b) = peer_reports a ++ peer_reports b.
Proof. split; apply flat_map_app. Qed.
Lemma lrun_run l : forall s s' hT hP g, lrun s l = Some (s', hT, hP, g) ->
  rrun s l = Some (s', hT, hP) /\ tracker_reports g = t_of (finished hT) /\ peer_reports g = p_of (delivered hP).
Proof.
  induction l as [|e l IH]; intros s s' hT hP g H; cbn [M_Report.lrun M_Resolve.rrun] in *; [injection H as <- <- <- <-; auto|].
  destruct (rstep s e) as [[[s1 t1] p1]|] eqn:E1; [|discriminate]. destruct (lrun s1 l) as [[[[s2 t2] p2] g2]|] eqn:E2; [|discriminate]. injection H as <- <- <- <-.
  destruct (IH _ _ _ _ _ E2) as (-> & IT & IP). destruct (writes_step _ _ _ _ _ E1) as (WT & WP). split; [reflexivity|].
  destruct (reports_app (writes s e) g2) as (-> & ->). rewrite finished_app, delivered_app, WT, WP, IT, IP. unfold t_of, p_of. rewrite !flat_map_app. auto.
Qed.
Lemma run_lrun l : forall s s' hT hP, rrun s l = Some (s', hT, hP) -> exists g, lrun s l = Some (s', hT, hP, g).
Proof.
  induction l as [|e l IH]; intros s s' hT hP H; cbn [M_Report.lrun M_Resolve.rrun] in *; [injection H as <- <- <-; eauto|].
  destruct (rstep s e) as [[[s1 t1] p1]|] eqn:E1; [|discriminate]. destruct (rrun s1 l) as [[[s2 t2] p2]|] eqn:E2; [|discriminate]. injection H as <- <- <-.
  destruct (IH _ _ _ _ E2) as (g & ->). eauto.
Qed.

Lemma p_of_part l : exists rest, Permutation (map fst (p_of l) ++ rest) (map (fun d => snd (fst d)) l).
Proof.
  induction l as [|[[k p] r] l (rest & IH)]; [exists []; reflexivity|].
  assert (S : exists rest, Permutation (map fst (p_of l) ++ rest) (p :: map (fun d => snd (fst d)) l)).
  { exists (p :: rest). rewrite <- IH. symmetry. apply Permutation_middle. }
  cbn [p_of flat_map map fst snd]. destruct r as [[i|]|]; cbn [app]; auto. destruct (pe p) as [e|]; cbn [app]; auto.
  exists rest. cbn [map fst app]. constructor. exact IH.
Qed.
Lemma p_of_sound l : Forall (fun r => pe (fst r) = Some (snd r)) (p_of l).
Proof.
  induction l as [|[[k p] r] l IH]; [constructor|]. cbn [p_of flat_map fst snd]. destruct r as [[i|]|]; cbn [app]; auto.
  destruct (pe p) as [e|] eqn:E0; cbn [app]; auto.
Qed.
Lemma p_of_all l : (forall d, In d l -> fetch (snd (fst d)) = Ret None -> pe (snd (fst d)) <> None) -> (forall d, In d l -> snd d = Ret None /\ fetch (snd (fst d)) = Ret None) ->
  map fst (p_of l) = map (fun d => snd (fst d)) l.
Proof.
  induction l as [|[[k p] r] l IH]; intros W ALL; [reflexivity|].
  destruct (ALL _ (or_introl eq_refl)) as (R & F). cbn [fst snd] in R, F. subst r. cbn [p_of flat_map fst snd map].
  pose proof (W _ (or_introl eq_refl) F) as WP. cbn [fst snd] in WP. destruct (pe p); [|contradiction]. cbn [app map fst]. f_equal.
  apply IH; intros d D; [apply W|apply ALL]; right; exact D.
Qed.

Context (nt np : nat) (trackers : list T) (dht : option (list P)).
Notation rinv := (@rinv T P A M addr announce fetch nt np trackers (found_of dht)).
Lemma delivered_part s hT hP : rinv s hT hP -> exists rest, Permutation (map (fun d => snd (fst d)) (delivered hP) ++ rest) (contacted hP).
Proof.
  intros V. destruct (finish_nodup _ _ _ (v_p _ _ _ _ _ _ _ _ _ _ V)) as (_ & N & _ & I).
  destruct (complement _ _ (NoDup_map_inv _ _ N) I) as (rest & R). exists (map snd rest). apply (Permutation_map snd) in R.
  rewrite map_app, map_map in R. exact R.
Qed.
(** At any time: true, and at most once *)
Lemma peers_any s0 l s hT hP g : r_start nt np trackers dht = Some s0 -> lrun s0 l = Some (s, hT, hP, g) ->
  Forall (fun r => pe (fst r) = Some (snd r)) (peer_reports g) /\ exists rest, Permutation (map fst (peer_reports g) ++ rest) (contacted hP).
Proof.
  intros H0 H. apply lrun_run in H. destruct H as (H & _ & ->). destruct (reach_inv _ _ addr_eqb_spec _ _ _ _ _ _ _ _ _ _ _ H0 H) as (V & _).
  split; [apply p_of_sound|]. destruct (p_of_part (delivered hP)) as (r1 & R1). destruct (delivered_part _ _ _ V) as (r2 & R2).
  exists (r1 ++ r2). rewrite app_assoc, R1. exact R2.
Qed.
Lemma delivered_miss s hT hP : rinv s hT hP -> misses (results hP) -> forall d, In d (delivered hP) -> snd d = Ret None /\ fetch (snd (fst d)) = Ret None.
Proof.
  intros V MI [j r] D. cbn [fst snd]. assert (Y : In (snd j, r) (results hP)). { unfold results. apply in_map_iff. exists (j, r). auto. }
  pose proof (MI _ _ Y) as R. split; [exact R|]. rewrite <- R. symmetry. exact (proj2 (results_fetch _ _ _ _ _ _ _ _ _ _ V _ _ Y)).
Qed.
Lemma delivered_why s hT hP : rinv s hT hP -> (forall j r, In (j, r) (finished hP) -> fetch (snd j) = Ret None -> pe (snd j) <> None) ->
  forall d, In d (delivered hP) -> fetch (snd (fst d)) = Ret None -> pe (snd (fst d)) <> None.
Proof. intros V W [j r] D. cbn [fst]. apply (W j r). apply (i_res _ _ _ (v_p _ _ _ _ _ _ _ _ _ _ V)). auto. Qed.
Lemma peers_failure s0 l s hT hP g : np <> 0 -> (forall j r, In (j, r) (finished hP) -> fetch (snd j) = Ret None -> pe (snd j) <> None) ->
  r_start nt np trackers dht = Some s0 -> lrun s0 l = Some (s, hT, hP, g) -> r_main s = MReturned None ->
  Permutation (map fst (peer_reports g)) (contacted hP).
Proof.
  intros N0 W H0 H EM. apply lrun_run in H. destruct H as (H & _ & ->). destruct (reach_inv _ _ addr_eqb_spec _ _ _ _ _ _ _ _ _ _ _ H0 H) as (V & _).
  pose proof (v_res _ _ _ _ _ _ _ _ _ _ V) as RES. rewrite EM in RES. cbn [got] in RES.
  rewrite (p_of_all _ (delivered_why _ _ _ V W) (delivered_miss _ _ _ V RES)).
  pose proof (v_alive _ _ _ _ _ _ _ _ _ _ V) as AL. rewrite EM in AL.
  destruct (ended np _ _ N0 (v_p _ _ _ _ _ _ _ _ _ _ V) (v_end _ _ _ _ _ _ _ _ _ _ V EM) AL (proj2 (v_done _ _ _ _ _ _ _ _ _ _ V))) as (PM & _).
  apply (Permutation_map snd) in PM. rewrite map_map in PM. exact PM.
Qed.
Lemma peers_success s0 l s hT hP g i : (forall j r, In (j, r) (finished hP) -> fetch (snd j) = Ret None -> pe (snd j) <> None) ->
  r_start nt np trackers dht = Some s0 -> lrun s0 l = Some (s, hT, hP, g) -> r_main s = MReturned (Some i) ->
  exists p rest, fetch p = Ret (Some i) /\ Permutation (map fst (peer_reports g) ++ p :: rest) (contacted hP) /\ map fst (results hP) = map fst (peer_reports g) ++ [p].
Proof.
  intros W H0 H EM. apply lrun_run in H. destruct H as (H & _ & ->). destruct (reach_inv _ _ addr_eqb_spec _ _ _ _ _ _ _ _ _ _ _ H0 H) as (V & _).
  destruct (success addr announce fetch nt np trackers (found_of dht) s hT hP i V EM) as (before & p & R & MI & FP & _).
  destruct (delivered_part _ _ _ V) as (rest & PM).
  unfold results in R. destruct (map_eq_app _ _ _ _ R) as (d1 & d2 & ED & E1 & E2).
  destruct d2 as [|[j r] [|]]; try discriminate. injection E2 as E2 E3. subst p r.
  assert (A1 : map fst (p_of d1) = map (fun d => snd (fst d)) d1).
  { apply p_of_all; [intros d D; apply (delivered_why _ _ _ V W); rewrite ED; apply in_or_app; left; exact D|]. intros [j' r'] D. cbn [fst snd].
    assert (Y : In (snd j', r') before). { rewrite <- E1. apply in_map_iff. exists (j', r'). auto. }
    pose proof (MI _ Y) as Z. cbn [snd] in Z. split; [exact Z|]. rewrite <- Z. symmetry.
    eapply results_fetch; [exact V|]. unfold results. rewrite R. apply in_or_app. left. exact Y. }
  assert (A2 : p_of (delivered hP) = p_of d1). { rewrite ED. unfold p_of. rewrite flat_map_app. cbn. apply app_nil_r. }
  exists (snd j), rest. split; [exact FP|]. rewrite A2, A1. rewrite ED, map_app, <- app_assoc in PM. split; [exact PM|].
  unfold results. rewrite map_map, ED, map_app. reflexivity.
Qed.

Lemma t_of_in l k t e : In (k, t, e) (t_of l) <-> te k = Some e /\ In (k, t) (map fst l).
Proof.
  unfold t_of. rewrite in_flat_map, in_map_iff. split.
  - intros ([[k' t'] r] & IN & H). cbn [fst snd] in H. destruct (te k') eqn:E0; [|destruct H]. destruct H as [H|[]]. injection H as -> -> ->.
    split; [exact E0|]. exists (k, t, r). auto.
  - intros (E0 & [[k' t'] r] & EQ & IN). cbn [fst] in EQ. injection EQ as -> ->. exists (k, t, r). split; [exact IN|]. cbn [fst snd]. rewrite E0. left. reflexivity.
Qed.
Lemma t_of_nodup l : NoDup (map fst (map fst l)) -> NoDup (map (fun r => fst (fst r)) (t_of l)).
Proof.
  induction l as [|[[k t] r] l IH]; intros N; [constructor|]. cbn [map fst] in N. inversion N as [|x q N1 N2]. subst.
  cbn [t_of flat_map fst snd]. destruct (te k) as [e|]; cbn [app]; [|auto]. cbn [map fst]. constructor; [|auto].
  intros Y. apply N1. apply in_map_iff in Y. destruct Y as ([[k' t'] e'] & EQ & Y). cbn [fst] in EQ. subst k'. apply t_of_in in Y. destruct Y as (_ & Y).
  apply in_map_iff. exists (k, t'). auto.
Qed.
Lemma spawned s hT hP : rinv s hT hP -> (r_dht s = true -> accepted hT = []) -> exists rest, trackers = map snd (accepted hT) ++ rest.
Proof.
  intros V D. pose proof (v_spawn _ _ _ _ _ _ _ _ _ _ V) as SP. destruct (r_dht s) eqn:ED; [rewrite D by reflexivity; exists trackers; reflexivity|].
  destruct (r_main s); try (exists []; rewrite app_nil_r; symmetry; apply SP; reflexivity). destruct SP as (SP & _). eauto.
Qed.
Lemma trackers_any s0 l s hT hP g : r_start nt np trackers dht = Some s0 -> lrun s0 l = Some (s, hT, hP, g) ->
  NoDup (map (fun r => fst (fst r)) (tracker_reports g)) /\ forall k t e, In (k, t, e) (tracker_reports g) -> nth_error trackers k = Some t /\ te k = Some e.
Proof.
  intros H0 H. apply lrun_run in H. destruct H as (H & -> & _). destruct (reach_inv _ _ addr_eqb_spec _ _ _ _ _ _ _ _ _ _ _ H0 H) as (V & _).
  destruct (v_t _ _ _ _ _ _ _ _ _ _ V) as (n & VT & _). destruct (finish_nodup _ _ _ VT) as (N & _ & I & _).
  split; [apply t_of_nodup; exact N|]. intros k t e Y. apply t_of_in in Y. destruct Y as (E0 & Y). split; [|exact E0].
  apply I in Y. pose proof (numbered _ _ _ _ (i_num _ _ _ VT) Y) as Z. destruct (spawned _ _ _ V (v_dht _ _ _ _ _ _ _ _ _ _ V)) as (rest & ->).
  rewrite nth_error_app1; [exact Z|]. apply nth_error_Some. congruence.
Qed.
Lemma trackers_failure s0 l s hT hP g : np <> 0 -> nt <> 0 -> (forall k, announce k <> Panic) ->
  r_start nt np trackers dht = Some s0 -> lrun s0 l = Some (s, hT, hP, g) -> r_main s = MReturned None ->
  forall k t e, nth_error trackers k = Some t -> te k = Some e -> In (k, t, e) (tracker_reports g).
Proof.
  intros N0 N1 CALM H0 H E0 k t e K TE. apply lrun_run in H. destruct H as (H & -> & _). destruct (reach_inv _ _ addr_eqb_spec _ _ _ _ _ _ _ _ _ _ _ H0 H) as (V & DT & _).
  apply t_of_in. split; [exact TE|].
  assert (D : r_dht s = false). { destruct (r_dht s); [|reflexivity]. rewrite (proj1 DT eq_refl) in K. destruct k; discriminate. }
  pose proof (v_alive _ _ _ _ _ _ _ _ _ _ V) as AL. rewrite E0 in AL.
  destruct (ended np _ _ N0 (v_p _ _ _ _ _ _ _ _ _ _ V) (v_end _ _ _ _ _ _ _ _ _ _ V E0) AL (proj2 (v_done _ _ _ _ _ _ _ _ _ _ V))) as (PM & CL).
  assert (JD : r_job s = JDone).
  { destruct (v_closed _ _ _ _ _ _ _ _ _ _ V CL) as [L|(i & L)]; [|congruence]. destruct (r_job s) eqn:EJ; try discriminate; [reflexivity| |].
    - exfalso. apply (v_abort _ _ _ _ _ _ _ _ _ _ V); [apply (v_aborted _ _ _ _ _ _ _ _ _ _ V); exact EJ|]. rewrite E0. reflexivity.
    - exfalso. destruct (v_panic _ _ _ _ _ _ _ _ _ _ V EJ) as [(k' & K')|(i & K')]; [eapply CALM; eauto|congruence]. }
  destruct (v_done_flow _ _ _ _ _ _ _ _ _ _ V JD) as (_ & D2). destruct (D2 D) as (EN & TAL & _).
  destruct (v_t _ _ _ _ _ _ _ _ _ _ V) as (n & VT & VN). specialize (VN D). subst n.
  destruct (ended nt _ _ N1 VT EN TAL (proj1 (v_done _ _ _ _ _ _ _ _ _ _ V))) as (PT & _).
  assert (SP : map snd (accepted hT) = trackers). { pose proof (v_spawn _ _ _ _ _ _ _ _ _ _ V) as SP. rewrite E0 in SP. apply SP. exact D. }
  assert (IN : In (k, t) (accepted hT)). { apply (numbered_back _ _ _ _ (i_num _ _ _ VT)). rewrite <- SP in K. exact K. }
  apply (Permutation_in _ (Permutation_sym PT)) in IN. apply in_map_iff in IN. destruct IN as ([j r] & EJ & IN). cbn [fst] in EJ. subst j.
  apply in_map_iff. exists (k, t, r). split; [reflexivity|]. apply (i_res _ _ _ VT). auto.
Qed.
End R.
