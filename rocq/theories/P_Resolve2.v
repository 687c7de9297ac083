From Verif Require Import Base BaseFacts M_Nursery S_Nursery P_Nursery M_Async S_Async M_Resolve S_Resolve P_Resolve.
From Coq Require Import Permutation.
Local Open Scope nat_scope.

(** When no worker can do anything. *)
Lemma wstuck {J R} (f : job J -> outcome R) (s : nst J R) : (forall e, wstep f s e = None) -> nstep s Recv = None -> stuck s.
Proof.
  intros ST RV e IN. destruct e; try discriminate IN; try exact RV.
  - exact (ST (KTake w)).
  - exact (ST (KCheck w)).
  - exact (ST (KStart w)).
  - specialize (ST (KFinish w)). cbn [wstep] in ST. cbn [nstep]. destruct (nth_error (n_workers s) w) as [[]|] eqn:E; try reflexivity.
    cbn [nstep] in ST. rewrite E in ST. discriminate.
  - exact (ST (KSend w)).
  - exact (ST (KQuit w)).
Qed.
Lemma stuck_ends {J R} n (s : nst J R) h : inv n s h -> n_alive s = true -> stuck s -> n_closed s = true -> nstep s End = Some (s, [OEnd]).
Proof.
  intros V AL ST CL. cbn [nstep]. rewrite (stuck_out _ ST AL), AL. cbn [andb].
  replace (forallb is_stopped (n_workers s)) with true; [reflexivity|]. symmetry. apply forallb_forall. intros w W.
  destruct (stuck_workers _ ST w W) as [->| ->]; [reflexivity|]. destruct (stuck_idle _ ST W) as (_ & X). congruence.
Qed.

Section Cost.
Context {J R : Type} (f : job J -> outcome R) (cost : outcome R -> nat).
Definition g (j : job J) : nat := cost (f j).
Definition gw (w : wstate J R) : nat :=
  match w with WStopped => 0 | WIdle => 1 | WSending _ r => 3 + cost r | WRunning j => 4 + g j | WReady j => 5 + g j | WGot j => 6 + g j end.
Definition wmu (s : nst J R) : nat := W (fun j => 6 + g j) (n_queue s) + W gw (n_workers s) + W (fun d => 1 + cost (snd d)) (n_out s).
Lemma wmu_step s e s' o : wstep f s e = Some (s', o) -> wmu s' < wmu s.
Proof.
  intros H. destruct e; cbn [wstep] in H.
  all: cbn [nstep] in H; destruct (nth_error (n_workers s) w) as [[]|] eqn:EW; try discriminate.
  all: repeat match type of H with
  | match ?x with _ => _ end = Some _ => destruct x eqn:?; try discriminate
  | (if ?x then _ else _) = Some _ => destruct x eqn:?; try discriminate
  end; injection H as <- <-; unfold wmu, set_w; cbn [n_queue n_workers n_out];
  match goal with E : nth_error (n_workers _) _ = Some _ |- context [set_nth _ _ ?y] => pose proof (W_set gw _ _ _ y E) as X end;
  cbn [gw] in X; rewrite ?W_app, ?W_cons, ?W_nil in *; cbn [snd] in *; unfold g in *; try lia.
  all: rewrite Heql; rewrite ?W_cons; lia.
Qed.
End Cost.

Section R2.
Context {T P A M : Type} (addr_eqb : A -> A -> bool) (addr : P -> A) (addr_eqb_spec : forall a b, addr_eqb a b = true <-> a = b).
Context (announce : nat -> outcome (list P)) (fetch : P -> outcome (option M)).
Context (nt np : nat) (trackers : list T) (found : list P).
Notation rst := (rst T P A M).
Notation rstep := (@rstep T P A M addr_eqb addr announce fetch).
Notation rrun := (@rrun T P A M addr_eqb addr announce fetch).
Notation rinv := (@rinv T P A M addr announce fetch nt np trackers found).
Implicit Types (s : rst) (hT : list (obs T (list P))) (hP : list (obs P (option M))).

Lemma no_tr s : (forall e, rstep s e = None) -> forall w, wstep (fun j => announce (fst j)) (r_trackers s) w = None.
Proof. intros ST w. specialize (ST (Tr w)). cbn [M_Resolve.rstep] in ST. destruct (wstep _ _ _) as [[]|]; [discriminate|reflexivity]. Qed.
Lemma no_pe s : (forall e, rstep s e = None) -> forall w, wstep (fun j => fetch (snd j)) (r_peers s) w = None.
Proof. intros ST w. specialize (ST (Pe w)). cbn [M_Resolve.rstep] in ST. destruct (wstep _ _ _) as [[]|]; [discriminate|reflexivity]. Qed.

Lemma progress s hT hP : rinv s hT hP -> (forall e, rstep s e = None) -> (exists r, r_main s = MReturned r) \/ r_main s = MPanicked.
Proof.
  intros V ST. pose proof (v_alive _ _ _ _ _ _ _ _ _ _ V) as AL. pose proof (v_spawn _ _ _ _ _ _ _ _ _ _ V) as SP.
  pose proof (ST Main) as SM. cbn [M_Resolve.rstep] in SM.
  destruct (r_main s) as [[|t rest]| |i|i|i|r|] eqn:EM; eauto; exfalso.
  - destruct SP as (_ & _ & S3 & _). cbn [nstep] in SM. rewrite S3 in SM. discriminate.
  - destruct SP as (_ & S2 & S3 & _). cbn [nstep] in SM. rewrite S3, S2 in SM. discriminate.
  - (* MLoop *)
    destruct (nstep (r_peers s) Recv) as [[pn o]|] eqn:ER; [discriminate|].
    pose proof (wstuck _ _ (no_pe s ST) ER) as SK.
    destruct (nstep (r_peers s) End) as [[pn o]|] eqn:EE; [discriminate|].
    assert (CL : n_closed (r_peers s) = false).
    { destruct (n_closed (r_peers s)) eqn:CL; [|reflexivity]. rewrite (stuck_ends _ _ _ (v_p _ _ _ _ _ _ _ _ _ _ V) AL SK CL) in EE. discriminate. }
    pose proof (v_handles _ _ _ _ _ _ _ _ _ _ V) as HN.
    assert (LV : live (r_job s) = true).
    { destruct (live (r_job s)); [reflexivity|]. rewrite (i_closed _ _ _ (v_p _ _ _ _ _ _ _ _ _ _ V)) in CL; [discriminate|auto]. }
    rewrite LV in HN. pose proof (ST Job) as SJ. cbn [M_Resolve.rstep] in SJ. pose proof (v_talive _ _ _ _ _ _ _ _ _ _ V) as TA.
    destruct (r_job s) as [| |p| | |] eqn:EJ; try discriminate LV.
    + destruct SP as (X & _). congruence.
    + destruct (r_cur s) as [|p cur].
      * assert (JE : job_ends s <> None). { unfold job_ends. cbn [nstep]. rewrite HN. discriminate. }
        destruct (job_ends s) as [pn|]; [|congruence].
        destruct (r_dht s) eqn:ED; [discriminate|].
        destruct (nstep (r_trackers s) Recv) as [[tn o]|] eqn:ET.
        -- assert (TA' : n_alive tn = true). { cbn [nstep] in ET. rewrite TA in ET. destruct (n_out (r_trackers s)) as [|[? ?] ?]; [discriminate|]. injection ET as <- <-. reflexivity. }
           assert (DS : nstep tn DropStream <> None). { cbn [nstep]. rewrite TA'. discriminate. }
           destruct (nstep tn DropStream) as [[? ?]|]; [|congruence].
           repeat match type of SJ with match ?x with _ => _ end = None => destruct x; try discriminate end.
        -- pose proof (wstuck _ _ (no_tr s ST) ET) as SKT. destruct (v_t _ _ _ _ _ _ _ _ _ _ V) as (n & VT & _).
           rewrite (stuck_ends _ _ _ VT TA SKT) in SJ; [discriminate|]. apply (i_closed _ _ _ VT). left. apply SP. reflexivity.
      * destruct (negb (r_dht s) && existsb (addr_eqb (addr p)) (r_seen s)); discriminate.
    + cbn [nstep] in SJ. rewrite HN, CL in SJ. discriminate.
  - discriminate.
  - cbn [nstep] in SM. rewrite AL in SM. discriminate.
  - discriminate.
Qed.

Definition cost (r : outcome (list P)) : nat := match r with Ret ps => 9 * length ps | Panic => 0 end.
Definition tf (j : job T) : outcome (list P) := announce (fst j).
Definition pf (j : job P) : outcome (option M) := fetch (snd j).
Definition mw (n : nat) (m : main_st T M) : nat :=
  match m with MSpawn rest => 20 + W (fun k => 7 + cost (announce k)) (seq n (length rest)) | MLoop => 10 | MGot _ => 4 | MDrop _ => 3 | MClose _ => 2 | _ => 0 end.
Definition jw (j : job_st P) : nat := match j with JNone => 3 | JNext => 2 | JHave _ => 9 | _ => 0 end.
Definition rmu s : nat := mw (n_next (r_trackers s)) (r_main s) + jw (r_job s) + 9 * length (r_cur s) + wmu tf cost (r_trackers s) + wmu pf (fun _ => 0) (r_peers s).
Lemma rmu_step s e s' o1 o2 : rstep s e = Some (s', o1, o2) -> rmu s' < rmu s.
Proof.
  intros H. destruct e as [| | |w|w]; cbn [M_Resolve.rstep] in H.
  - destruct (r_main s) as [[|t rest]| |i|i|i|r|] eqn:EM; cbn [nstep] in H; try discriminate;
    repeat match type of H with
    | match (match ?x with _ => _ end) with _ => _ end = Some _ => destruct x eqn:?; try discriminate
    | match (if ?x then _ else _) with _ => _ end = Some _ => destruct x eqn:?; try discriminate
    end; injection H as <- <- <-; unfold rmu, wmu, with_main; rewrite EM; cbn [r_main r_job r_trackers r_peers r_cur n_queue n_workers n_out n_next mw jw length seq];
    rewrite ?W_app, ?W_cons, ?W_nil; unfold g, tf, pf; cbn [fst snd]; try lia.
    all: try (match goal with E : n_out _ = _ |- _ => rewrite E end; rewrite ?W_cons, ?W_nil; repeat match goal with |- context [match ?x with _ => _ end] => destruct x end; cbn [mw]; lia).
  - destruct (r_job s) as [| |p| | |] eqn:EJ; try discriminate.
    + destruct (r_cur s) as [|p cur] eqn:EC.
      * unfold job_ends in H. destruct (r_dht s).
        -- cbn [nstep] in H. destruct (n_handles (r_peers s)); [discriminate|]. injection H as <- <- <-. unfold rmu, wmu. rewrite EJ, EC. cbn [r_main r_job r_trackers r_peers r_cur n_queue n_workers n_out n_next jw length]. lia.
        -- destruct (nstep (r_trackers s) Recv) as [[tn o]|] eqn:E.
           ++ cbn [nstep] in E. destruct (n_alive (r_trackers s)) eqn:ETA; [|discriminate]. destruct (n_out (r_trackers s)) as [|[j r] q] eqn:EQ; [discriminate|]. injection E as <- <-.
              destruct r as [ps|].
              ** injection H as <- <- <-. unfold rmu, wmu. rewrite EJ, EC, EQ. cbn [r_main r_job r_trackers r_peers r_cur n_queue n_workers n_out n_next jw length]. rewrite W_cons. cbn [snd cost]. lia.
              ** cbn [nstep n_alive] in H. destruct (n_handles (r_peers s)); [discriminate|]. injection H as <- <- <-. unfold rmu, wmu. rewrite EJ, EC, EQ. cbn [r_main r_job r_trackers r_peers r_cur n_queue n_workers n_out n_next jw length]. rewrite W_cons, W_nil. lia.
           ++ destruct (nstep (r_trackers s) End) as [[tn o]|] eqn:E2; [|discriminate].
              cbn [nstep] in E2. destruct (n_out (r_trackers s)) eqn:EQ; [|discriminate]. destruct (n_alive (r_trackers s) && _); [|discriminate]. injection E2 as <- <-.
              cbn [nstep n_alive] in H. destruct (n_handles (r_peers s)); [discriminate|]. injection H as <- <- <-. unfold rmu, wmu. rewrite EJ, EC, EQ. cbn [r_main r_job r_trackers r_peers r_cur n_queue n_workers n_out n_next jw length]. rewrite ?EQ. lia.
      * destruct (negb (r_dht s) && existsb (addr_eqb (addr p)) (r_seen s)); injection H as <- <- <-; unfold rmu; rewrite EJ, EC; cbn [r_main r_job r_trackers r_peers r_cur jw length]; lia.
    + cbn [nstep] in H. destruct (n_handles (r_peers s)) eqn:EH; [discriminate|]. destruct (n_closed (r_peers s)) eqn:ECL.
      * rewrite EH in H. destruct (n_alive (r_trackers s)); [|discriminate]. injection H as <- <- <-. unfold rmu, wmu. rewrite EJ. cbn [r_main r_job r_trackers r_peers r_cur n_queue n_workers n_out n_next jw length]. rewrite W_nil. lia.
      * injection H as <- <- <-. unfold rmu, wmu. rewrite EJ. cbn [r_main r_job r_trackers r_peers r_cur n_queue n_workers n_out n_next jw length]. rewrite W_app, W_cons, W_nil. unfold g. lia.
  - destruct (r_abort s); [|discriminate]. destruct (r_job s) eqn:EJ; try discriminate. unfold job_ends in H. cbn [nstep] in H.
    destruct (n_handles (r_peers s)); [discriminate|]. destruct (n_alive (r_trackers s)); [|discriminate]. injection H as <- <- <-. unfold rmu, wmu. rewrite EJ.
    cbn [r_main r_job r_trackers r_peers r_cur n_queue n_workers n_out n_next jw length]. rewrite W_nil. lia.
  - destruct (wstep _ (r_trackers s) w) as [[tn o]|] eqn:E; [|discriminate]. injection H as <- <- <-.
    pose proof (wmu_step tf cost _ _ _ _ E) as X. destruct (wstep_frame _ _ _ _ _ E) as (_ & _ & _ & _ & _ & NX & _).
    unfold rmu. cbn [r_main r_job r_trackers r_peers r_cur]. rewrite NX. lia.
  - destruct (wstep _ (r_peers s) w) as [[pn o]|] eqn:E; [|discriminate]. injection H as <- <- <-.
    pose proof (wmu_step pf (fun _ => 0) _ _ _ _ E) as X. unfold rmu. cbn [with_main r_main r_job r_trackers r_peers r_cur]. lia.
Qed.
Lemma rmu_run l : forall s s' h1 h2, rrun s l = Some (s', h1, h2) -> length l <= rmu s.
Proof.
  induction l as [|e l IH]; intros s s' h1 h2 H; cbn [M_Resolve.rrun] in H; [cbn; lia|].
  destruct (rstep s e) as [[[s1 t1] p1]|] eqn:E; [|discriminate]. destruct (rrun s1 l) as [[[s2 t2] p2]|] eqn:E2; [|discriminate].
  pose proof (rmu_step _ _ _ _ _ E). specialize (IH _ _ _ _ E2). cbn [length]. lia.
Qed.
End R2.
