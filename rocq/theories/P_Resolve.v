From Verif Require Import Base BaseFacts M_Nursery S_Nursery P_Nursery M_Async S_Async M_Resolve S_Resolve.
From Coq Require Import Permutation.
Local Open Scope nat_scope.

Lemma accepted_app {J R} (a b : list (obs J R)) : accepted (a ++ b) = accepted a ++ accepted b.
Proof. apply pick_app. Qed.
Lemma delivered_app {J R} (a b : list (obs J R)) : delivered (a ++ b) = delivered a ++ delivered b.
Proof. apply pick_app. Qed.
Lemma finished_app {J R} (a b : list (obs J R)) : finished (a ++ b) = finished a ++ finished b.
Proof. apply pick_app. Qed.
Lemma lost_obs {J R} (q : list (job J * outcome R)) : accepted (map (fun p => OLost (fst p) (snd p)) q) = [] /\
  delivered (map (fun p => OLost (fst p) (snd p)) q) = [] /\ finished (map (fun p => OLost (fst p) (snd p)) q) = [].
Proof. induction q as [|x q IH]; [repeat split|exact IH]. Qed.
(** What a worker's step changes. *)
Lemma wstep_frame {J R} (f : job J -> outcome R) s e s' o : wstep f s e = Some (s', o) ->
  (exists e', nstep s e' = Some (s', o)) /\
  n_handles s' = n_handles s /\ n_closed s' = n_closed s /\ n_done s' = n_done s /\ n_alive s' = n_alive s /\ n_next s' = n_next s /\
  accepted o = [] /\ delivered o = [] /\ ~ In OEnd o /\ (forall j r, In (j, r) (finished o) -> r = f j).
Proof.
  intros H.
  assert (E : exists e', nstep s e' = Some (s', o) /\ match e' with Take _ | Check _ | Start _ | Send _ | Quit _ | Abort _ => True
     | Finish w r => exists j, nth_error (n_workers s) w = Some (WRunning j) /\ r = f j | _ => False end).
  { destruct e; cbn [wstep] in H; try (eexists; split; [exact H|exact I]).
    destruct (nth_error (n_workers s) w) as [[| | |j| |]|] eqn:E; try discriminate. eexists. split; [exact H|]. exists j. auto. }
  destruct E as (e' & E & C). split; [eauto|]. clear H.
  destruct e'; try contradiction; cbn [nstep] in E;
  repeat match type of E with
  | match ?x with _ => _ end = Some _ => destruct x eqn:?; try discriminate
  | (if ?x then _ else _) = Some _ => destruct x eqn:?; try discriminate
  end; injection E as <- <-; cbn [set_w n_queue n_closed n_done n_handles n_workers n_out n_alive n_next];
  conjs; auto; try (intros [X|[]]; discriminate); try (intros []; fail); try (intros ? ? []; fail).
  intros j1 r1 [X|[]]. injection X as <- <-. destruct C as (j0 & E & ->). congruence.
Qed.

Section R.
Context {T P A M : Type} (addr_eqb : A -> A -> bool) (addr : P -> A) (addr_eqb_spec : forall a b, addr_eqb a b = true <-> a = b).
Context (announce : nat -> outcome (list P)) (fetch : P -> outcome (option M)).
Context (nt np : nat) (trackers : list T) (found : list P).
Notation rst := (rst T P A M).
Notation rstep := (@rstep T P A M addr_eqb addr announce fetch).
Notation rrun := (@rrun T P A M addr_eqb addr announce fetch).
Implicit Types (s : rst) (hT : list (obs T (list P))) (hP : list (obs P (option M))).

Definition have (j : job_st P) : list P := match j with JHave p => [p] | _ => [] end.
Definition pulled (dht : bool) hT : list P := if dht then found else reported hT.
Definition misses (l : list (P * outcome (option M))) : Prop := forall p r, In (p, r) l -> r = Ret None.
Definition got (m : main_st T M) : option M :=
  match m with MGot i | MDrop i | MClose i | MReturned (Some i) => Some i | _ => None end.
Definition live (j : job_st P) : bool := match j with JNone | JNext | JHave _ => true | _ => false end.

Record rinv (s : rst) hT hP : Prop := {
  v_t : exists n, inv n (r_trackers s) hT /\ (r_dht s = false -> n = nt);
  v_p : inv np (r_peers s) hP;
  v_ft : forall j r, In (j, r) (finished hT) -> r = announce (fst j);
  v_fp : forall j r, In (j, r) (finished hP) -> r = fetch (snd j);
  v_done : n_done (r_trackers s) = false /\ n_done (r_peers s) = false;
  v_spawn : match r_main s with
            | MSpawn rest => map snd (accepted hT) ++ rest = trackers /\ n_closed (r_trackers s) = false /\ n_handles (r_trackers s) = 1
                             /\ r_job s = JNone /\ r_dht s = false
            | _ => r_job s <> JNone /\ (r_dht s = false -> map snd (accepted hT) = trackers /\ n_handles (r_trackers s) = 0)
            end;
  v_flow : exists consumed, (if live (r_job s) then pulled (r_dht s) hT = consumed ++ r_cur s else exists left, pulled (r_dht s) hT = consumed ++ left) /\
             (exists out, (if r_dht s then out = consumed else firsts addr consumed out) /\
                (out = contacted hP ++ have (r_job s) \/ (r_job s = JPanicked /\ exists p, out = contacted hP ++ [p]))) /\
             (forall a, In a (r_seen s) <-> In a (map addr consumed));
  v_done_flow : r_job s = JDone -> (r_dht s = true -> contacted hP = found) /\
                  (r_dht s = false -> In OEnd hT /\ n_alive (r_trackers s) = true /\ firsts addr (reported hT) (contacted hP));
  v_res : match r_main s with
          | MPanicked => exists p, In p (contacted hP) /\ fetch p = Panic
          | m => match got m with
                 | Some i => exists l p, results hP = l ++ [(p, Ret (Some i))] /\ misses l
                 | None => misses (results hP)
                 end
          end;
  v_handles : n_handles (r_peers s) = if live (r_job s) then 1 else 0;
  v_closed : n_closed (r_peers s) = true -> live (r_job s) = false \/ exists i, r_main s = MReturned (Some i);
  v_alive : n_alive (r_peers s) = match r_main s with MClose _ | MReturned (Some _) => false | _ => true end;
  v_talive : n_alive (r_trackers s) = match r_job s with JAborted | JPanicked => false | _ => true end;
  v_abort : r_abort s = true -> got (r_main s) <> None;
  v_aborted : r_job s = JAborted -> r_abort s = true;
  v_panic : r_job s = JPanicked -> (exists k, announce k = Panic) \/ exists i, r_main s = MReturned (Some i);
  v_end : r_main s = MReturned None -> In OEnd hP;
  v_dht : r_dht s = true -> accepted hT = []
}.
Ltac flds := cbn [with_main r_main r_job r_trackers r_peers r_cur r_seen r_dht r_abort got live have] in *.
Lemma seen_spec a l : existsb (addr_eqb a) l = true <-> In a l.
Proof. rewrite existsb_exists. split; [intros (x & IN & E); apply addr_eqb_spec in E; subst; exact IN|intros IN; exists a; split; [exact IN|apply addr_eqb_spec; reflexivity]]. Qed.
Lemma contacted_same hP o : accepted o = [] -> contacted (hP ++ o) = contacted hP.
Proof. intros E. unfold contacted. rewrite accepted_app, E, app_nil_r. reflexivity. Qed.
Lemma results_same hP o : delivered o = [] -> results (hP ++ o) = results hP.
Proof. intros E. unfold results. rewrite delivered_app, E, app_nil_r. reflexivity. Qed.
Lemma reported_same hT o : delivered o = [] -> reported (hT ++ o) = reported hT.
Proof. intros E. unfold reported. rewrite delivered_app, E, app_nil_r. reflexivity. Qed.
Lemma pulled_same d hT o : delivered o = [] -> pulled d (hT ++ o) = pulled d hT.
Proof. intros E. unfold pulled. rewrite reported_same by exact E. reflexivity. Qed.
Lemma finished_in {J R} (f : job J -> outcome R) h o : (forall j r, In (j, r) (finished h) -> r = f j) -> (forall j r, In (j, r) (finished o) -> r = f j) ->
  forall j r, In (j, r) (finished (h ++ o)) -> r = f j.
Proof. intros A1 A2 j r. rewrite finished_app, in_app_iff. intros [X|X]; auto. Qed.
Lemma rinv_step s hT hP e s' o1 o2 : rinv s hT hP -> rstep s e = Some (s', o1, o2) -> rinv s' (hT ++ o1) (hP ++ o2).
Proof.
  intros V H. destruct V as [(n & VT & VN) VP FT FP (DT & DP) SPN FLOW DFLOW RES HAND CLOS AL TAL AB ABD PAN EN DHT].
  destruct e as [| | |w|w]; cbn [M_Resolve.rstep] in H.
  - (* Main *)
    destruct (r_main s) as [[|t rest]| |i|i|i|r|] eqn:EM.
    + (* MSpawn [] *)
      destruct SPN as (S1 & S2 & S3 & S4 & S5). rewrite app_nil_r in S1.
      destruct (nstep (r_trackers s) DropHandle) as [[tn o]|] eqn:E; [|discriminate]. injection H as <- <- <-.
      pose proof (inv_step _ _ _ _ _ _ VT E) as VT'.
      cbn [nstep] in E. rewrite S3 in E. injection E as <- <-. rewrite S4 in *. rewrite app_nil_r in VT'. rewrite !app_nil_r. flds.
      split; flds; cbn [n_done n_handles n_alive]; try assumption; try discriminate.
      * exists n. auto.
      * auto.
      * split; [discriminate|]. auto.
      * destruct FLOW as (c & F1 & (out & F2 & [F4|(F4 & _)]) & F3); [|discriminate]. exists c. eauto 6.
      * intros X. destruct (CLOS X) as [Y|(? & Y)]; discriminate.
    + (* MSpawn *)
      destruct SPN as (S1 & S2 & S3 & S4 & S5).
      destruct (nstep (r_trackers s) (Spawn t)) as [[tn o]|] eqn:E; [|discriminate].
      pose proof (inv_step _ _ _ _ _ _ VT E) as VT'.
      cbn [nstep] in E. rewrite S3, S2 in E. injection E as <- <-. injection H as <- <- <-. rewrite app_nil_r. rewrite S5 in *.
      set (o := [OAccept (n_next (r_trackers s), t)]) in *.
      rewrite S4 in *. flds.
      split; flds; cbn [n_done n_handles n_alive n_closed]; try assumption; try discriminate.
      * exists n. auto.
      * apply (finished_in (fun j => announce (fst j))); [exact FT|intros ? ? []].
      * auto.
      * rewrite accepted_app, map_app, <- app_assoc. auto.
      * rewrite pulled_same by reflexivity. exact FLOW.
      * intros X. destruct (CLOS X) as [Y|(? & Y)]; discriminate.
    + (* MLoop *)
      destruct (nstep (r_peers s) Recv) as [[pn o]|] eqn:E.
      * pose proof (inv_step _ _ _ _ _ _ VP E) as VP'.
        cbn [nstep] in E. rewrite AL in E. destruct (n_out (r_peers s)) as [|(j & r) q] eqn:EQ; [discriminate|]. injection E as <- <-.
        assert (FR : r = fetch (snd j) /\ In (snd j) (contacted hP)).
        { assert (X : In (j, r) (finished hP)). { apply (i_res _ _ _ VP). rewrite EQ. right. left. left. reflexivity. }
          split; [apply FP; exact X|]. unfold contacted. apply in_map. apply (i_from _ _ _ VP). right. right. right. left. apply in_map_iff. exists (j, r). auto. }
        destruct FR as (FR & FC). injection H as <- <- <-. rewrite app_nil_r. flds.
        set (o := [ODeliver j r]) in *.
        assert (RS : results (hP ++ o) = results hP ++ [(snd j, r)]). { unfold results. rewrite delivered_app, map_app. reflexivity. }
        assert (CS : contacted (hP ++ o) = contacted hP) by (apply contacted_same; reflexivity).
        split; flds; rewrite ?CS; cbn [n_done n_handles n_alive n_closed]; try assumption.
        -- exists n. auto.
        -- apply (finished_in (fun j => fetch (snd j))); [exact FP|intros ? ? []].
        -- auto.
        -- destruct r as [[i|]|]; exact SPN.
        -- rewrite RS. destruct r as [[i|]|]; cbn [got].
           ++ exists (results hP), (snd j). auto.
           ++ intros p r. rewrite in_app_iff. intros [X|[X|[]]]; [eapply RES; eauto|congruence].
           ++ exists (snd j). auto.
        -- intros X. left. destruct (CLOS X) as [Y|(? & Y)]; [exact Y|discriminate].
        -- destruct r as [[i|]|]; reflexivity.
        -- intros X. apply AB in X. congruence.
        -- intros X. left. destruct (PAN X) as [Y|(? & Y)]; [exact Y|discriminate].
        -- destruct r as [[i|]|]; discriminate.
      * destruct (nstep (r_peers s) End) as [[pn o]|] eqn:E2; [|discriminate]. injection H as <- <- <-.
        pose proof (inv_step _ _ _ _ _ _ VP E2) as VP'.
        cbn [nstep] in E2. rewrite AL in E2. destruct (n_out (r_peers s)) eqn:EQ; [|discriminate].
        destruct (true && forallb is_stopped (n_workers (r_peers s))); [|discriminate]. injection E2 as <- <-.
        rewrite app_nil_r. flds.
        assert (CS : contacted (hP ++ [OEnd]) = contacted hP) by (apply contacted_same; reflexivity).
        split; flds; rewrite ?CS; try assumption.
        -- exists n. auto.
        -- apply (finished_in (fun j => fetch (snd j))); [exact FP|intros ? ? []].
        -- auto.
        -- rewrite results_same by reflexivity. exact RES.
        -- intros X. left. destruct (CLOS X) as [Y|(? & Y)]; [exact Y|discriminate].
        -- intros X. left. destruct (PAN X) as [Y|(? & Y)]; [exact Y|discriminate].
        -- intros _. apply in_or_app. right. left. reflexivity.
    + (* MGot *)
      injection H as <- <- <-. rewrite !app_nil_r. flds.
      split; flds; try assumption; try discriminate.
      * exists n. auto.
      * auto.
      * intros X. left. destruct (CLOS X) as [Y|(? & Y)]; [exact Y|discriminate].
      * reflexivity.
      * intros X. left. destruct (PAN X) as [Y|(? & Y)]; [exact Y|discriminate].
    + (* MDrop *)
      destruct (nstep (r_peers s) DropStream) as [[pn o]|] eqn:E; [|discriminate]. injection H as <- <- <-.
      pose proof (inv_step _ _ _ _ _ _ VP E) as VP'.
      cbn [nstep] in E. rewrite AL in E. injection E as <- <-. rewrite app_nil_r. flds.
      set (o := map _ (n_out (r_peers s))) in *.
      assert (OA : accepted o = []). { apply lost_obs. }
      assert (OD : delivered o = []). { apply lost_obs. }
      assert (OF : finished o = []). { apply lost_obs. }
      split; flds; rewrite ?(contacted_same hP o OA), ?(results_same hP o OD); cbn [n_done n_handles n_alive n_closed]; try assumption; try discriminate.
      * exists n. auto.
      * apply (finished_in (fun j => fetch (snd j))); [exact FP|rewrite OF; intros ? ? []].
      * auto.
      * intros X. left. destruct (CLOS X) as [Y|(? & Y)]; [exact Y|discriminate].
      * reflexivity.
      * intros X. left. destruct (PAN X) as [Y|(? & Y)]; [exact Y|discriminate].
    + (* MClose *)
      destruct (nstep (r_peers s) Close) as [[pn o]|] eqn:E; [|discriminate]. injection H as <- <- <-.
      pose proof (inv_step _ _ _ _ _ _ VP E) as VP'.
      cbn [nstep] in E. injection E as <- <-. rewrite !app_nil_r in *. flds.
      split; flds; cbn [n_done n_handles n_alive n_closed]; try assumption; try discriminate.
      * exists n. auto.
      * auto.
      * intros X. right. eauto.
      * intros X. right. eauto.
    + discriminate.
    + discriminate.
  - (* Job *)
    destruct (r_job s) as [| |p| | |] eqn:EJ; try discriminate.
    + (* JNext *)
      assert (SPN' : forall j, j <> JNone -> match r_main s with MSpawn rest => map snd (accepted hT) ++ rest = trackers /\ n_closed (r_trackers s) = false /\ n_handles (r_trackers s) = 1
                             /\ j = @JNone P /\ r_dht s = false
            | _ => j <> JNone /\ (r_dht s = false -> map snd (accepted hT) = trackers /\ n_handles (r_trackers s) = 0) end).
      { intros j NJ. destruct (r_main s) as [rest| | | | | |]; try (split; [exact NJ|apply SPN]). destruct SPN as (_ & _ & _ & X & _). discriminate. }
      assert (CLOS' : n_closed (r_peers s) = true -> exists i, r_main s = MReturned (Some i)).
      { intros X. destruct (CLOS X) as [Y|Y]; [discriminate|exact Y]. }
      destruct (r_cur s) as [|p cur] eqn:EC.
      * (* nothing at hand *)
        destruct FLOW as (consumed & F1 & F2 & F3). flds. rewrite app_nil_r in F1.
        assert (JE : job_ends s = Some (mkN (n_queue (r_peers s)) true (n_done (r_peers s)) 0 (n_workers (r_peers s)) (n_out (r_peers s)) (n_alive (r_peers s)) (n_next (r_peers s)))
                     /\ nstep (r_peers s) DropHandle = Some (mkN (n_queue (r_peers s)) true (n_done (r_peers s)) 0 (n_workers (r_peers s)) (n_out (r_peers s)) (n_alive (r_peers s)) (n_next (r_peers s)), [])).
        { unfold job_ends. cbn [nstep]. rewrite HAND. cbn [Nat.eqb]. rewrite orb_true_r. auto. }
        destruct JE as (JE & JS). pose proof (inv_step _ _ _ _ _ _ VP JS) as VP'. rewrite app_nil_r in VP'. rewrite JE in H.
        destruct (r_dht s) eqn:ED.
        -- injection H as <- <- <-. rewrite !app_nil_r.
           split; flds; cbn [n_done n_handles n_alive n_closed]; try assumption; try reflexivity; try discriminate.
           ++ exists n. auto.
           ++ auto.
           ++ apply SPN'. discriminate.
           ++ exists consumed. split; [exists []; rewrite app_nil_r; exact F1|]. split; [|exact F3]. destruct F2 as (out & F2 & [F4|(F4 & _)]); [|discriminate]. exists out. auto.
           ++ intros _. split; [|discriminate]. intros _. destruct F2 as (out & -> & [F4|(F4 & _)]); [|discriminate]. rewrite app_nil_r in F4. rewrite <- F4, <- F1. reflexivity.
           ++ intros _. left. reflexivity.
        -- destruct (nstep (r_trackers s) Recv) as [[tn o]|] eqn:E.
           ++ pose proof (inv_step _ _ _ _ _ _ VT E) as VT'.
              cbn [nstep] in E. rewrite TAL in E. destruct (n_out (r_trackers s)) as [|(j & r) q] eqn:EQ; [discriminate|]. injection E as <- <-.
              assert (FR : r = announce (fst j)). { apply FT. apply (i_res _ _ _ VT). rewrite EQ. right. left. left. reflexivity. }
              set (o := [ODeliver j r]) in *.
              assert (RP : reported (hT ++ o) = reported hT ++ match r with Ret ps => ps | Panic => [] end).
              { unfold reported. rewrite delivered_app, map_app, concat_app. cbn. rewrite app_nil_r. reflexivity. }
              assert (AO : map snd (accepted (hT ++ o)) = map snd (accepted hT)). { rewrite accepted_app, app_nil_r. reflexivity. }
              destruct r as [ps|].
              ** injection H as <- <- <-. rewrite app_nil_r. rewrite ?EJ.
                 split; flds; rewrite ?AO; cbn [n_done n_handles n_alive n_closed]; try assumption; try reflexivity; try discriminate.
                 --- exists n. auto.
                 --- apply (finished_in (fun j => announce (fst j))); [exact FT|intros ? ? []].
                 --- auto.
                 --- exists consumed. split; [|auto]. cbn [pulled]. cbn [pulled] in F1. rewrite RP, F1. reflexivity.
              ** match type of H with match nstep ?tn DropStream with _ => _ end = _ => destruct (nstep tn DropStream) as [[tn' o']|] eqn:E3; [|discriminate]; pose proof (inv_step _ _ _ _ _ _ VT' E3) as VT2 end.
                 injection H as <- <- <-. cbn [nstep n_alive n_out] in E3. injection E3 as <- <-.
                 set (o' := map _ q) in *.
                 assert (OA : accepted o' = []) by apply lost_obs. assert (OD : delivered o' = []) by apply lost_obs. assert (OF : finished o' = []) by apply lost_obs.
                 assert (RP' : reported ((hT ++ o) ++ o') = reported hT). { rewrite reported_same by exact OD. rewrite RP, app_nil_r. reflexivity. }
                 assert (AO' : map snd (accepted ((hT ++ o) ++ o')) = map snd (accepted hT)). { rewrite accepted_app, OA, app_nil_r. exact AO. }
                 change (ODeliver j Panic :: o') with (o ++ o'). rewrite app_assoc, app_nil_r.
                 split; flds; rewrite ?AO'; cbn [n_done n_handles n_alive n_closed]; try assumption; try reflexivity; try discriminate.
                 --- exists n. auto.
                 --- apply (finished_in (fun j => announce (fst j))); [|rewrite OF; intros ? ? []]. apply (finished_in (fun j => announce (fst j))); [exact FT|intros ? ? []].
                 --- auto.
                 --- destruct (r_main s); try (split; [discriminate|apply SPN]; fail). destruct SPN as (_ & _ & _ & X & _). discriminate.
                 --- exists consumed. cbn [pulled] in *. split; [exists []; rewrite RP', app_nil_r; exact F1|].
                     split; [|exact F3]. destruct F2 as (out & F2 & [F4|(F4 & _)]); [|discriminate]. exists out. auto.
                 --- intros _. left. reflexivity.
                 --- intros _. left. exists (fst j). auto.
           ++ destruct (nstep (r_trackers s) End) as [[tn o]|] eqn:E2; [|discriminate]. injection H as <- <- <-.
              pose proof (inv_step _ _ _ _ _ _ VT E2) as VT'.
              cbn [nstep] in E2. rewrite TAL in E2. destruct (n_out (r_trackers s)) eqn:EQ; [|discriminate].
              destruct (true && forallb is_stopped (n_workers (r_trackers s))); [|discriminate]. injection E2 as <- <-.
              assert (RP : reported (hT ++ [OEnd]) = reported hT) by (apply reported_same; reflexivity).
              assert (AO : map snd (accepted (hT ++ [OEnd])) = map snd (accepted hT)). { rewrite accepted_app, app_nil_r. reflexivity. }
              rewrite app_nil_r. cbn [pulled] in *.
              assert (F2' : firsts addr consumed (contacted hP)).
              { destruct F2 as (out & F2 & [F4|(F4 & _)]); [|discriminate]. rewrite app_nil_r in F4. congruence. }
              split; flds; rewrite ?AO; cbn [n_done n_handles n_alive n_closed pulled]; rewrite ?RP; try assumption; try reflexivity; try discriminate.
              ** exists n. auto.
              ** apply (finished_in (fun j => announce (fst j))); [exact FT|intros ? ? []].
              ** auto.
              ** destruct (r_main s); try (split; [discriminate|apply SPN]; fail). destruct SPN as (_ & _ & _ & X & _). discriminate.
              ** exists consumed. split; [exists []; rewrite app_nil_r; exact F1|]. split; [|exact F3]. exists (contacted hP). rewrite app_nil_r. auto.
              ** intros _. split; [discriminate|]. intros _. rewrite F1. conjs; auto. apply in_or_app. right. left. reflexivity.
              ** intros _. left. reflexivity.
      * (* a peer at hand *)
        destruct FLOW as (consumed & F1 & F2 & F3). flds.
        assert (F1' : pulled (r_dht s) hT = (consumed ++ [p]) ++ cur) by (rewrite <- app_assoc; exact F1).
        assert (DUP : forall a, In a (addr p :: r_seen s) <-> In a (map addr (consumed ++ [p]))).
        { intros a. rewrite map_app, in_app_iff. cbn [In map]. rewrite F3. tauto. }
        destruct (negb (r_dht s) && existsb (addr_eqb (addr p)) (r_seen s)) eqn:EX.
        -- apply andb_true_iff in EX. destruct EX as (ED & EX). apply negb_true_iff in ED. apply seen_spec in EX.
           injection H as <- <- <-. rewrite !app_nil_r. split; flds; try assumption; try reflexivity; try discriminate; auto.
           ++ exists n. auto.
           ++ exists (consumed ++ [p]). split; [exact F1'|]. rewrite ED in *. destruct F2 as (out & F2 & [F4|(F4 & _)]); [|discriminate].
              split. { exists out. split; [apply f_old; [exact F2|apply F3; exact EX]|auto]. }
              intros a. rewrite <- DUP. cbn [In]. split; [auto|intros [<-|X]; auto].
        -- injection H as <- <- <-. rewrite !app_nil_r. split; flds; try assumption; try reflexivity; try discriminate; auto.
           ++ exists n. auto.
           ++ apply SPN'. discriminate.
           ++ exists (consumed ++ [p]). split; [exact F1'|]. split; [|exact DUP]. destruct (r_dht s).
              ** destruct F2 as (out & F2 & [F4|(F4 & _)]); [|discriminate]. rewrite app_nil_r in F4. exists (out ++ [p]). subst. auto.
              ** cbn [negb andb] in EX. destruct F2 as (out & F2 & [F4|(F4 & _)]); [|discriminate]. rewrite app_nil_r in F4. subst out.
                 exists (contacted hP ++ [p]). split; [apply f_new; [exact F2|]|auto].
                 rewrite <- F3. intros X. apply seen_spec in X. congruence.
    + (* JHave *)
      destruct (nstep (r_peers s) (Spawn p)) as [[pn o]|] eqn:E; [|discriminate].
      pose proof (inv_step _ _ _ _ _ _ VP E) as VP'.
      cbn [nstep] in E. flds. rewrite HAND in E. destruct FLOW as (consumed & F1 & F2 & F3). flds.
      destruct (n_closed (r_peers s)) eqn:ECL; injection E as <- <-.
      * destruct (nstep (r_peers s) DropHandle) as [[pn' o']|] eqn:E1; [|discriminate].
        destruct (nstep (r_trackers s) DropStream) as [[tn o]|] eqn:E3; [|discriminate].
        pose proof (inv_step _ _ _ _ _ _ VP' E1) as VP2. pose proof (inv_step _ _ _ _ _ _ VT E3) as VT2.
        injection H as <- <- <-. cbn [nstep] in E1, E3. rewrite HAND, ECL in E1. injection E1 as <- <-. rewrite app_nil_r in VP2.
        rewrite TAL in E3. injection E3 as <- <-.
        set (o := map _ (n_out (r_trackers s))) in *.
        assert (OA : accepted o = []) by apply lost_obs. assert (OD : delivered o = []) by apply lost_obs. assert (OF : finished o = []) by apply lost_obs.
        assert (AO : accepted (hT ++ o) = accepted hT). { rewrite accepted_app, OA, app_nil_r. reflexivity. }
        destruct (CLOS eq_refl) as [X|(i & X)]; [discriminate|].
        assert (CS : contacted (hP ++ [ORefuse p]) = contacted hP) by (apply contacted_same; reflexivity).
        cbn [orb].
        split; flds; rewrite ?CS, ?AO; cbn [n_done n_handles n_alive n_closed]; try assumption; try reflexivity; try discriminate.
        -- exists n. auto.
        -- apply (finished_in (fun j => announce (fst j))); [exact FT|rewrite OF; intros ? ? []].
        -- apply (finished_in (fun j => fetch (snd j))); [exact FP|intros ? ? []].
        -- auto.
        -- rewrite X in *. split; [discriminate|apply SPN].
        -- exists consumed. rewrite (pulled_same _ hT o OD). split; [eauto|]. split; [|exact F3].
           destruct F2 as (out & F2 & [F4|(F4 & _)]); [|discriminate]. exists out. split; [exact F2|]. right. eauto.
        -- rewrite results_same by reflexivity. exact RES.
        -- intros _. left. reflexivity.
        -- intros _. right. eauto.
        -- intros Y. congruence.
      * injection H as <- <- <-. rewrite app_nil_r. set (o := [OAccept (n_next (r_peers s), p)]) in *.
        assert (CS : contacted (hP ++ o) = contacted hP ++ [p]). { unfold contacted. rewrite accepted_app, map_app. reflexivity. }
        split; flds; rewrite ?CS; cbn [n_done n_handles n_alive n_closed]; try assumption; try reflexivity; try discriminate.
        -- exists n. auto.
        -- apply (finished_in (fun j => fetch (snd j))); [exact FP|intros ? ? []].
        -- auto.
        -- destruct (r_main s); try (split; [discriminate|apply SPN]; fail). destruct SPN as (_ & _ & _ & X & _). discriminate.
        -- exists consumed. rewrite app_nil_r. split; [exact F1|]. split; [|exact F3].
           destruct F2 as (out & F2 & [F4|(F4 & _)]); [|discriminate]. exists out. auto.
        -- rewrite results_same by reflexivity. destruct (r_main s) as [| | | | |[]|]; auto.
           destruct RES as (q & R1 & R2). exists q. rewrite in_app_iff. auto.
        -- intros X. rewrite in_app_iff. auto.
  - (* JobAbort *)
    destruct (r_abort s) eqn:EAB; [|discriminate]. destruct (r_job s) eqn:EJ; try discriminate.
    specialize (AB eq_refl). flds.
    assert (JE : job_ends s = Some (mkN (n_queue (r_peers s)) true (n_done (r_peers s)) 0 (n_workers (r_peers s)) (n_out (r_peers s)) (n_alive (r_peers s)) (n_next (r_peers s)))
                     /\ nstep (r_peers s) DropHandle = Some (mkN (n_queue (r_peers s)) true (n_done (r_peers s)) 0 (n_workers (r_peers s)) (n_out (r_peers s)) (n_alive (r_peers s)) (n_next (r_peers s)), [])).
    { unfold job_ends. cbn [nstep]. rewrite HAND. cbn [Nat.eqb]. rewrite orb_true_r. auto. }
    destruct JE as (JE & JS). pose proof (inv_step _ _ _ _ _ _ VP JS) as VP'. rewrite app_nil_r in VP'. rewrite JE in H.
    destruct (nstep (r_trackers s) DropStream) as [[tn o]|] eqn:E; [|discriminate]. injection H as <- <- <-.
    pose proof (inv_step _ _ _ _ _ _ VT E) as VT'.
    cbn [nstep] in E. rewrite TAL in E. injection E as <- <-. rewrite app_nil_r.
    set (o := map _ (n_out (r_trackers s))) in *.
    assert (OA : accepted o = []). { apply lost_obs. }
    assert (OD : delivered o = []). { apply lost_obs. }
    assert (OF : finished o = []). { apply lost_obs. }
    assert (AO : map snd (accepted (hT ++ o)) = map snd (accepted hT)). { rewrite accepted_app, OA, app_nil_r. reflexivity. }
    split; flds; rewrite ?(pulled_same _ hT o OD), ?AO; cbn [n_done n_handles n_alive n_closed]; try assumption; try reflexivity; try discriminate.
    + exists n. auto.
    + apply (finished_in (fun j => announce (fst j))); [exact FT|rewrite OF; intros ? ? []].
    + auto.
    + destruct (r_main s); try (split; [discriminate|apply SPN]; fail). destruct SPN as (_ & _ & _ & X & _). discriminate.
    + destruct FLOW as (consumed & F1 & F2 & F3). exists consumed. split; [eauto|]. split; [|exact F3].
      destruct F2 as (out & F2 & [F4|(F4 & _)]); [|discriminate]. exists out. auto.
    + intros _. left. reflexivity.
    + intros _. exact AB.
    + rewrite accepted_app, OA, app_nil_r. exact DHT.
  - (* Tr *)
    destruct (wstep _ (r_trackers s) w) as [[tn o]|] eqn:E; [|discriminate]. injection H as <- <- <-.
    destruct (wstep_frame _ _ _ _ _ E) as ((e' & E') & HH & HC & HD & HA & _ & OA & OD & OE & OF).
    rewrite app_nil_r. split; flds; try assumption.
    + exists n. split; [eapply inv_step; eauto|exact VN].
    + apply (finished_in (fun j => announce (fst j))); assumption.
    + rewrite HD. auto.
    + rewrite accepted_app, OA, app_nil_r, HC, HH. exact SPN.
    + rewrite pulled_same by exact OD. exact FLOW.
    + rewrite reported_same by exact OD. intros X. destruct (DFLOW X) as (D1 & D2). split; [exact D1|]. intros Y. destruct (D2 Y) as (D3 & D4 & D5).
      rewrite HA. rewrite in_app_iff. auto.
    + rewrite HA. exact TAL.
    + rewrite accepted_app, OA, app_nil_r. exact DHT.
  - (* Pe *)
    destruct (wstep _ (r_peers s) w) as [[pn o]|] eqn:E; [|discriminate]. injection H as <- <- <-.
    destruct (wstep_frame _ _ _ _ _ E) as ((e' & E') & HH & HC & HD & HA & _ & OA & OD & OE & OF).
    rewrite app_nil_r. split; flds; rewrite ?(contacted_same hP o OA), ?(results_same hP o OD); try assumption.
    + exists n. auto.
    + eapply inv_step; eauto.
    + apply (finished_in (fun j => fetch (snd j))); assumption.
    + rewrite HD. auto.
    + rewrite HH. exact HAND.
    + rewrite HC. exact CLOS.
    + rewrite HA. exact AL.
    + intros X. rewrite in_app_iff. auto.
Qed.
Lemma NoDup_app_l {X} (a b : list X) : NoDup (a ++ b) -> NoDup a.
Proof. induction a as [|x a IH]; cbn; intros H; constructor; inversion H; subst; [rewrite in_app_iff in *; tauto|auto]. Qed.
Lemma rinv_init : rinv (r_init nt np trackers) [] [].
Proof.
  split; flds; try reflexivity; try discriminate; try apply inv_new; try (intros ? ? []; fail).
  - exists nt. split; [apply inv_new|reflexivity].
  - split; reflexivity.
  - cbn. conjs; reflexivity.
  - exists []. cbn [pulled r_init r_dht]. split; [reflexivity|]. split; [|intros a; reflexivity]. exists []. split; [apply f_nil|left; reflexivity].
Qed.
Lemma rinv_init_dht : rinv (r_init_dht np found) [] [].
Proof.
  split; flds; try reflexivity; try discriminate; try apply inv_new; try (intros ? ? []; fail).
  - exists 1. split; [apply inv_new|discriminate].
  - split; reflexivity.
  - cbn. split; discriminate.
  - exists []. cbn [pulled r_init_dht r_dht]. split; [reflexivity|]. split; [|intros a; reflexivity]. exists []. split; [reflexivity|left; reflexivity].
Qed.
Lemma rinv_run l : forall s hT hP s' h1 h2, rinv s hT hP -> rrun s l = Some (s', h1, h2) -> rinv s' (hT ++ h1) (hP ++ h2).
Proof.
  induction l as [|e l IH]; intros s hT hP s' h1 h2 V H; cbn [M_Resolve.rrun] in H.
  - injection H as <- <- <-. rewrite !app_nil_r. exact V.
  - destruct (rstep s e) as [[[s1 t1] p1]|] eqn:E; [|discriminate]. destruct (rrun s1 l) as [[[s2 t2] p2]|] eqn:E2; [|discriminate].
    injection H as <- <- <-. rewrite !app_assoc. eapply IH; [|exact E2]. eapply rinv_step; eauto.
Qed.
Lemma dht_step s e s' o1 o2 : rstep s e = Some (s', o1, o2) -> r_dht s' = r_dht s.
Proof.
  intros H. destruct e; cbn [M_Resolve.rstep] in H;
  repeat match type of H with
  | match ?x with _ => _ end = Some _ => destruct x; try discriminate
  | (if ?x then _ else _) = Some _ => destruct x; try discriminate
  end; try (injection H as <- <- <-; reflexivity).
Qed.
Lemma dht_run l : forall s s' o1 o2, rrun s l = Some (s', o1, o2) -> r_dht s' = r_dht s.
Proof.
  induction l as [|e l IH]; intros s s' h1 h2 H; cbn [M_Resolve.rrun] in H; [injection H as <- <- <-; reflexivity|].
  destruct (rstep s e) as [[[s1 t1] p1]|] eqn:E; [|discriminate]. destruct (rrun s1 l) as [[[s2 t2] p2]|] eqn:E2; [|discriminate].
  injection H as <- <- <-. rewrite (IH _ _ _ _ E2). eapply dht_step; eauto.
Qed.
(** The results received are of peers contacted and as fetching from them yields. *)
Lemma results_fetch s hT hP : rinv s hT hP -> forall p r, In (p, r) (results hP) -> In p (contacted hP) /\ r = fetch p.
Proof.
  intros V p r X. unfold results in X. apply in_map_iff in X. destruct X as ([j r'] & E & X). cbn [fst snd] in E. injection E as <- <-.
  assert (F : In (j, r') (finished hP)). { apply (i_res _ _ _ (v_p _ _ _ V)). auto. }
  split; [|apply (v_fp _ _ _ V); exact F].
  unfold contacted. apply in_map. apply (i_from _ _ _ (v_p _ _ _ V)). right. right. right. left. apply in_map_iff. exists (j, r'). auto.
Qed.
Lemma firsts_nodup {X K} (key : X -> K) l out : firsts key l out -> NoDup (map key out) /\ incl out l.
Proof.
  assert (G : firsts key l out -> NoDup (map key out) /\ incl out l /\ (forall k, In k (map key out) <-> In k (map key l))).
  { induction 1 as [|l out x F (N1 & N2 & N3) IN|l out x F (N1 & N2 & N3) IN].
    - split; [constructor|]. split; [apply incl_refl|reflexivity].
    - split; [exact N1|]. split; [intros y Y; apply in_or_app; auto|]. intros k. rewrite N3, map_app, in_app_iff. cbn. split; [auto|intros [Y|[<-|[]]]; auto].
    - split; [|split].
      + rewrite map_app. cbn. apply (Permutation_NoDup (Permutation_app_comm [key x] _)). cbn. constructor; [rewrite N3; exact IN|exact N1].
      + intros y Y. apply in_app_iff in Y. apply in_or_app. destruct Y as [Y|Y]; auto.
      + intros k. rewrite !map_app, !in_app_iff, N3. reflexivity. }
  intros F. apply G in F. tauto.
Qed.
Lemma firsts_cover {X K} (key : X -> K) l out : firsts key l out -> forall x, In x l -> exists y, In y out /\ key y = key x.
Proof.
  induction 1 as [|l out x F IH IN|l out x F IH IN]; intros z Z.
  - destruct Z.
  - apply in_app_iff in Z. destruct Z as [Z|[<-|[]]]; [auto|]. apply in_map_iff in IN. destruct IN as (y & E & Y). destruct (IH _ Y) as (w & W1 & W2). exists w. split; congruence.
  - apply in_app_iff in Z. destruct Z as [Z|[<-|[]]].
    + destruct (IH _ Z) as (w & W1 & W2). exists w. split; [apply in_or_app; auto|exact W2].
    + exists x. split; [apply in_or_app; right; left; reflexivity|reflexivity].
Qed.
(** Peers reported come from a tracker. *)
Lemma reported_from s hT hP : rinv s hT hP -> r_dht s = false -> forall p, In p (reported hT) ->
  exists k ps, k < length trackers /\ announce k = Ret ps /\ In p ps.
Proof.
  intros V D p X. destruct (v_t _ _ _ V) as (n & VT & _). unfold reported in X. apply in_concat in X. destruct X as (ps & X & Y).
  apply in_map_iff in X. destruct X as ([j r] & E & X). cbn [fst snd] in E.
  assert (F : In (j, r) (finished hT)). { apply (i_res _ _ _ VT). auto. }
  destruct r as [ps'|]; [|subst ps; destruct Y]. subst ps'.
  exists (fst j), ps. split; [|split; [symmetry; apply (v_ft _ _ _ V); exact F|exact Y]].
  assert (IN : In j (accepted hT)). { apply (i_from _ _ _ VT). right. right. right. left. apply in_map_iff. exists (j, Ret ps). auto. }
  assert (K : In (fst j) (seq 0 (n_next (r_trackers s)))). { rewrite <- (i_num _ _ _ VT). apply in_map. exact IN. }
  apply in_seq in K. assert (L : n_next (r_trackers s) <= length trackers); [|lia].
  assert (L1 : n_next (r_trackers s) = length (map snd (accepted hT))).
  { rewrite map_length, <- (map_length fst), (i_num _ _ _ VT), seq_length. reflexivity. }
  rewrite L1. pose proof (v_spawn _ _ _ V) as SP. destruct (r_main s); try (destruct SP as (_ & SP); destruct (SP D) as (<- & _); lia).
  destruct SP as (SP & _). rewrite <- SP, app_length. lia.
Qed.
Lemma contacted_from s hT hP : rinv s hT hP -> incl (contacted hP) (pulled (r_dht s) hT) /\
  (r_dht s = false -> NoDup (map addr (contacted hP))) /\ (r_dht s = true -> exists rest, found = contacted hP ++ rest).
Proof.
  intros V. destruct (v_flow _ _ _ V) as (consumed & F1 & (out & F2 & F4) & F3).
  assert (PRE : exists rest, pulled (r_dht s) hT = consumed ++ rest). { destruct (live (r_job s)); eauto. }
  assert (OUT : exists more, out = contacted hP ++ more). { destruct F4 as [F4|(_ & p & F4)]; eauto. }
  destruct PRE as (rest & PRE). destruct OUT as (more & OUT). rewrite PRE.
  assert (INC : incl out consumed). { destruct (r_dht s); [subst; apply incl_refl|apply firsts_nodup in F2; tauto]. }
  split; [|split].
  - intros x X. apply in_or_app. left. apply INC. rewrite OUT. apply in_or_app. auto.
  - intros D. rewrite D in F2. apply firsts_nodup in F2. destruct F2 as (F2 & _). rewrite OUT, map_app in F2. eapply NoDup_app_l; eauto.
  - intros D. rewrite D in *. cbn [pulled] in PRE. subst out consumed. exists (more ++ rest). rewrite app_assoc. exact PRE.
Qed.
(** Success. *)
Lemma success s hT hP i : rinv s hT hP -> r_main s = MReturned (Some i) ->
  exists before p, results hP = before ++ [(p, Ret (Some i))] /\ (forall x, In x before -> snd x = Ret None) /\ fetch p = Ret (Some i) /\ In p (contacted hP).
Proof.
  intros V E. pose proof (v_res _ _ _ V) as RES. rewrite E in RES. cbn [got] in RES. destruct RES as (l & p & R1 & R2).
  exists l, p. split; [exact R1|]. split; [intros [q r] X; eapply R2; exact X|].
  destruct (results_fetch _ _ _ V p (Ret (Some i))) as (C1 & C2). { rewrite R1. apply in_or_app. right. left. reflexivity. }
  split; [symmetry; exact C2|exact C1].
Qed.
(** Failure: every peer contacted failed. *)
Lemma ended n {J R} (s : nst J R) h : n <> 0 -> inv n s h -> In OEnd h -> n_alive s = true -> n_done s = false -> Permutation (map fst (delivered h)) (accepted h) /\ n_closed s = true.
Proof.
  intros N0 V EN AL D. destruct (i_end _ _ _ V EN AL) as (O & WS).
  destruct (settled n s h V AL O) as (P1 & P2 & P3). { intros w W. left. apply WS. exact W. }
  assert (HW : exists w, In w (n_workers s)). { destruct (n_workers s) as [|w ws] eqn:E; [|exists w; left; reflexivity]. pose proof (i_len _ _ _ V) as L. rewrite E in L. cbn in L. congruence. }
  destruct HW as (w & HW). pose proof (WS w HW) as EW.
  split; [|apply (i_closed _ _ _ V); right; right; split; [exact AL|subst w; exact HW]].
  rewrite P1, P2. apply P3; [eapply (i_stop _ _ _ V); eauto|exact D].
Qed.
Lemma failure s hT hP : np <> 0 -> rinv s hT hP -> r_main s = MReturned None -> forall p, In p (contacted hP) -> fetch p = Ret None.
Proof.
  intros N0 V E p X. pose proof (v_res _ _ _ V) as RES. rewrite E in RES. cbn [got] in RES.
  pose proof (v_alive _ _ _ V) as AL. rewrite E in AL.
  destruct (ended np _ _ N0 (v_p _ _ _ V) (v_end _ _ _ V E) AL (proj2 (v_done _ _ _ V))) as (PM & _).
  unfold contacted in X. apply in_map_iff in X. destruct X as (j & <- & X).
  apply (Permutation_in _ (Permutation_sym PM)) in X. apply in_map_iff in X. destruct X as ([j' r] & EJ & X). cbn in EJ. subst j'.
  assert (Y : In (snd j, r) (results hP)). { unfold results. apply in_map_iff. exists (j, r). auto. }
  rewrite <- (RES _ _ Y). symmetry. eapply results_fetch; eauto.
Qed.
Lemma failure_all s hT hP : np <> 0 -> nt <> 0 -> (forall k, announce k <> Panic) -> rinv s hT hP -> r_main s = MReturned None ->
  (r_dht s = true -> contacted hP = found) /\
  (r_dht s = false -> forall k ps p, k < length trackers -> announce k = Ret ps -> In p ps -> exists p', In p' (contacted hP) /\ addr p' = addr p).
Proof.
  intros N0 N1 CALM V E. pose proof (v_alive _ _ _ V) as AL. rewrite E in AL.
  destruct (ended np _ _ N0 (v_p _ _ _ V) (v_end _ _ _ V E) AL (proj2 (v_done _ _ _ V))) as (PM & CL).
  assert (JD : r_job s = JDone).
  { destruct (v_closed _ _ _ V CL) as [L|(i & L)]; [|congruence]. destruct (r_job s) eqn:EJ; try discriminate; [reflexivity| |].
    - exfalso. apply (v_abort _ _ _ V); [apply (v_aborted _ _ _ V); exact EJ|]. rewrite E. reflexivity.
    - exfalso. destruct (v_panic _ _ _ V EJ) as [(k & K)|(i & K)]; [eapply CALM; eauto|congruence]. }
  destruct (v_done_flow _ _ _ V JD) as (D1 & D2). split; [exact D1|]. intros D. destruct (D2 D) as (EN & TAL & FI).
  destruct (v_t _ _ _ V) as (n & VT & VN). specialize (VN D). subst n.
  destruct (ended nt _ _ N1 VT EN TAL (proj1 (v_done _ _ _ V))) as (PT & _).
  intros k ps p K A1 A2.
  assert (SP : map snd (accepted hT) = trackers). { pose proof (v_spawn _ _ _ V) as SP. rewrite E in SP. apply SP. exact D. }
  assert (IN : In k (map fst (accepted hT))).
  { rewrite (i_num _ _ _ VT). apply in_seq. rewrite <- SP, map_length, <- (map_length fst), (i_num _ _ _ VT), seq_length in K. lia. }
  apply in_map_iff in IN. destruct IN as (j & <- & IN). apply (Permutation_in _ (Permutation_sym PT)) in IN.
  apply in_map_iff in IN. destruct IN as ([j' r] & EJ & IN). cbn in EJ. subst j'.
  assert (ER : r = Ret ps). { rewrite <- A1. apply (v_ft _ _ _ V). apply (i_res _ _ _ VT). auto. }
  subst r. apply (firsts_cover _ _ _ FI). unfold reported. apply in_concat. exists ps. split; [|exact A2].
  apply in_map_iff. exists (j, Ret ps). auto.
Qed.
Lemma panics s hT hP : rinv s hT hP -> r_main s = MPanicked -> exists p, In p (contacted hP) /\ fetch p = Panic.
Proof. intros V E. pose proof (v_res _ _ _ V) as X. rewrite E in X. exact X. Qed.
End R.
