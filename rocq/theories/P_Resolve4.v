From Verif Require Import Base BaseFacts M_Nursery S_Nursery P_Nursery M_Async S_Async M_Resolve S_Resolve S_Quiet P_Resolve P_Resolve2 P_Resolve3.
From Coq Require Import Permutation.
Local Open Scope nat_scope.

Section R4.
Context {T P A M : Type} (addr_eqb : A -> A -> bool) (addr : P -> A) (addr_eqb_spec : forall a b, addr_eqb a b = true <-> a = b).
Context (announce : nat -> outcome (list P)) (fetch : P -> outcome (option M)) (hang : P -> bool).
Context (nt np : nat) (trackers : list T) (dht : option (list P)).
Notation rst := (rst T P A M).
Notation rstep := (@rstep T P A M addr_eqb addr announce fetch).
Notation rrun := (@rrun T P A M addr_eqb addr announce fetch).
Notation found := (found_of dht).
Notation rinv := (@rinv T P A M addr announce fetch nt np trackers found).
Notation quiet := (@quiet T P A M addr_eqb addr announce fetch hang).
Notation never_ends := (@never_ends P M hang).
Implicit Types (s : rst) (hT : list (obs T (list P))) (hP : list (obs P (option M))).

Definition not_finish (e : rev) : bool := match e with Pe (KFinish _) => false | _ => true end.
Lemma quiet_other s e : quiet s -> not_finish e = true -> rstep s e = None.
Proof.
  intros Q N. destruct (rstep s e) eqn:E; [|reflexivity]. destruct (Q e) as (w & j & -> & _); [congruence|discriminate N].
Qed.
Lemma quiet_worker s : quiet s -> n_closed (r_peers s) = true ->
  forall w, In w (n_workers (r_peers s)) -> w = WStopped \/ exists j, w = WRunning j /\ hang (snd j) = true.
Proof.
  intros Q CL w IN. apply In_nth_error in IN. destruct IN as (i & E).
  assert (NP : forall k, not_finish (Pe k) = true -> wstep (fun j => fetch (snd j)) (r_peers s) k = None).
  { intros k N. pose proof (quiet_other s _ Q N) as X. cbn [M_Resolve.rstep] in X. destruct (wstep _ _ _) as [[]|]; [discriminate|reflexivity]. }
  destruct w as [|j|j|j|j r|]; auto.
  - exfalso. pose proof (NP (KTake i) eq_refl) as X. pose proof (NP (KQuit i) eq_refl) as Y. cbn [wstep nstep] in X, Y. rewrite E in X, Y.
    destruct (n_queue (r_peers s)); [rewrite CL in Y; discriminate|discriminate].
  - exfalso. pose proof (NP (KCheck i) eq_refl) as X. cbn [wstep nstep] in X. rewrite E in X. destruct (n_done (r_peers s)); discriminate.
  - exfalso. pose proof (NP (KStart i) eq_refl) as X. cbn [wstep nstep] in X. rewrite E in X. discriminate.
  - right. exists j. split; [reflexivity|]. destruct (Q (Pe (KFinish i))) as (w & j' & EQ & N & H).
    + cbn [M_Resolve.rstep wstep nstep]. rewrite E. discriminate.
    + injection EQ as <-. congruence.
  - exfalso. pose proof (NP (KSend i) eq_refl) as X. cbn [wstep nstep] in X. rewrite E in X. destruct (n_alive (r_peers s)); discriminate.
Qed.
Lemma quiet_tstuck s : quiet s -> forall w, wstep (fun j => announce (fst j)) (r_trackers s) w = None.
Proof.
  intros Q w. pose proof (quiet_other s (Tr w) Q eq_refl) as X. cbn [M_Resolve.rstep] in X. destruct (wstep _ _ _) as [[]|]; [discriminate|reflexivity].
Qed.
(** When nothing happens any more: returned, or the main task waits for the peers. *)
Lemma quiet_cases s hT hP : rinv s hT hP -> (forall k, announce k <> Panic) -> quiet s ->
  (exists r, r_main s = MReturned r) \/ r_main s = MPanicked \/
  (r_main s = MLoop /\ r_job s = JDone /\ n_out (r_peers s) = [] /\
   forall w, In w (n_workers (r_peers s)) -> w = WStopped \/ exists j, w = WRunning j /\ hang (snd j) = true).
Proof.
  intros V CALM Q. pose proof (v_alive _ _ _ _ _ _ _ _ _ _ V) as AL. pose proof (v_spawn _ _ _ _ _ _ _ _ _ _ V) as SP.
  pose proof (quiet_other s Main Q eq_refl) as SM. cbn [M_Resolve.rstep] in SM.
  destruct (r_main s) as [[|t rest]| |i|i|i|r|] eqn:EM; eauto.
  - exfalso. destruct SP as (_ & _ & S3 & _). cbn [nstep] in SM. rewrite S3 in SM. discriminate.
  - exfalso. destruct SP as (_ & S2 & S3 & _). cbn [nstep] in SM. rewrite S3, S2 in SM. discriminate.
  - right. right. split; [reflexivity|].
    destruct (nstep (r_peers s) Recv) as [[pn o]|] eqn:ER; [discriminate|]. cbn [nstep] in ER. rewrite AL in ER.
    destruct (n_out (r_peers s)) as [|[? ?] ?] eqn:EO; [clear ER|discriminate].
    pose proof (v_handles _ _ _ _ _ _ _ _ _ _ V) as HN.
    assert (LV : live (r_job s) = false).
    { destruct (live (r_job s)) eqn:LV; [exfalso|reflexivity].
      pose proof (quiet_other s Job Q eq_refl) as SJ. cbn [M_Resolve.rstep] in SJ. pose proof (v_talive _ _ _ _ _ _ _ _ _ _ V) as TA.
      assert (CL : n_closed (r_peers s) = false).
      { destruct (n_closed (r_peers s)) eqn:CL; [|reflexivity]. destruct (v_closed _ _ _ _ _ _ _ _ _ _ V CL) as [X|(i & X)]; congruence. }
      destruct (r_job s) as [| |p| | |] eqn:EJ; try discriminate LV.
      + destruct SP as (X & _). congruence.
      + destruct (r_cur s) as [|p cur].
        * assert (JE : job_ends s <> None). { unfold job_ends. cbn [nstep]. rewrite HN. discriminate. }
          destruct (job_ends s) as [pn|]; [|congruence].
          destruct (r_dht s) eqn:ED; [discriminate|].
          destruct (nstep (r_trackers s) Recv) as [[tn o]|] eqn:ET.
          -- assert (TA' : n_alive tn = true). { cbn [nstep] in ET. rewrite TA in ET. destruct (n_out (r_trackers s)) as [|[? ?] ?]; [discriminate|]. injection ET as <- <-. reflexivity. }
             assert (DS : nstep tn DropStream <> None). { cbn [nstep]. rewrite TA'. discriminate. }
             destruct (nstep tn DropStream) as [[? ?]|]; [|congruence].
             repeat match type of SJ with match ?x with _ => _ end = None => destruct x; try discriminate end.
          -- pose proof (wstuck _ _ (quiet_tstuck s Q) ET) as SKT. destruct (v_t _ _ _ _ _ _ _ _ _ _ V) as (n & VT & _).
             rewrite (stuck_ends _ _ _ VT TA SKT) in SJ; [discriminate|]. apply (i_closed _ _ _ VT). left. apply SP. reflexivity.
        * destruct (negb (r_dht s) && existsb (addr_eqb (addr p)) (r_seen s)); discriminate.
      + cbn [nstep] in SJ. rewrite HN, CL in SJ. discriminate. }
    assert (JD : r_job s = JDone).
    { destruct (r_job s) eqn:EJ; try discriminate LV; [reflexivity| |].
      - exfalso. apply (v_abort _ _ _ _ _ _ _ _ _ _ V); [apply (v_aborted _ _ _ _ _ _ _ _ _ _ V); exact EJ|]. rewrite EM. reflexivity.
      - exfalso. destruct (v_panic _ _ _ _ _ _ _ _ _ _ V EJ) as [(k & K)|(i & K)]; [eapply CALM; eauto|congruence]. }
    split; [exact JD|]. split; [reflexivity|]. apply quiet_worker; [exact Q|].
    rewrite LV in HN. apply (i_closed _ _ _ (v_p _ _ _ _ _ _ _ _ _ _ V)). auto.
  - discriminate.
  - exfalso. cbn [nstep] in SM. rewrite AL in SM. discriminate.
  - discriminate.
Qed.

(** The jobs being run *)
Definition running (ws : list (wstate P (option M))) : list (job P) := flat_map (fun w => match w with WRunning j => [j] | _ => [] end) ws.
Lemma running_in ws j : In j (running ws) <-> In (WRunning j) ws.
Proof.
  unfold running. rewrite in_flat_map. split.
  - intros (w & W1 & W2). destruct w; cbn in W2; try contradiction. destruct W2 as [<-|[]]. exact W1.
  - intros X. exists (WRunning j). split; [exact X|left; reflexivity].
Qed.
Lemma running_count k ws : cj k (running ws) = W (f_run k) ws.
Proof.
  induction ws as [|w ws IH]; [reflexivity|]. unfold running in *. cbn [flat_map]. rewrite cj_app, IH, W_cons. f_equal.
  destruct w; cbn [f_run]; rewrite ?cj_cons, ?cj_nil; lia.
Qed.
Lemma running_facts s hT hP : rinv s hT hP -> NoDup (running (n_workers (r_peers s))) /\ incl (running (n_workers (r_peers s))) (accepted hP).
Proof.
  intros V. pose proof (v_p _ _ _ _ _ _ _ _ _ _ V) as VP. split.
  - apply nodup_fst, nodup_cj. intros k. rewrite running_count.
    pose proof (i_run _ _ _ VP k). pose proof (i_pre _ _ _ VP k). pose proof (cj_nodup k _ (acc_nodup _ _ _ VP)) as N.
    rewrite (i_queue _ _ _ VP), cj_app in N. lia.
  - intros j X. apply running_in in X. apply (i_from _ _ _ VP). do 5 right. exists (WRunning j). split; [exact X|reflexivity].
Qed.
Lemma all_running ws : (forall w, In w ws -> exists j : job P, w = WRunning j /\ hang (snd j) = true) -> length (running ws) = length ws.
Proof.
  induction ws as [|w ws IH]; intros H; [reflexivity|]. destruct (H w (or_introl eq_refl)) as (j & -> & _).
  unfold running in *. cbn [flat_map length app]. rewrite IH; [reflexivity|]. intros x X. apply H. right. exact X.
Qed.
(** Not every worker is kept busy by a peer that never answers. *)
Lemma nodup_map_inj {X Y} (f : X -> Y) l x y : NoDup (map f l) -> In x l -> In y l -> f x = f y -> x = y.
Proof.
  induction l as [|z l IH]; intros N HX HY E; [destruct HX|]. cbn [map] in N. apply NoDup_cons_iff in N. destruct N as (N1 & N2).
  destruct HX as [->|HX], HY as [->|HY]; auto.
  - exfalso. apply N1. rewrite E. apply in_map. exact HY.
  - exfalso. apply N1. rewrite <- E. apply in_map. exact HX.
Qed.
Lemma nodup_map_sub {X Y} (f : X -> Y) l l' : NoDup (map f l) -> NoDup l' -> incl l' l -> NoDup (map f l').
Proof.
  intros N. induction l' as [|x l' IH]; intros N' I'; [constructor|]. apply NoDup_cons_iff in N'. destruct N' as (N1 & N2).
  cbn [map]. constructor; [|apply IH; [exact N2|intros y YY; apply I'; right; exact YY]].
  intros X0. apply in_map_iff in X0. destruct X0 as (y & E & YY). apply N1. rewrite <- (nodup_map_inj f l y x); auto; apply I'; [right; exact YY|left; reflexivity].
Qed.
Lemma filter_snd_length (l : list (job P)) : length (filter (fun j => hang (snd j)) l) = length (filter hang (map snd l)).
Proof. induction l as [|j l IH]; [reflexivity|]. cbn [filter map]. destruct (hang (snd j)); cbn [length]; rewrite ?IH; reflexivity. Qed.
Lemma some_free s0 l s hT hP : r_start nt np trackers dht = Some s0 -> rrun s0 l = Some (s, hT, hP) ->
  fewer_hang addr announce hang np trackers dht ->
  ~ (forall w, In w (n_workers (r_peers s)) -> exists j, w = WRunning j /\ hang (snd j) = true).
Proof.
  intros H0 H FH ALL. destruct (reach_inv _ _ addr_eqb_spec _ _ _ _ _ _ _ _ _ _ _ H0 H) as (V & D & F).
  destruct (running_facts _ _ _ V) as (ND & INC). pose proof (all_running _ ALL) as L. rewrite (i_len _ _ _ (v_p _ _ _ _ _ _ _ _ _ _ V)) in L.
  assert (HG : forall j, In j (running (n_workers (r_peers s))) -> hang (snd j) = true).
  { intros j X. apply running_in in X. destruct (ALL _ X) as (j' & E & G). injection E as <-. exact G. }
  destruct (c_once _ _ addr_eqb_spec _ _ _ _ _ _ _ _ _ _ _ H0 H) as (C1 & C2 & _).
  unfold fewer_hang in FH. destruct trackers as [|t ts] eqn:ET.
  - destruct FH as (fd & E & LT). destruct (C2 eq_refl) as (_ & rest & E2). rewrite E2 in E. injection E as <-.
    rewrite filter_app, app_length in LT. unfold contacted in LT. rewrite <- filter_snd_length in LT.
    assert (X : length (running (n_workers (r_peers s))) <= length (filter (fun j : job P => hang (snd j)) (accepted hP))); [|apply (Nat.lt_irrefl np); eapply Nat.le_lt_trans; [|exact LT]; rewrite <- L; etransitivity; [exact X|apply Nat.le_add_r]].
    apply NoDup_incl_length; [exact ND|]. intros j J. apply filter_In. auto.
  - destruct FH as (bad & LT & BAD). assert (C1' : NoDup (map addr (contacted hP))) by (apply C1; discriminate).
    unfold contacted in C1'. rewrite map_map in C1'. pose proof (nodup_map_sub _ _ _ C1' ND INC) as N2.
    assert (X : length (map (fun x : job P => addr (snd x)) (running (n_workers (r_peers s)))) <= length bad); [|rewrite map_length in X; lia].
    apply NoDup_incl_length; [exact N2|]. intros a X. apply in_map_iff in X. destruct X as (j & <- & J).
    apply BAD; [|auto]. rewrite <- ET in *. eapply (c_known _ _ addr_eqb_spec); [exact H0|exact H|]. unfold contacted. apply in_map. apply INC. exact J.
Qed.
(** Then every peer to try was contacted (or one at the same address), and those that do
    not hang have answered. *)
Lemma quiet_answers s hT hP : nt <> 0 -> rinv s hT hP -> never_ends hP -> r_main s = MLoop -> r_job s = JDone -> n_out (r_peers s) = [] -> n_queue (r_peers s) = [] ->
  (forall w, In w (n_workers (r_peers s)) -> w = WStopped \/ exists j, w = WRunning j /\ hang (snd j) = true) ->
  forall p, In p (contacted hP) -> hang p = false -> In (p, fetch p) (results hP).
Proof.
  intros N1 V NE EM JD EO EQ WS p IN HG. pose proof (v_p _ _ _ _ _ _ _ _ _ _ V) as VP. pose proof (v_alive _ _ _ _ _ _ _ _ _ _ V) as AL. rewrite EM in AL.
  unfold contacted in IN. apply in_map_iff in IN. destruct IN as (j & <- & IN).
  destruct (i_alive _ _ _ VP AL) as (AB & LO). pose proof (i_disc _ _ _ VP AL (proj2 (v_done _ _ _ _ _ _ _ _ _ _ V))) as DI.
  pose proof (cj_in _ _ IN) as C. rewrite (i_queue _ _ _ VP), EQ, app_nil_r in C.
  rewrite (i_pre _ _ _ VP), DI, cj_nil, (W_zero (f_pre (fst j))) in C; [|intros w X; destruct (WS w X) as [->|(? & -> & _)]; reflexivity].
  rewrite (i_run _ _ _ VP), AB, cj_nil in C.
  assert (FIN : 1 <= cj (fst j) (map fst (finished hP))).
  { assert (Z : W (f_run (fst j)) (n_workers (r_peers s)) = 0); [|lia]. rewrite <- running_count.
    destruct (cj (fst j) (running (n_workers (r_peers s)))) eqn:Z; [reflexivity|exfalso].
    destruct (cj_out (fst j) (running (n_workers (r_peers s)))) as (j' & J1 & J2); [lia|].
    assert (j' = j) as -> by (eapply fst_inj; [exact (acc_nodup _ _ _ VP)|apply (running_facts _ _ _ V); exact J1|exact IN|exact J2]).
    apply running_in in J1. destruct (WS _ J1) as [X|(j' & X & Y)]; [discriminate|]. injection X as <-. congruence. }
  apply cj_out in FIN. destruct FIN as (j' & J1 & J2).
  assert (j' = j) as ->. { eapply fst_inj; [exact (acc_nodup _ _ _ VP)| |exact IN|exact J2]. apply (i_from _ _ _ VP). auto. }
  apply in_map_iff in J1. destruct J1 as ((j' & r) & E & J1). cbn [fst] in E. subst j'.
  assert (ER : r = fetch (snd j)) by (apply (v_fp _ _ _ _ _ _ _ _ _ _ V); exact J1). subst r.
  unfold results. apply in_map_iff. exists (j, fetch (snd j)). split; [reflexivity|].
  destruct (i_res' _ _ _ VP _ _ J1) as [X|[X|[X|X]]]; auto.
  - destruct (WS _ X) as [Y|(? & Y & _)]; discriminate.
  - rewrite EO in X. destruct X.
  - rewrite LO in X. destruct X.
Qed.
Lemma done_cover s hT hP : nt <> 0 -> (forall k, announce k <> Panic) -> rinv s hT hP -> (r_dht s = true <-> trackers = []) -> (trackers = [] -> dht = Some found) -> r_main s = MLoop -> r_job s = JDone ->
  forall p, known trackers dht announce p -> exists p', In p' (contacted hP) /\ addr p' = addr p.
Proof.
  intros N1 CALM V D F EM JD p K. destruct (v_done_flow _ _ _ _ _ _ _ _ _ _ V JD) as (D1 & D2).
  destruct K as [(K1 & fd & K2 & K3)|(k & ps & K & A1 & A2)].
  - exists p. split; [|reflexivity]. rewrite (D1 (proj2 D K1)). rewrite (F K1) in K2. congruence.
  - destruct (dht_cases _ _ D) as [(X & _)|(_ & DT)]; [rewrite X in K; cbn in K; lia|].
    destruct (D2 DT) as (EN & TAL & FI).
    destruct (v_t _ _ _ _ _ _ _ _ _ _ V) as (n & VT & VN). specialize (VN DT). subst n.
    destruct (ended nt _ _ N1 VT EN TAL (proj1 (v_done _ _ _ _ _ _ _ _ _ _ V))) as (PT & _).
    assert (SP : map snd (accepted hT) = trackers). { pose proof (v_spawn _ _ _ _ _ _ _ _ _ _ V) as SP. rewrite EM in SP. apply SP. exact DT. }
    assert (IN : In k (map fst (accepted hT))).
    { rewrite (i_num _ _ _ VT). apply in_seq. rewrite <- SP, map_length, <- (map_length fst), (i_num _ _ _ VT), seq_length in K. lia. }
    apply in_map_iff in IN. destruct IN as (j & <- & IN). apply (Permutation_in _ (Permutation_sym PT)) in IN.
    apply in_map_iff in IN. destruct IN as ([j' r] & EJ & IN). cbn in EJ. subst j'.
    assert (ER : r = Ret ps). { rewrite <- A1. apply (v_ft _ _ _ _ _ _ _ _ _ _ V). apply (i_res _ _ _ VT). auto. }
    subst r. apply (firsts_cover _ _ _ FI). unfold reported. apply in_concat. exists ps. split; [|exact A2].
    apply in_map_iff. exists (j, Ret ps). auto.
Qed.
(** A peer that serves the metadata is reached, provided fewer peers than workers hang. *)
Lemma c_resolves s0 l s hT hP : np <> 0 -> nt <> 0 -> r_start nt np trackers dht = Some s0 -> rrun s0 l = Some (s, hT, hP) ->
  (forall k, announce k <> Panic) -> (forall p, known trackers dht announce p -> fetch p <> Panic) -> never_ends hP -> fewer_hang addr announce hang np trackers dht ->
  forall p, known trackers dht announce p -> (forall p', known trackers dht announce p' -> addr p' = addr p -> hang p' = false /\ fetch p' <> Ret None) ->
  quiet s -> exists i, r_main s = MReturned (Some i).
Proof.
  intros N0 N1 H0 H C1 C2 NE FH p K HON Q. destruct (reach_inv _ _ addr_eqb_spec _ _ _ _ _ _ _ _ _ _ _ H0 H) as (V & D & F).
  destruct (quiet_cases _ _ _ V C1 Q) as [([i|] & E)|[E|(EM & JD & EO & WS)]].
  - exists i. exact E.
  - exfalso. destruct (c_failure _ _ addr_eqb_spec _ _ _ _ _ _ _ _ _ _ _ N0 N1 C1 H0 H E) as (F1 & F2).
    destruct (F2 p K) as (p' & P1 & P2). apply (HON p'); [eapply (c_known _ _ addr_eqb_spec); eauto|exact P2|]. apply F1. exact P1.
  - exfalso. destruct (panics _ _ _ _ _ _ _ _ _ _ V E) as (q & IQ & X). eapply C2; [eapply (c_known _ _ addr_eqb_spec); eauto|exact X].
  - exfalso. pose proof (v_alive _ _ _ _ _ _ _ _ _ _ V) as AL. rewrite EM in AL. pose proof (v_p _ _ _ _ _ _ _ _ _ _ V) as VP.
    assert (EQ : n_queue (r_peers s) = []).
    { destruct (in_dec (fun a b : bool => Bool.bool_dec a b) true (map is_stopped (n_workers (r_peers s)))) as [X|X].
      - apply in_map_iff in X. destruct X as (w & W1 & W2). destruct w; try discriminate W1. eapply (i_stop _ _ _ VP); eauto. exact (proj2 (v_done _ _ _ _ _ _ _ _ _ _ V)).
      - exfalso. eapply some_free; [exact H0|exact H|exact FH|]. intros w W0. destruct (WS w W0) as [->|Y]; [|exact Y].
        exfalso. apply X. apply in_map_iff. exists WStopped. auto. }
    destruct (done_cover _ _ _ N1 C1 V D F EM JD p K) as (p' & P1 & P2).
    destruct (HON p') as (G1 & G2); [eapply (c_known _ _ addr_eqb_spec); eauto|exact P2|].
    pose proof (quiet_answers _ _ _ N1 V NE EM JD EO EQ WS p' P1 G1) as R.
    pose proof (v_res _ _ _ _ _ _ _ _ _ _ V) as RES. rewrite EM in RES. cbn [got] in RES. apply G2. eapply RES. exact R.
Qed.
End R4.

(** Peers that never answer, one for each worker, and one more peer: nothing happens any
    more and that peer is not contacted. *)
Section Blocked.
Context {T P A M : Type} (addr_eqb : A -> A -> bool) (addr : P -> A).
Context (announce : nat -> outcome (list P)) (fetch : P -> outcome (option M)) (hang : P -> bool).
Notation rst := (rst T P A M).
Notation rrun := (@rrun T P A M addr_eqb addr announce fetch).
Lemma nth_mid {X} (a b : list X) x : nth_error (a ++ x :: b) (length a) = Some x.
Proof. rewrite nth_error_app2, Nat.sub_diag by lia. reflexivity. Qed.
Lemma set_mid {X} (a b : list X) x y : set_nth (a ++ x :: b) (length a) y = a ++ y :: b.
Proof. unfold set_nth. rewrite firstn_app, firstn_all, Nat.sub_diag, skipn_app, skipn_all, Nat.sub_diag. cbn [firstn skipn app]. rewrite app_nil_r. reflexivity. Qed.
Definition pool n (ws : list (wstate P (option M))) : nst P (option M) := mkN [] false false 1 ws [] true n.
Definition waiting n ws cur seen : rst := mkR MLoop JNext (new 1) (pool n ws) cur seen true false.
Lemma rrun_app l1 l2 s : rrun s (l1 ++ l2) =
  match rrun s l1 with
  | Some (s1, t1, p1) => match rrun s1 l2 with Some (s2, t2, p2) => Some (s2, t1 ++ t2, p1 ++ p2) | None => None end
  | None => None
  end.
Proof.
  revert s. induction l1 as [|e l1 IH]; intros s; cbn [M_Resolve.rrun app].
  - destruct (rrun s l2) as [[[? ?] ?]|]; reflexivity.
  - destruct (M_Resolve.rstep _ _ _ _ s e) as [[[s1 t1] p1]|]; [|reflexivity]. rewrite IH.
    destruct (rrun s1 l1) as [[[s2 t2] p2]|]; [|reflexivity].
    destruct (rrun s2 l2) as [[[s3 t3] p3]|]; [|reflexivity]. rewrite !app_assoc. reflexivity.
Qed.
Lemma busy_one n a b p cur seen : let i := length a in
  rrun (waiting n (a ++ WIdle :: b) (p :: cur) seen) [Job; Job; Pe (KTake i); Pe (KCheck i); Pe (KStart i)]
  = Some (waiting (S n) (a ++ WRunning (n, p) :: b) cur (addr p :: seen), [], [OAccept (n, p); OTake (n, p); OStart (n, p)]).
Proof.
  intros i. unfold waiting, pool, i. cbn [M_Resolve.rrun M_Resolve.rstep r_job r_cur r_dht negb andb r_peers r_main r_trackers r_seen r_abort nstep n_handles n_closed n_queue n_next app wstep n_workers n_done n_out n_alive with_main].
  repeat (unfold set_w; cbn [n_workers n_queue n_closed n_done n_handles n_out n_alive n_next with_main r_job r_cur r_dht r_peers r_main r_trackers r_seen r_abort]; rewrite ?nth_mid, ?set_mid).
  reflexivity.
Qed.
Lemma busy_all hs : forall a n cur seen, exists l hP seen',
  rrun (waiting n (a ++ repeat WIdle (length hs)) (hs ++ cur) seen) l
  = Some (waiting (n + length hs) (a ++ map WRunning (combine (seq n (length hs)) hs)) cur seen', [], hP) /\ finished hP = [].
Proof.
  induction hs as [|p hs IH]; intros a n cur seen; cbn [length repeat app seq combine map].
  - exists [], [], seen. rewrite Nat.add_0_r. auto.
  - destruct (IH (a ++ [WRunning (n, p)]) (S n) cur (addr p :: seen)) as (l & hP & seen' & R & F).
    eexists (_ ++ l), (_ ++ hP), seen'. rewrite rrun_app, busy_one. rewrite <- !app_assoc in R. cbn [app] in R. rewrite R.
    rewrite Nat.add_succ_r. split; [reflexivity|exact F].
Qed.
Lemma blocked hs good : hs <> [] -> (forall p, In p hs -> hang p = true) ->
  exists l s hP, rrun (r_init_dht (length hs) (hs ++ [good])) l = Some (s, [], hP) /\ finished hP = [] /\
    quiet addr_eqb addr announce fetch hang s /\ r_main s = MLoop.
Proof.
  intros NE HG. destruct (busy_all hs [] 0 [good] []) as (l & hP & seen & R & F). cbn [app] in R.
  set (ws := map WRunning (combine (seq 0 (length hs)) hs)) in *.
  set (s := mkR MLoop JDone (new 1) (mkN [(length hs, good)] true false 0 ws [] true (S (length hs))) [] (addr good :: seen) true false : rst).
  assert (WS : forall w, In w ws -> exists j, w = WRunning j /\ hang (snd j) = true).
  { intros w X. apply in_map_iff in X. destruct X as ([k p] & <- & X). exists (k, p). split; [reflexivity|]. apply HG. eapply in_combine_r. exact X. }
  assert (LW : length ws = length hs). { unfold ws. rewrite map_length. etransitivity; [apply combine_length|]. rewrite seq_length. lia. }
  assert (RR : rrun (r_init_dht (length hs) (hs ++ [good])) (l ++ [Job; Job; Job]) = Some (s, [], hP ++ [OAccept (length hs, good)])).
  { rewrite rrun_app. change (r_init_dht _ _) with (waiting 0 (repeat WIdle (length hs)) (hs ++ [good]) []). rewrite R. reflexivity. }
  exists (l ++ [Job; Job; Job]), s, (hP ++ [OAccept (length hs, good)]).
  split; [exact RR|]. split; [rewrite finished_app, F; reflexivity|]. split; [|reflexivity].
  assert (NW : forall k x, nth_error ws k = Some x -> exists j, x = WRunning j /\ hang (snd j) = true).
  { intros k x X. apply WS. eapply nth_error_In. exact X. }
  intros e EN. destruct e as [| | |e|e].
  - exfalso. apply EN. cbn [M_Resolve.rstep r_main s nstep n_alive n_out r_peers n_workers andb].
    destruct ws as [|w0 ws0]; [destruct hs; [congruence|discriminate LW]|]. destruct (WS w0 (or_introl eq_refl)) as (j & -> & _). reflexivity.
  - exfalso. apply EN. reflexivity.
  - exfalso. apply EN. reflexivity.
  - exfalso. apply EN. cbn [M_Resolve.rstep r_trackers s]. destruct e as [w|w|w|w|w|w|w]; cbn [wstep new repeat nstep n_workers n_queue n_closed n_alive]; try reflexivity;
      destruct w as [|[|w]]; reflexivity.
  - cbn [M_Resolve.rstep r_peers s] in EN.
    destruct e as [w|w|w|w|w|w|w]; cbn [wstep nstep n_workers n_queue n_closed n_alive] in EN; destruct (nth_error ws w) as [x|] eqn:E; try (exfalso; apply EN; reflexivity);
      destruct (NW _ _ E) as (j & -> & G); try (exfalso; apply EN; reflexivity).
    exists w, j. auto.
Qed.
End Blocked.
