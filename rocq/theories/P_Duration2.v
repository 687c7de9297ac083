From Verif Require Import Base BaseFacts M_Nursery S_Nursery P_Nursery M_Async S_Async M_Resolve S_Resolve P_Resolve P_Resolve2 P_Resolve3 M_Duration S_Duration P_Duration.
Local Open Scope nat_scope.

Section Quiet.
Context {J R : Type} (d : job J -> nat) (f : job J -> outcome R).
(** No worker can act: at most jobs are running that are not over. *)
Definition quiet (s : nst J R) (b : nat -> nat) (now : nat) : Prop := forall e, over d s b now e = true -> wstep f s e = None.
Lemma quiet_workers s b now : quiet s b now -> forall w, In w (n_workers s) -> w = WIdle \/ w = WStopped \/ exists j, w = WRunning j.
Proof.
  intros Q w IN. apply In_nth_error in IN. destruct IN as (i & E). destruct w; eauto; exfalso.
  - specialize (Q (KCheck i) eq_refl). cbn [wstep nstep] in Q. rewrite E in Q. destruct (n_done s); discriminate.
  - specialize (Q (KStart i) eq_refl). cbn [wstep nstep] in Q. rewrite E in Q. discriminate.
  - specialize (Q (KSend i) eq_refl). cbn [wstep nstep] in Q. rewrite E in Q. destruct (n_alive s); discriminate.
Qed.
Lemma quiet_late s b now i j : quiet s b now -> nth_error (n_workers s) i = Some (WRunning j) -> now + 1 <= b i + d j.
Proof.
  intros Q E. specialize (Q (KFinish i)). cbn [over wstep] in Q. rewrite E in Q. cbn [nstep] in Q. rewrite E in Q.
  destruct (b i + d j <=? now) eqn:L; [discriminate (Q eq_refl)|]. apply Nat.leb_gt in L. lia.
Qed.
Definition is_running (w : wstate J R) : bool := match w with WRunning _ => true | _ => false end.
Lemma quiet_alive s b now : quiet s b now -> existsb is_running (n_workers s) = true -> n_alive s = true.
Proof.
  intros Q E. apply existsb_exists in E. destruct E as (w & IN & E). destruct w; try discriminate. apply In_nth_error in IN. destruct IN as (i & EN).
  specialize (Q (KAbort i) eq_refl). cbn [wstep nstep] in Q. rewrite EN in Q. destruct (n_alive s); [reflexivity|discriminate].
Qed.
Lemma quiet_drained n s h b now : inv n s h -> n_done s = false -> n_alive s = true -> quiet s b now -> forallb is_running (n_workers s) = false -> drained s.
Proof.
  intros V ND AL Q NA. assert (X : exists w, In w (n_workers s) /\ is_running w = false).
  { clear - NA. induction (n_workers s) as [|w l IH]; [discriminate|]. cbn [forallb] in NA. destruct (is_running w) eqn:E.
    - destruct (IH NA) as (y & I & F). exists y. split; [right; exact I|exact F].
    - exists w. split; [left; reflexivity|exact E]. }
  destruct X as (w & IN & NR). split.
  - destruct (quiet_workers _ _ _ Q w IN) as [->|[->|(j & ->)]]; [|exact (i_stop _ _ _ V _ IN eq_refl AL ND)|discriminate].
    apply In_nth_error in IN. destruct IN as (i & E). specialize (Q (KTake i) eq_refl). cbn [wstep nstep] in Q. rewrite E in Q. destruct (n_queue s); [reflexivity|discriminate].
  - intros w' IN'. destruct (quiet_workers _ _ _ Q w' IN') as [->|[->|(j & ->)]]; reflexivity.
Qed.
Lemma quiet_none s b now : quiet s b now -> existsb is_running (n_workers s) = false -> forall e, wstep f s e = None.
Proof.
  intros Q N e. destruct e; try exact (Q (KTake w) eq_refl); try exact (Q (KCheck w) eq_refl); try exact (Q (KStart w) eq_refl);
    try exact (Q (KSend w) eq_refl); try exact (Q (KQuit w) eq_refl); try exact (Q (KAbort w) eq_refl).
  cbn [wstep]. destruct (nth_error (n_workers s) w) as [[]|] eqn:E; try reflexivity. exfalso. apply nth_error_In in E.
  enough (X : existsb is_running (n_workers s) = true) by congruence. apply existsb_exists. eexists. split; [exact E|reflexivity].
Qed.
Lemma all_running s : forallb is_running (n_workers s) = true -> forall w, In w (n_workers s) -> exists j, w = WRunning j.
Proof. intros H w IN. rewrite forallb_forall in H. specialize (H _ IN). destruct w; try discriminate. eauto. Qed.
Lemma some_running s : existsb is_running (n_workers s) = true -> exists i j, nth_error (n_workers s) i = Some (WRunning j).
Proof. intros H. apply existsb_exists in H. destruct H as (w & IN & E). apply In_nth_error in IN. destruct IN as (i & EI). destruct w; try discriminate. eauto. Qed.
End Quiet.

Lemma lost_started {J R} (q : list (job J * outcome R)) : started (map (fun p => OLost (fst p) (snd p)) q) = [].
Proof. induction q as [|x q IH]; [reflexivity|exact IH]. Qed.

Section D.
Context {T P A M : Type} (addr_eqb : A -> A -> bool) (addr : P -> A) (addr_eqb_spec : forall a b, addr_eqb a b = true <-> a = b).
Context (announce : nat -> outcome (list P)) (fetch : P -> outcome (option M)).
Context (dT : job T -> nat) (dP : job P -> nat) (tau delta : nat).
Context (BT : forall j, dT j <= tau) (BP : forall j, dP j <= delta).
Context (nt np : nat) (trackers : list T) (found : list P).
Notation rst := (rst T P A M).
Notation tst := (tst T P A M).
Notation rstep := (@rstep T P A M addr_eqb addr announce fetch).
Notation tstep := (@tstep T P A M addr_eqb addr announce fetch dT dP).
Notation trun := (@trun T P A M addr_eqb addr announce fetch dT dP).
Notation prompt := (@prompt T P A M addr_eqb addr announce fetch dT dP).
Notation rinv := (@rinv T P A M addr announce fetch nt np trackers found).
Implicit Types (s : rst) (x : tst) (hT : list (obs T (list P))) (hP : list (obs P (option M))).

(** What the tasks other than the workers leave as it is. *)
Lemma task_frame s e s' o1 o2 : rstep s e = Some (s', o1, o2) -> (forall k, e <> Tr k) -> (forall k, e <> Pe k) ->
  n_workers (r_trackers s') = n_workers (r_trackers s) /\ n_workers (r_peers s') = n_workers (r_peers s) /\
  started o1 = [] /\ started o2 = [] /\
  ((exists rest, r_main s = MSpawn rest) \/ n_queue (r_trackers s') = n_queue (r_trackers s) /\ forall rest, r_main s' <> MSpawn rest) /\
  (live (r_job s) = true \/ n_queue (r_peers s') = n_queue (r_peers s) /\ (live (r_job s') = true -> live (r_job s) = true \/ exists rest, r_main s = MSpawn rest)).
Proof.
  intros H NT NP. destruct e as [| | |w|w]; [| | |destruct (NT w eq_refl)|destruct (NP w eq_refl)]; clear NT NP; cbn [M_Resolve.rstep] in H.
  - destruct (r_main s) as [[|t rest]| |i|i|i|r|] eqn:EM; cbn [nstep] in H; try discriminate;
    repeat match type of H with
    | match (match ?x with _ => _ end) with _ => _ end = Some _ => destruct x eqn:?; try discriminate
    | match (if ?x then _ else _) with _ => _ end = Some _ => destruct x eqn:?; try discriminate
    end; injection H as <- <- <-; cbn [with_main r_main r_job r_trackers r_peers n_workers n_queue]; rewrite ?EM;
    (split; [reflexivity|]); (split; [reflexivity|]); (split; [try reflexivity|]); (split; [try reflexivity; try apply lost_started|]); (split; [eauto|]); eauto.
    all: try (right; split; [reflexivity|]; eauto; fail).
    all: right; split; [reflexivity|]; intros rest; repeat match goal with |- context [match ?x with _ => _ end] => destruct x end; discriminate.
  - assert (NS : (exists rest, r_main s = MSpawn rest) \/ forall rest, r_main s <> MSpawn rest) by (destruct (r_main s); try (right; discriminate); left; eauto).
    assert (LV : live (r_job s) = true) by (destruct (r_job s); try discriminate; reflexivity).
    assert (X : n_workers (r_trackers s') = n_workers (r_trackers s) /\ n_workers (r_peers s') = n_workers (r_peers s) /\ started o1 = [] /\ started o2 = [] /\
      n_queue (r_trackers s') = n_queue (r_trackers s) /\ r_main s' = r_main s).
    { clear NS LV. destruct (r_job s) as [| |p| | |] eqn:EJ; try discriminate.
      + destruct (r_cur s) as [|p cur] eqn:EC.
        * unfold job_ends in H. destruct (r_dht s).
          -- cbn [nstep] in H. destruct (n_handles (r_peers s)); [discriminate|]. injection H as <- <- <-. repeat split.
          -- destruct (nstep (r_trackers s) Recv) as [[tn o]|] eqn:E.
             ++ cbn [nstep] in E. destruct (n_alive (r_trackers s)) eqn:ETA; [|discriminate]. destruct (n_out (r_trackers s)) as [|[j r] q] eqn:EQ; [discriminate|]. injection E as <- <-.
                destruct r as [ps|].
                ** injection H as <- <- <-. repeat split.
                ** cbn [nstep n_alive] in H. destruct (n_handles (r_peers s)); [discriminate|]. injection H as <- <- <-.
                   cbn [r_trackers r_peers r_main n_workers n_queue n_out]. split; [reflexivity|]. split; [reflexivity|]. split; [|repeat split]. apply lost_started.
             ++ destruct (nstep (r_trackers s) End) as [[tn o]|] eqn:E2; [|discriminate].
                cbn [nstep] in E2. destruct (n_out (r_trackers s)) eqn:EQ; [|discriminate]. destruct (n_alive (r_trackers s) && _); [|discriminate]. injection E2 as <- <-.
                cbn [nstep n_alive] in H. destruct (n_handles (r_peers s)); [discriminate|]. injection H as <- <- <-. repeat split.
        * destruct (negb (r_dht s) && existsb (addr_eqb (addr p)) (r_seen s)); injection H as <- <- <-; repeat split.
      + cbn [nstep] in H. destruct (n_handles (r_peers s)) eqn:EH; [discriminate|]. destruct (n_closed (r_peers s)) eqn:ECL.
        * rewrite EH in H. destruct (n_alive (r_trackers s)); [|discriminate]. injection H as <- <- <-.
          cbn [r_trackers r_peers r_main n_workers n_queue n_out]. split; [reflexivity|]. split; [reflexivity|]. split; [|repeat split]. apply lost_started.
        * injection H as <- <- <-. repeat split. }
    destruct X as (X1 & X2 & X3 & X4 & X5 & X6). split; [exact X1|]. split; [exact X2|]. split; [exact X3|]. split; [exact X4|]. split; [|left; exact LV].
    destruct NS as [NS|NS]; [left; exact NS|right]. split; [exact X5|]. rewrite X6. exact NS.
  - destruct (r_abort s); [|discriminate]. destruct (r_job s) eqn:EJ; try discriminate. unfold job_ends in H. cbn [nstep] in H.
    destruct (n_handles (r_peers s)); [discriminate|]. destruct (n_alive (r_trackers s)); [|discriminate]. injection H as <- <- <-.
    cbn [r_trackers r_peers r_main r_job n_workers n_queue]. split; [reflexivity|]. split; [reflexivity|]. split; [apply lost_started|]. split; [reflexivity|]. split; [|left; reflexivity].
    destruct (r_main s); try (right; split; [reflexivity|discriminate]). left. eauto.
Qed.

Record tinv x hT hP (a c KT KP : nat) : Prop := {
  y_r : rinv (t_r x) hT hP;
  y_t : pinv dT tau (r_trackers (t_r x)) (t_bt x) (t_now x) hT c KT;
  y_p : pinv dP delta (r_peers (t_r x)) (t_bp x) (t_now x) hP a KP;
  y_now : t_now x = a + c + KT + KP;
  y_kt : KT <> 0 -> forall rest, r_main (t_r x) <> MSpawn rest;
  y_kp : KP <> 0 -> live (r_job (t_r x)) = false
}.
Lemma tinv_act x hT hP a c KT KP e x' o1 o2 : tinv x hT hP a c KT KP -> tstep x (Act e) = Some (x', o1, o2) -> tinv x' (hT ++ o1) (hP ++ o2) a c KT KP.
Proof.
  intros [VR VT VP NOW HT HP] H. cbn [M_Duration.tstep] in H.
  match type of H with (if ?b then _ else _) = _ => destruct b eqn:EB; [|discriminate] end.
  destruct (rstep (t_r x) e) as [[[s' p1] p2]|] eqn:ER; [|discriminate]. injection H as <- <- <-.
  pose proof (rinv_step _ _ addr_eqb_spec _ _ _ _ _ _ _ _ _ _ _ _ _ VR ER) as VR'.
  destruct e as [| | |w|w].
  4:{ cbn [M_Resolve.rstep] in ER. destruct (wstep _ (r_trackers (t_r x)) w) as [[tn o]|] eqn:EW; [|discriminate]. injection ER as <- <- <-.
      split; cbn [t_r t_now t_bt t_bp r_trackers r_peers r_main r_job]; auto.
      - exact (pinv_w _ _ _ _ _ _ _ _ _ _ _ _ VT EW).
      - rewrite app_nil_r. exact VP. }
  4:{ cbn [M_Resolve.rstep] in ER. destruct (wstep _ (r_peers (t_r x)) w) as [[tn o]|] eqn:EW; [|discriminate]. injection ER as <- <- <-.
      split; cbn [with_main t_r t_now t_bt t_bp r_trackers r_peers r_main r_job]; auto.
      - rewrite app_nil_r. exact VT.
      - exact (pinv_w _ _ _ _ _ _ _ _ _ _ _ _ VP EW). }
  all: destruct (task_frame _ _ _ _ _ ER ltac:(discriminate) ltac:(discriminate)) as (W1 & W2 & S1 & S2 & Q1 & Q2).
  all: assert (QT : KT = 0 \/ n_queue (r_trackers s') = n_queue (r_trackers (t_r x)) /\ forall rest, r_main s' <> MSpawn rest)
    by (destruct Q1 as [(rest & E)|Q1]; [|right; exact Q1]; left; destruct KT; [reflexivity|]; destruct (HT (Nat.neq_succ_0 _) _ E)).
  all: assert (QP : KP = 0 \/ n_queue (r_peers s') = n_queue (r_peers (t_r x)) /\ live (r_job s') = false)
    by (destruct KP as [|K]; [left; reflexivity|right]; pose proof (HP (Nat.neq_succ_0 K)) as X; destruct Q2 as [Q2|(Q2 & Q3)]; [congruence|]; split; [exact Q2|];
        destruct (live (r_job s')); [|reflexivity]; destruct (Q3 eq_refl) as [Y|(rest & Y)]; [congruence|];
        pose proof (v_spawn _ _ _ _ _ _ _ _ _ _ VR) as Z; rewrite Y in Z; destruct Z as (_ & _ & _ & Z & _); rewrite Z in X; discriminate).
  all: split; cbn [t_r t_now t_bt t_bp]; auto;
    [apply (pinv_same _ _ _ _ _ _ _ _ _ _ VT); try assumption; destruct QT as [->|(QT & _)]; auto
    |apply (pinv_same _ _ _ _ _ _ _ _ _ _ VP); try assumption; destruct QP as [->|(QP & _)]; auto
    |destruct QT as [->|(_ & QT)]; [congruence|auto]
    |destruct QP as [->|(_ & QP)]; [congruence|auto]].
Qed.

Definition idle x : Prop := forall a, tstep x (Act a) = None.
Lemma idle_tr x : idle x -> quiet dT (fun j => announce (fst j)) (r_trackers (t_r x)) (t_bt x) (t_now x).
Proof.
  intros Q e O. specialize (Q (Tr e)). cbn [M_Duration.tstep] in Q. rewrite O in Q. cbn [M_Resolve.rstep] in Q.
  destruct (wstep _ _ _) as [[]|]; [discriminate|reflexivity].
Qed.
Lemma idle_pe x : idle x -> quiet dP (fun j => fetch (snd j)) (r_peers (t_r x)) (t_bp x) (t_now x).
Proof.
  intros Q e O. specialize (Q (Pe e)). cbn [M_Duration.tstep] in Q. rewrite O in Q. cbn [M_Resolve.rstep] in Q.
  destruct (wstep _ _ _) as [[]|]; [discriminate|reflexivity].
Qed.
Lemma idle_task x e : idle x -> (forall k, e <> Tr k) -> (forall k, e <> Pe k) -> rstep (t_r x) e = None.
Proof.
  intros Q N1 N2. specialize (Q e). cbn [M_Duration.tstep] in Q. destruct e as [| | |k|k]; [| | |destruct (N1 k eq_refl)|destruct (N2 k eq_refl)];
  (destruct (rstep (t_r x) _) as [[[? ?] ?]|]; [discriminate|reflexivity]).
Qed.
Definition ended (m : main_st T M) : bool := match m with MReturned _ | MPanicked => true | _ => false end.
Lemma idle_main x hT hP : rinv (t_r x) hT hP -> idle x -> ended (r_main (t_r x)) = false -> r_main (t_r x) = MLoop.
Proof.
  intros V Q NE. pose proof (v_alive _ _ _ _ _ _ _ _ _ _ V) as AL. pose proof (v_spawn _ _ _ _ _ _ _ _ _ _ V) as SP.
  pose proof (idle_task x Main Q ltac:(discriminate) ltac:(discriminate)) as SM. cbn [M_Resolve.rstep] in SM.
  destruct (r_main (t_r x)) as [[|t rest]| |i|i|i|r|] eqn:EM; try reflexivity; try discriminate.
  - destruct SP as (_ & _ & S3 & _). cbn [nstep] in SM. rewrite S3 in SM. discriminate.
  - destruct SP as (_ & S2 & S3 & _). cbn [nstep] in SM. rewrite S3, S2 in SM. discriminate.
  - cbn [nstep] in SM. rewrite AL in SM. discriminate.
Qed.
(** With no tracker job running, the task passing peers on is never left waiting. *)
Lemma idle_job x hT hP : rinv (t_r x) hT hP -> idle x -> ended (r_main (t_r x)) = false ->
  existsb is_running (n_workers (r_trackers (t_r x))) = false -> live (r_job (t_r x)) = false.
Proof.
  intros V Q NE NR. pose proof (idle_main _ _ _ V Q NE) as EM. pose proof (quiet_none _ _ _ _ _ (idle_tr _ Q) NR) as TN.
  pose proof (idle_task x Job Q ltac:(discriminate) ltac:(discriminate)) as SJ. cbn [M_Resolve.rstep] in SJ.
  pose proof (v_spawn _ _ _ _ _ _ _ _ _ _ V) as SP. rewrite EM in SP. pose proof (v_talive _ _ _ _ _ _ _ _ _ _ V) as TA.
  pose proof (v_handles _ _ _ _ _ _ _ _ _ _ V) as HN.
  assert (CL : live (r_job (t_r x)) = true -> n_closed (r_peers (t_r x)) = false).
  { intros LV. destruct (n_closed (r_peers (t_r x))) eqn:CL; [|reflexivity]. destruct (v_closed _ _ _ _ _ _ _ _ _ _ V CL) as [X|(i & X)]; congruence. }
  set (s := t_r x) in *.
  destruct (r_job s) as [| |p| | |] eqn:EJ; try reflexivity; exfalso; cbn [live] in *.
  - destruct SP as (X & _). congruence.
  - destruct (r_cur s) as [|p cur].
    + assert (JE : job_ends s <> None). { unfold job_ends. cbn [nstep]. rewrite HN. discriminate. }
      destruct (job_ends s) as [pn|]; [|congruence].
      destruct (r_dht s) eqn:ED; [discriminate|].
      destruct (nstep (r_trackers s) Recv) as [[tn o]|] eqn:ET.
      * assert (TA' : n_alive tn = true). { cbn [nstep] in ET. rewrite TA in ET. destruct (n_out (r_trackers s)) as [|[? ?] ?]; [discriminate|]. injection ET as <- <-. reflexivity. }
        assert (DS : nstep tn DropStream <> None). { cbn [nstep]. rewrite TA'. discriminate. }
        destruct (nstep tn DropStream) as [[? ?]|]; [|congruence].
        repeat match type of SJ with match ?x with _ => _ end = None => destruct x; try discriminate end.
      * pose proof (wstuck _ _ TN ET) as SKT. destruct (v_t _ _ _ _ _ _ _ _ _ _ V) as (n & VT & _).
        rewrite (stuck_ends _ _ _ VT TA SKT) in SJ; [discriminate|]. apply (i_closed _ _ _ VT). left. apply SP. reflexivity.
    + destruct (negb (r_dht s) && existsb (addr_eqb (addr p)) (r_seen s)); discriminate.
  - cbn [nstep] in SJ. rewrite HN, (CL eq_refl) in SJ. discriminate.
Qed.
Lemma idle_some x hT hP : rinv (t_r x) hT hP -> idle x -> ended (r_main (t_r x)) = false ->
  existsb is_running (n_workers (r_trackers (t_r x))) = true \/ existsb is_running (n_workers (r_peers (t_r x))) = true.
Proof.
  intros V Q NE. destruct (existsb is_running (n_workers (r_trackers (t_r x)))) eqn:E1; [left; reflexivity|].
  destruct (existsb is_running (n_workers (r_peers (t_r x)))) eqn:E2; [right; reflexivity|]. exfalso.
  destruct (progress addr_eqb _ _ _ _ _ _ _ _ _ _ V) as [(r & X)|X]; [|rewrite X in NE; discriminate|rewrite X in NE; discriminate].
  intros e. destruct e as [| | |k|k]; try (apply idle_task; [exact Q|discriminate|discriminate]).
  - cbn [M_Resolve.rstep]. rewrite (quiet_none _ _ _ _ _ (idle_tr _ Q) E1). reflexivity.
  - cbn [M_Resolve.rstep]. rewrite (quiet_none _ _ _ _ _ (idle_pe _ Q) E2). reflexivity.
Qed.
Lemma tinv_wait x hT hP a c KT KP t x' o1 o2 : tinv x hT hP a c KT KP -> idle x -> in_time dT dP x t -> tstep x (Wait t) = Some (x', o1, o2) ->
  exists a' c' KT' KP', tinv x' (hT ++ o1) (hP ++ o2) a' c' KT' KP'.
Proof.
  intros [VR VT VP NOW HT HP] Q (I1 & I2) H. cbn [M_Duration.tstep] in H.
  assert (NE : ended (r_main (t_r x)) = false) by (destruct (r_main (t_r x)); try discriminate; reflexivity).
  assert (H' : (mkT (t_r x) (t_now x + t) (t_bt x) (t_bp x), [], []) = (x', o1, o2)) by (destruct (r_main (t_r x)); try discriminate; congruence). clear H.
  injection H' as <- <- <-. rewrite !app_nil_r.
  pose proof (idle_main _ _ _ VR Q NE) as EM. destruct (v_t _ _ _ _ _ _ _ _ _ _ VR) as (n & IT & _). destruct (v_done _ _ _ _ _ _ _ _ _ _ VR) as (ND1 & ND2).
  pose proof (idle_tr _ Q) as QT. pose proof (idle_pe _ Q) as QP.
  destruct (forallb is_running (n_workers (r_peers (t_r x)))) eqn:E1.
  { exists (a + t), c, KT, KP. split; cbn [t_r t_now t_bt t_bp]; auto; [exact (pinv_wait _ _ _ _ _ _ _ _ _ VT I1)|exact (pinv_busy _ _ _ _ _ _ _ _ _ VP I2 (all_running _ E1))|lia]. }
  destruct (forallb is_running (n_workers (r_trackers (t_r x)))) eqn:E2.
  { exists a, (c + t), KT, KP. split; cbn [t_r t_now t_bt t_bp]; auto; [exact (pinv_busy _ _ _ _ _ _ _ _ _ VT I1 (all_running _ E2))|exact (pinv_wait _ _ _ _ _ _ _ _ _ VP I2)|lia]. }
  destruct (existsb is_running (n_workers (r_trackers (t_r x)))) eqn:E3.
  { destruct (some_running _ E3) as (i & j & E). exists a, c, (KT + t), KP.
    split; cbn [t_r t_now t_bt t_bp]; auto; [|exact (pinv_wait _ _ _ _ _ _ _ _ _ VP I2)|lia|intros _ rest; rewrite EM; discriminate].
    apply (pinv_last _ _ _ _ _ _ _ _ _ i j BT VT I1); [|exact E]. exact (quiet_drained _ _ _ _ _ _ _ IT ND1 (quiet_alive _ _ _ _ _ QT E3) QT E2). }
  destruct (idle_some _ _ _ VR Q NE) as [X|E4]; [congruence|].
  destruct (some_running _ E4) as (i & j & E). exists a, c, KT, (KP + t).
  split; cbn [t_r t_now t_bt t_bp]; auto; [exact (pinv_wait _ _ _ _ _ _ _ _ _ VT I1)| |lia|intros _; exact (idle_job _ _ _ VR Q NE E3)].
  apply (pinv_last _ _ _ _ _ _ _ _ _ i j BP VP I2); [|exact E]. exact (quiet_drained _ _ _ _ _ _ _ (v_p _ _ _ _ _ _ _ _ _ _ VR) ND2 (quiet_alive _ _ _ _ _ QP E4) QP E1).
Qed.
Lemma tinv_run l : forall x hT hP a c KT KP x' h1 h2, tinv x hT hP a c KT KP -> trun x l = Some (x', h1, h2) -> prompt x l ->
  exists a' c' KT' KP', tinv x' (hT ++ h1) (hP ++ h2) a' c' KT' KP'.
Proof.
  induction l as [|e l IH]; intros x hT hP a c KT KP x' h1 h2 V H PR; cbn [M_Duration.trun] in H.
  - injection H as <- <- <-. rewrite !app_nil_r. exists a, c, KT, KP. exact V.
  - destruct (tstep x e) as [[[x1 t1] p1]|] eqn:E; [|discriminate]. destruct (trun x1 l) as [[[x2 t2] p2]|] eqn:E2; [|discriminate]. injection H as <- <- <-.
    cbn [S_Duration.prompt] in PR. destruct PR as (P1 & P2). rewrite E in P2. rewrite !app_assoc.
    assert (V1 : exists a' c' KT' KP', tinv x1 (hT ++ t1) (hP ++ p1) a' c' KT' KP').
    { destruct e as [e|t]; [exists a, c, KT, KP; exact (tinv_act _ _ _ _ _ _ _ _ _ _ _ V E)|]. destruct P1 as (Q & I). exact (tinv_wait _ _ _ _ _ _ _ _ _ _ _ V Q I E). }
    destruct V1 as (a' & c' & KT' & KP' & V1). exact (IH _ _ _ _ _ _ _ _ _ _ V1 E2 P2).
Qed.
End D.
