From Verif Require Import Base BaseFacts M_Nursery S_Nursery P_Nursery M_Async S_Async M_Resolve S_Resolve P_Resolve P_Resolve2 P_Resolve3 P_Limits M_Net M_Magnet M_Http M_Config M_Get P_Dht M_Duration S_Duration P_Duration P_Duration2.
Local Open Scope nat_scope.

Lemma started_le {J R} n (s : nst J R) h : inv n s h -> length (started h) <= length (accepted h).
Proof.
  intros V. assert (NA : NoDup (map fst (accepted h))) by (rewrite (i_num _ _ _ V); apply seq_NoDup).
  assert (NS : NoDup (map fst (started h))).
  { apply nodup_cj. intros k. pose proof (cj_nodup k _ NA) as X. pose proof (i_pre _ _ _ V k). rewrite (i_queue _ _ _ V), cj_app in X. lia. }
  apply NoDup_incl_length; [exact (nodup_fst _ NS)|]. intros j IN. apply (i_from _ _ _ V). auto.
Qed.
Lemma total_le {J} (d : J -> nat) c l : (forall j, d j <= c) -> total d l <= c * length l.
Proof. exact (W_bound d c l). Qed.

Section D.
Context {T P A M : Type} (addr_eqb : A -> A -> bool) (addr : P -> A) (addr_eqb_spec : forall a b, addr_eqb a b = true <-> a = b).
Context (announce : nat -> outcome (list P)) (fetch : P -> outcome (option M)).
Context (dT : job T -> nat) (dP : job P -> nat).
Notation rst := (rst T P A M).
Notation tst := (tst T P A M).
Notation rstep := (@rstep T P A M addr_eqb addr announce fetch).
Notation tstep := (@tstep T P A M addr_eqb addr announce fetch dT dP).
Notation trun := (@trun T P A M addr_eqb addr announce fetch dT dP).
Notation prompt := (@prompt T P A M addr_eqb addr announce fetch dT dP).
Implicit Types (s : rst) (x : tst) (hT : list (obs T (list P))) (hP : list (obs P (option M))).

Lemma tinv_start tau delta nt np trackers dht s0 : r_start nt np trackers dht = Some s0 ->
  tinv addr announce fetch dT dP tau delta nt np trackers (found_of dht) (t_start s0) [] [] 0 0 0 0.
Proof.
  intros H. destruct (start_inv addr announce fetch _ _ _ _ _ H) as (V & _).
  split; cbn [t_start t_r t_now t_bt t_bp]; auto; try congruence.
  - unfold r_start in H. destruct trackers; [destruct dht; [|discriminate]|]; injection H as <-; apply pinv_new.
  - unfold r_start in H. destruct trackers; [destruct dht; [|discriminate]|]; injection H as <-; apply pinv_new.
Qed.
Lemma d_reach tau delta nt np trackers dht s0 l x hT hP : (forall j, dT j <= tau) -> (forall j, dP j <= delta) ->
  r_start nt np trackers dht = Some s0 -> trun (t_start s0) l = Some (x, hT, hP) -> prompt (t_start s0) l ->
  exists a c KT KP, tinv addr announce fetch dT dP tau delta nt np trackers (found_of dht) x hT hP a c KT KP.
Proof.
  intros BT BP H0 H PR. exact (tinv_run _ _ addr_eqb_spec _ _ _ _ _ _ BT BP _ _ _ _ _ _ _ _ _ _ _ _ _ _ _ (tinv_start _ _ _ _ _ _ _ H0) H PR).
Qed.
Lemma trun_rinv nt np trackers found l : forall x hT hP x' h1 h2, rinv addr announce fetch nt np trackers found (t_r x) hT hP ->
  trun x l = Some (x', h1, h2) -> rinv addr announce fetch nt np trackers found (t_r x') (hT ++ h1) (hP ++ h2).
Proof.
  induction l as [|e l IH]; intros x hT hP x' h1 h2 V H; cbn [M_Duration.trun] in H.
  - injection H as <- <- <-. rewrite !app_nil_r. exact V.
  - destruct (tstep x e) as [[[x1 t1] p1]|] eqn:E; [|discriminate]. destruct (trun x1 l) as [[[x2 t2] p2]|] eqn:E2; [|discriminate]. injection H as <- <- <-.
    rewrite !app_assoc. apply (IH _ _ _ _ _ _) with (2 := E2). destruct e as [e|t]; cbn [M_Duration.tstep] in E.
    + match type of E with (if ?b then _ else _) = _ => destruct b; [|discriminate] end.
      destruct (rstep (t_r x) e) as [[[s' q1] q2]|] eqn:ER; [|discriminate]. injection E as <- <- <-.
      exact (rinv_step _ _ addr_eqb_spec _ _ _ _ _ _ _ _ _ _ _ _ _ V ER).
    + assert (E' : (mkT (t_r x) (t_now x + t) (t_bt x) (t_bp x), [], []) = (x1, t1, p1)) by (destruct (r_main (t_r x)); try discriminate; congruence).
      injection E' as <- <- <-. rewrite !app_nil_r. exact V.
Qed.

Lemma tstep_r x e x' o1 o2 : tstep x e = Some (x', o1, o2) ->
  (exists a, e = Act a /\ rstep (t_r x) a = Some (t_r x', o1, o2)) \/
  (exists t, e = Wait t /\ t_r x' = t_r x /\ t_now x' = t_now x + t /\ o1 = [] /\ o2 = [] /\ ended (r_main (t_r x)) = false).
Proof.
  intros E. destruct e as [e|t]; cbn [M_Duration.tstep] in E.
  - left. match type of E with (if ?b then _ else _) = _ => destruct b; [|discriminate] end.
    destruct (rstep (t_r x) e) as [[[s' q1] q2]|] eqn:ER; [|discriminate]. injection E as <- <- <-. exists e. split; [reflexivity|exact ER].
  - right. exists t. assert (NE : ended (r_main (t_r x)) = false) by (destruct (r_main (t_r x)); try discriminate; reflexivity).
    assert (E' : (mkT (t_r x) (t_now x + t) (t_bt x) (t_bp x), [], []) = (x', o1, o2)) by (destruct (r_main (t_r x)); try discriminate; congruence).
    injection E' as <- <- <-. conjs; auto.
Qed.
Lemma rstep_len s e s' o1 o2 : rstep s e = Some (s', o1, o2) -> length (n_workers (r_trackers s')) = length (n_workers (r_trackers s)) /\
  length (started o1) + length (started o2) <= 1.
Proof.
  intros H. destruct e as [| | |w|w].
  4:{ cbn [M_Resolve.rstep] in H. destruct (wstep _ (r_trackers s) w) as [[tn o]|] eqn:EW; [|discriminate]. injection H as <- <- <-. cbn [r_trackers].
      destruct (wstep_shape _ _ _ _ _ EW) as (k & y & z & EX & -> & _ & C). rewrite set_nth_length. split; [reflexivity|].
      destruct C as [(j & _ & _ & _ & -> & _)|(_ & _ & -> & _)]; cbn; lia. }
  4:{ cbn [M_Resolve.rstep] in H. destruct (wstep _ (r_peers s) w) as [[tn o]|] eqn:EW; [|discriminate]. injection H as <- <- <-. cbn [with_main r_trackers].
      destruct (wstep_shape _ _ _ _ _ EW) as (k & y & z & EX & _ & _ & C). split; [reflexivity|].
      destruct C as [(j & _ & _ & _ & -> & _)|(_ & _ & -> & _)]; cbn; lia. }
  all: destruct (task_frame _ _ _ _ _ _ _ _ _ H ltac:(discriminate) ltac:(discriminate)) as (W1 & _ & S1 & S2 & _); rewrite W1, S1, S2; cbn; auto.
Qed.
Lemma trun_fix l : forall x x' h1 h2, trun x l = Some (x', h1, h2) ->
  r_dht (t_r x') = r_dht (t_r x) /\ length (n_workers (r_trackers (t_r x'))) = length (n_workers (r_trackers (t_r x))).
Proof.
  induction l as [|e l IH]; intros x x' h1 h2 H; cbn [M_Duration.trun] in H; [injection H as <- <- <-; auto|].
  destruct (tstep x e) as [[[x1 t1] p1]|] eqn:E; [|discriminate]. destruct (trun x1 l) as [[[x2 t2] p2]|] eqn:E2; [|discriminate]. injection H as <- <- <-.
  destruct (IH _ _ _ _ E2) as (-> & ->). destruct (tstep_r _ _ _ _ _ E) as [(a & -> & ER)|(t & _ & -> & _)]; [|auto].
  split; [|exact (proj1 (rstep_len _ _ _ _ _ ER))]. exact (dht_step _ _ _ _ _ _ _ _ _ ER).
Qed.

Lemma d_bound tau delta nt np trackers dht s0 l x hT hP : (forall j, dT j <= tau) -> (forall j, dP j <= delta) ->
  r_start nt np trackers dht = Some s0 -> trun (t_start s0) l = Some (x, hT, hP) -> prompt (t_start s0) l ->
  nt * np * t_now x <= np * total dT (started hT) + nt * total dP (started hP) + nt * np * (tau + delta).
Proof.
  intros BT BP H0 H PR. destruct (d_reach _ _ _ _ _ _ _ _ _ _ _ BT BP H0 H PR) as (a & c & KT & KP & [V VT VP NOW _ _]).
  pose proof (p_sum _ _ _ _ _ _ _ _ VP) as SP. pose proof (p_last _ _ _ _ _ _ _ _ VP) as LP. rewrite (i_len _ _ _ (v_p _ _ _ _ _ _ _ _ _ _ V)) in SP.
  pose proof (p_sum _ _ _ _ _ _ _ _ VT) as ST. pose proof (p_last _ _ _ _ _ _ _ _ VT) as LT. destruct (v_t _ _ _ _ _ _ _ _ _ _ V) as (n & IT & NE).
  assert (X : nt * c <= total dT (started hT)).
  { destruct (trun_fix _ _ _ _ _ H) as (F1 & F2). cbn [t_start t_r] in F1, F2.
    destruct (r_dht (t_r x)) eqn:ED; [|rewrite (i_len _ _ _ IT), (NE eq_refl) in ST; lia].
    rewrite (inv_idle _ _ _ IT (v_dht _ _ _ _ _ _ _ _ _ _ V ED)) in *. cbn [total map list_sum fold_right] in *.
    unfold r_start in H0. destruct trackers as [|t ts]; [|injection H0 as <-; discriminate]. destruct dht as [fd|]; [|discriminate]. injection H0 as <-.
    cbn [r_init_dht r_trackers new n_workers] in F2. rewrite F2 in ST. change (length (repeat (@WIdle T (list P)) 1)) with 1 in ST. unfold total in ST. cbn in ST. nia. }
  clear - SP LP LT NOW X. set (U := total dT (started hT)) in *. set (Z := total dP (started hP)) in *. rewrite NOW.
  assert (np * a <= Z) by lia. assert (nt * (np * a) <= nt * Z) by (apply Nat.mul_le_mono_l; assumption).
  assert (np * (nt * c) <= np * U) by (apply Nat.mul_le_mono_l; assumption).
  assert (nt * np * (KT + KP) <= nt * np * (tau + delta)) by (apply Nat.mul_le_mono_l; lia).
  replace (nt * np * (a + c + KT + KP)) with (nt * (np * a) + np * (nt * c) + nt * np * (KT + KP)) by nia. lia.
Qed.
Lemma d_simple tau delta nt np trackers dht s0 l x hT hP : (forall j, dT j <= tau) -> (forall j, dP j <= delta) ->
  r_start nt np trackers dht = Some s0 -> trun (t_start s0) l = Some (x, hT, hP) -> prompt (t_start s0) l ->
  nt * np * t_now x <= np * (length trackers * tau) + nt * (length (contacted hP) * delta) + nt * np * (tau + delta).
Proof.
  intros BT BP H0 H PR. pose proof (d_bound _ _ _ _ _ _ _ _ _ _ _ BT BP H0 H PR) as B.
  destruct (start_inv addr announce fetch _ _ _ _ _ H0) as (V0 & _). pose proof (trun_rinv _ _ _ _ _ (t_start s0) _ _ _ _ _ V0 H) as V. cbn [app] in V.
  destruct (v_t _ _ _ _ _ _ _ _ _ _ V) as (n & IT & _). pose proof (started_le _ _ _ IT) as S1. pose proof (started_le _ _ _ (v_p _ _ _ _ _ _ _ _ _ _ V)) as S2.
  assert (AT : length (accepted hT) <= length trackers).
  { pose proof (v_spawn _ _ _ _ _ _ _ _ _ _ V) as SP. pose proof (v_dht _ _ _ _ _ _ _ _ _ _ V) as DH.
    destruct (r_dht (t_r x)); [rewrite (DH eq_refl); apply Nat.le_0_l|].
    destruct (r_main (t_r x)); try (destruct SP as (_ & SP); destruct (SP eq_refl) as (<- & _); rewrite map_length; reflexivity).
    destruct SP as (SP & _). apply (f_equal (@length T)) in SP. rewrite app_length, map_length in SP. rewrite <- SP. apply Nat.le_add_r. }
  unfold contacted. rewrite map_length. pose proof (total_le dT tau (started hT) BT) as T1. pose proof (total_le dP delta (started hP) BP) as T2.
  assert (total dT (started hT) <= length trackers * tau) by nia. assert (total dP (started hP) <= length (accepted hP) * delta) by nia.
  assert (np * total dT (started hT) <= np * (length trackers * tau)) by (apply Nat.mul_le_mono_l; assumption).
  assert (nt * total dP (started hP) <= nt * (length (accepted hP) * delta)) by (apply Nat.mul_le_mono_l; assumption).
  eapply Nat.le_trans; [exact B|]. apply Nat.add_le_mono_r. apply Nat.add_le_mono; assumption.
Qed.

(** Time does not stand still. *)
Lemma d_goes_on nt np trackers dht s0 l x hT hP : r_start nt np trackers dht = Some s0 -> trun (t_start s0) l = Some (x, hT, hP) ->
  (forall r, r_main (t_r x) <> MReturned r) -> r_main (t_r x) <> MPanicked -> (forall a, tstep x (Act a) = None) ->
  in_time dT dP x 1 /\ tstep x (Wait 1) <> None.
Proof.
  intros H0 H N1 N2 Q. split.
  - split; intros w j E.
    + exact (quiet_late _ _ _ _ _ _ _ (idle_tr _ _ _ _ _ _ _ Q) E).
    + exact (quiet_late _ _ _ _ _ _ _ (idle_pe _ _ _ _ _ _ _ Q) E).
  - cbn [M_Duration.tstep]. destruct (r_main (t_r x)) as [| | | | |r|]; try discriminate; [destruct (N1 r eq_refl)|destruct (N2 eq_refl)].
Qed.
(** Once a peer's metadata is there, no more time passes. *)
Lemma hit_not_idle nt np trackers found x hT hP j i : rinv addr announce fetch nt np trackers found (t_r x) hT hP ->
  In (j, Ret (Some i)) (finished hP) -> ended (r_main (t_r x)) = false -> (forall a, tstep x (Act a) = None) -> False.
Proof.
  intros V F NE Q. pose proof (idle_main _ _ _ _ _ _ _ _ _ _ _ _ _ V Q NE) as EM. pose proof (v_p _ _ _ _ _ _ _ _ _ _ V) as IP.
  pose proof (v_alive _ _ _ _ _ _ _ _ _ _ V) as AL. rewrite EM in AL.
  destruct (i_res' _ _ _ IP _ _ F) as [X|[X|[X|X]]].
  - destruct (quiet_workers _ _ _ _ _ (idle_pe _ _ _ _ _ _ _ Q) _ X) as [E|[E|(k & E)]]; discriminate.
  - pose proof (idle_task _ _ _ _ _ _ x Main Q ltac:(discriminate) ltac:(discriminate)) as SM. cbn [M_Resolve.rstep] in SM. rewrite EM in SM. cbn [nstep] in SM. rewrite AL in SM.
    destruct (n_out (r_peers (t_r x))) as [|[? ?] ?]; [destruct X|discriminate].
  - pose proof (v_res _ _ _ _ _ _ _ _ _ _ V) as RS. rewrite EM in RS. cbn [got] in RS.
    specialize (RS (snd j) (Ret (Some i))). discriminate RS. unfold results. apply in_map_iff. exists (j, Ret (Some i)). auto.
  - rewrite (proj2 (i_alive _ _ _ IP AL)) in X. destruct X.
Qed.
Lemma d_at_once nt np trackers dht s0 l1 x1 hT1 hP1 j i l2 x2 hT2 hP2 : r_start nt np trackers dht = Some s0 ->
  trun (t_start s0) l1 = Some (x1, hT1, hP1) -> In (j, Ret (Some i)) (finished hP1) ->
  trun x1 l2 = Some (x2, hT2, hP2) -> prompt x1 l2 -> t_now x2 = t_now x1.
Proof.
  intros H0 H F. destruct (start_inv addr announce fetch _ _ _ _ _ H0) as (V0 & _). pose proof (trun_rinv _ _ _ _ _ (t_start s0) _ _ _ _ _ V0 H) as V. cbn [app] in V. clear H V0.
  revert x1 hT1 hP1 x2 hT2 hP2 V F. induction l2 as [|e l IH]; intros x hT hP x2 h1 h2 V F H PR; cbn [M_Duration.trun] in H.
  - injection H as <- <- <-. reflexivity.
  - destruct (tstep x e) as [[[x1 t1] p1]|] eqn:E; [|discriminate]. destruct (trun x1 l) as [[[x2' t2] p2]|] eqn:E2; [|discriminate]. injection H as <- <- <-.
    cbn [S_Duration.prompt] in PR. destruct PR as (P1 & P2). rewrite E in P2. destruct (tstep_r _ _ _ _ _ E) as [(a & -> & ER)|(t & -> & _ & _ & _ & _ & NE)].
    + assert (TN : t_now x1 = t_now x).
      { cbn [M_Duration.tstep] in E. match type of E with (if ?b then _ else _) = _ => destruct b; [|discriminate] end. rewrite ER in E. apply (f_equal (fun o => match o with Some (y, _, _) => t_now y | None => 0 end)) in E. symmetry. exact E. }
      rewrite <- TN. apply (IH _ (hT ++ t1) (hP ++ p1) _ _ _) with (3 := E2) (4 := P2).
      * exact (rinv_step _ _ addr_eqb_spec _ _ _ _ _ _ _ _ _ _ _ _ _ V ER).
      * rewrite finished_app. apply in_or_app. left. exact F.
    + destruct P1 as (Q & _). destruct (hit_not_idle _ _ _ _ _ _ _ _ _ V F NE Q).
Qed.
(** It comes to an end. *)
Lemma trun_count l : forall x x' h1 h2, trun x l = Some (x', h1, h2) -> (forall t, In (Wait t) l -> t <> 0) ->
  exists n, length l + rmu announce fetch (t_r x') <= n + rmu announce fetch (t_r x) /\ n + t_now x <= t_now x' /\
    length (started h1) + length (started h2) <= rmu announce fetch (t_r x).
Proof.
  induction l as [|e l IH]; intros x x' h1 h2 H NZ; cbn [M_Duration.trun] in H.
  - injection H as <- <- <-. exists 0. cbn. conjs; lia.
  - destruct (tstep x e) as [[[x1 t1] p1]|] eqn:E; [|discriminate]. destruct (trun x1 l) as [[[x2 t2] p2]|] eqn:E2; [|discriminate]. injection H as <- <- <-.
    destruct (IH _ _ _ _ E2) as (n & L1 & L2 & L3); [intros t I; apply NZ; right; exact I|].
    rewrite !started_app, !app_length. cbn [length]. destruct (tstep_r _ _ _ _ _ E) as [(a & -> & ER)|(t & -> & ET & EN & -> & -> & NE)].
    + assert (TN : t_now x1 = t_now x).
      { cbn [M_Duration.tstep] in E. match type of E with (if ?b then _ else _) = _ => destruct b; [|discriminate] end. rewrite ER in E. apply (f_equal (fun o => match o with Some (y, _, _) => t_now y | None => 0 end)) in E. symmetry. exact E. }
      pose proof (rmu_step _ _ addr_eqb_spec _ _ _ _ _ _ _ ER). pose proof (proj2 (rstep_len _ _ _ _ _ ER)). exists n. conjs; lia.
    + assert (t <> 0) by (apply NZ; left; reflexivity). exists (S n). rewrite ET in *. cbn [started pick flat_map length]. conjs; lia.
Qed.
Lemma d_ends tau delta nt np trackers dht s0 : nt <> 0 -> np <> 0 -> (forall j, dT j <= tau) -> (forall j, dP j <= delta) -> r_start nt np trackers dht = Some s0 ->
  exists bound, forall l x hT hP, trun (t_start s0) l = Some (x, hT, hP) -> prompt (t_start s0) l -> (forall t, In (Wait t) l -> t <> 0) -> length l <= bound.
Proof.
  intros N1 N2 BT BP H0. set (m := rmu announce fetch s0). exists (m + (np * (tau * m) + nt * (delta * m) + nt * np * (tau + delta))).
  intros l x hT hP H PR NZ. destruct (trun_count _ _ _ _ _ H NZ) as (n & L1 & L2 & L3). cbn [t_start t_r t_now] in *. fold m in L1, L3.
  pose proof (d_bound _ _ _ _ _ _ _ _ _ _ _ BT BP H0 H PR) as B.
  pose proof (total_le dT tau (started hT) BT) as T1. pose proof (total_le dP delta (started hP) BP) as T2.
  assert (total dT (started hT) <= tau * m) by nia. assert (total dP (started hP) <= delta * m) by nia.
  assert (np * total dT (started hT) <= np * (tau * m)) by (apply Nat.mul_le_mono_l; assumption).
  assert (nt * total dP (started hP) <= nt * (delta * m)) by (apply Nat.mul_le_mono_l; assumption).
  assert (t_now x <= nt * np * t_now x) by (destruct nt; [congruence|]; destruct np; [congruence|]; nia). lia.
Qed.
End D.

Lemma get_duration cfg pid m w (dT : job tracker -> nat) (dP : job contact -> nat) tau delta s0 l x hT hP :
  (forall j, dT j <= tau) -> (forall j, dP j <= delta) -> get_start cfg m w = Some s0 ->
  trun sa_eqb contact_addr (w_announce w) (contact_fetch cfg pid (mg_hash m) w) dT dP (t_start s0) l = Some (x, hT, hP) ->
  prompt sa_eqb contact_addr (w_announce w) (contact_fetch cfg pid (mg_hash m) w) dT dP (t_start s0) l ->
  let nt := N.to_nat (c_tracker_jobs cfg) in let np := N.to_nat (c_peer_jobs cfg) in
  nt * np * t_now x <= np * (length (mg_trackers m) * tau) + nt * (length (contacted hP) * delta) + nt * np * (tau + delta).
Proof. intros BT BP H0 H PR. exact (d_simple _ _ sa_eqb_eq _ _ _ _ _ _ _ _ _ _ _ _ _ _ _ BT BP H0 H PR). Qed.
