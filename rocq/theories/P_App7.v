(** Proofs for the shared DHT node: failures to start it; examples. *)
From Verif Require Import Base M_Net M_DhtMsg M_Dht S_Dht M_App S_App P_Dht2 P_App P_App2 P_App3 P_App4 P_App5 P_App6.
Local Open Scope nat_scope.

Lemma run_split la e lb s s' h : prun s (la ++ e :: lb) = Some (s', h) ->
  exists sa ha sb o hb, prun s la = Some (sa, ha) /\ pstep sa e = Some (sb, o) /\ prun sb lb = Some (s', hb) /\ h = ha ++ o ++ hb.
Proof.
  rewrite prun_app. destruct (prun s la) as [[sa ha]|] eqn:E1; [|discriminate]. cbn [prun]. destruct (pstep sa e) as [[sb o]|] eqn:E2; [|discriminate]. destruct (prun sb lb) as [[s2 hb]|] eqn:E3; [|discriminate].
  intros [= <- <-]. exists sa, ha, sb, o, hb. auto.
Qed.
Lemma boot_failed l s h n : Forall wf_pev l -> prun app_new l = Some (s, h) -> In (PResolve n []) l -> (forall m x, ~ In (ODht m x) h) /\ (forall t r, ~ In (OReturn t (Found r)) h).
Proof.
  intros W R X. apply in_split in X. destruct X as (la & lb & ->). apply run_split in R. destruct R as (sa & ha & sb & o & hb & R1 & E & R2 & ->). apply forall_split in W. destruct W as (W1 & W2 & W3). assert (V := reached _ _ _ W1 R1).
  assert (V2 := pinv_step _ _ _ _ _ _ V W2 E). cbn [pstep] in E. destruct (nth_error (p_nodes sa) n) as [d|] eqn:EN; [|discriminate]. destruct (node_zero _ _ _ _ (v_nodes _ _ _ V) EN) as (-> & EN').
  destruct (dn_state d) as [id v6|a|] eqn:DS; try discriminate. cbn [actor_start a_running] in E. destruct (dies sa 0 d) as [s1 p1] eqn:E1. injection E as <- <-.
  assert (K := dies_returns _ _ _ _ _ E1). apply dies_calls in E1. destruct E1 as (_ & E2 & _).
  assert (D : ended s1) by (exists (mkNode Dead [] (dn_callers d)); rewrite E2, EN'; auto). destruct (dead_run lb _ _ _ _ _ V2 D W3 R2) as (_ & K2).
  assert (NV := nodes_ninv _ _ _ (v_nodes _ _ _ V) EN'). pose proof (n_state _ _ _ _ NV) as ST. unfold state_inv in ST. rewrite DS in ST. destruct ST as (ST1 & ST2). split.
  - intros m x X. apply in_app_iff in X. destruct X as [X|X].
    + assert (Y : of_node m ha = []). { destruct (Nat.eq_dec m 0) as [->|NE]; [exact ST1|]. destruct (v_nodes _ _ _ V) as [(_ & _ & _ & A & _)|(d' & _ & _ & _ & A & _)]; [apply A|apply A; exact NE]. }
      assert (Z : In x (of_node m ha)). { unfold of_node. apply in_flat_map. exists (ODht m x). rewrite Nat.eqb_refl. cbn. auto. } rewrite Y in Z. destruct Z.
    + apply in_app_iff in X. destruct X as [X|X]; [destruct (K _ X) as (? & ? & Y & _); discriminate|exact (K2 _ X)].
  - intros t r X. apply in_app_iff in X. destruct X as [X|X].
    + apply in_results in X. rewrite (proj2 (v_calls _ _ _ V)) in X. destruct (nth_error (p_calls sa) t) as [[c st]|] eqn:N; [|destruct X]. destruct st; try (destruct X; fail). destruct X as [->|[]].
      apply (n_found _ _ _ _ NV) in N. rewrite ST2 in N. destruct N.
    + apply in_app_iff in X. destruct X as [X|X]; [destruct (K _ X) as (? & ? & Y & Z); injection Y as -> <-; exact (Z _ eq_refl)|exact (K2 _ X)].
Qed.
Lemma tries_again l s h t hash s1 o1 id v6 : Forall wf_pev l -> prun app_new l = Some (s, h) -> created h = [] -> In (OBegin t (CLookup hash)) h -> pstep s (PLock t) = Some (s1, o1) ->
  exists s2 o2, pstep s1 (PCreate t (Some (id, v6))) = Some (s2, o2) /\ created o2 = [0].
Proof.
  intros W R C B E. apply (reached _ _ _ W) in R. apply (proj1 (v_calls _ _ _ R)) in B. destruct B as (st & N). cbn [pstep] in E. destruct (p_lock s); [discriminate|]. rewrite N in E. destruct st; try discriminate.
  destruct (v_nodes _ _ _ R) as [(A1 & A2 & _)|(d & _ & _ & A3 & _)]; [|congruence]. rewrite A1 in E. injection E as <- <-. cbn [pstep p_calls p_nodes p_lock]. rewrite (set_nth_same _ _ _ _ N), A2. do 2 eexists. split; reflexivity.
Qed.

(** An execution: a first lookup fails since no socket can be bound; two others succeed, a
    fourth is dropped while it waits, a shutdown stops the node, and a last lookup fails. *)
Definition state_of (l : list pev) : appst := match prun app_new l with Some (s, _) => s | None => app_new end.
Definition seen_of (l : list pev) : list pobs := match prun app_new l with Some (_, h) => h | None => [] end.
Definition ex_hash (b : byte) : bytes := repeat b 20.
Definition ex_addr : sockaddr := mkSA (V4 16909060) 6881.
Definition ex_run : list pev :=
  [PCall (CLookup (ex_hash x01)); PLock 0; PCreate 0 None;
   PCall (CLookup (ex_hash x02)); PCall (CLookup (ex_hash x03)); PLock 2; PCreate 2 (Some (ex_hash xff, false)); PLock 1; PSend 1; PSend 2;
   PResolve 0 [ex_addr]; PTake 0 []; PTake 0 [];
   PNet 0 (ATimeout (ex_addr, [x00; x00; x00; x01]) (Some 1)); PCall (CLookup (ex_hash x04)); PLock 3; PSend 3; PCancel 3;
   PNet 0 (ATimeout (ex_addr, [x00; x00; x00; x00]) (Some 0));
   PCall CShutdown; PLock 4; PSend 4; PTake 0 []; PTake 0 []; PCall (CLookup (ex_hash x05)); PLock 5; PSend 5].
Lemma ex_wf : Forall wf_pev ex_run.
Proof. repeat constructor. Qed.
Lemma ex_prun : exists s h, prun app_new ex_run = Some (s, h) /\ created h = [0] /\ results h 0 = [CreateFailed] /\ results h 1 = [Found (mkFound [] [])] /\ results h 2 = [Found (mkFound [] [])] /\
  results h 3 = [] /\ results h 4 = [Stopped] /\ results h 5 = [HandleFailed] /\ In (OServe 2 0 1) h /\ In (OLookup 1 (ex_hash x03)) (of_node 0 h).
Proof. exists (state_of ex_run), (seen_of ex_run). do 8 (split; [vm_compute; reflexivity|]). split; vm_compute; tauto. Qed.
(** The bootstrap fails: no call ever finds anything. *)
Definition ex_fail : list pev :=
  [PCall (CLookup (ex_hash x01)); PLock 0; PCreate 0 (Some (ex_hash xff, true)); PSend 0; PResolve 0 []; PCall (CLookup (ex_hash x02)); PLock 1; PSend 1].
Lemma ex_failed : exists s h, prun app_new ex_fail = Some (s, h) /\ results h 0 = [HandleFailed] /\ results h 1 = [HandleFailed].
Proof. exists (state_of ex_fail), (seen_of ex_fail). do 2 (split; [vm_compute; reflexivity|]). vm_compute; reflexivity. Qed.
(** In the middle: one call waits for the node, another for the mutex. *)
Definition ex_mid : list pev := [PCall (CLookup (ex_hash x01)); PLock 0; PCreate 0 (Some (ex_hash xff, true)); PSend 0; PCall CShutdown; PResolve 0 [ex_addr]; PTake 0 []].
Lemma ex_middle : exists s h, prun app_new ex_mid = Some (s, h) /\ pending ex_mid h 0 /\ pending ex_mid h 1 /\ (forall n, few (of_node n h)) /\ queued s = 0 /\ timers s = 1.
Proof.
  exists (state_of ex_mid), (seen_of ex_mid). split; [vm_compute; reflexivity|]. split; [split; [|split; [vm_compute; reflexivity|]]|split; [split; [|split; [vm_compute; reflexivity|]]|split; [|split; vm_compute; reflexivity]]].
  - exists (CLookup (ex_hash x01)). vm_compute. tauto.
  - cbn. intuition discriminate.
  - exists CShutdown. vm_compute. tauto.
  - cbn. intuition discriminate.
  - intros n. unfold few. destruct n; vm_compute; discriminate.
Qed.
