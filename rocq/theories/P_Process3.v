(** Proofs for the process as a whole: shutting down the DHT node. *)
From Verif Require Import Base BaseFacts M_Net M_Tracker M_Session M_Announce M_Http M_Mse M_Config M_DhtMsg M_Dht S_Dht M_App S_App M_Async M_Process S_Process
  P_App P_App2 P_App3 P_App4 P_App5 P_Process.
Local Open Scope nat_scope.

(** A node that still resolves host names has a lookup waiting for it. *)
Definition awaited (s : appst) : Prop :=
  forall d id v6, p_nodes s = [d] -> dn_state d = Resolving id v6 ->
    exists t hash st, nth_error (p_calls s) t = Some (CLookup hash, st) /\ match st with TSend _ | TWait _ | TGone => True | _ => False end.
Lemma awaited_calls s s' : awaited s -> p_nodes s' = p_nodes s -> p_calls s' = p_calls s -> awaited s'.
Proof. unfold awaited. intros A -> ->. exact A. Qed.
(** One call moves on, not to its end. *)
Lemma awaited_put s s' t c st st' : awaited s -> nth_error (p_calls s) t = Some (c, st) -> p_calls s' = set_nth (p_calls s) t (c, st') ->
  match st' with TSend _ | TWait _ | TGone => True | _ => match st with TSend _ | TWait _ | TGone => False | _ => True end end ->
  (forall d' id v6, p_nodes s' = [d'] -> dn_state d' = Resolving id v6 -> exists d, p_nodes s = [d] /\ dn_state d = Resolving id v6) -> awaited s'.
Proof.
  intros A N E M D d' id v6 N' D'. destruct (D _ _ _ N' D') as (d & Nd & Dd). destruct (A _ _ _ Nd Dd) as (i & hash & st0 & Ni & Mi). rewrite E.
  destruct (Nat.eq_dec t i) as [->|NE].
  - rewrite N in Ni. injection Ni as -> ->. exists i, hash, st'. split; [apply (set_nth_same _ _ _ _ N)|]. destruct st0; try (destruct Mi; fail); destruct st'; auto.
  - exists i, hash, st0. split; [|exact Mi]. rewrite set_nth_other; [exact Ni|exact NE].
Qed.
Lemma awaited_step l h s e s' o : pinv l h s -> awaited s -> pstep s e = Some (s', o) -> awaited s'.
Proof.
  intros V A. destruct e as [c|t|t r|t|n boot|n oks|n e|t]; cbn [pstep].
  - intros [= <- <-] d id v6 N D. cbn [p_nodes p_calls] in *. destruct (A _ _ _ N D) as (i & hash & st & Ni & Mi). exists i, hash, st. split; [|exact Mi]. rewrite nth_error_app1; [exact Ni|]. apply nth_error_Some. congruence.
  - destruct (p_lock s); [discriminate|]. destruct (nth_error (p_calls s) t) as [[c [| |m|m|r0|]]|] eqn:N; try discriminate.
    destruct c as [hash|], (p_handle s) as [n|]; intros [= <- <-]; (eapply awaited_put; [exact A|exact N|reflexivity|exact Logic.I|cbn; eauto]).
  - destruct (nth_error (p_calls s) t) as [[c [| |m|m|r0|]]|] eqn:N; try discriminate. destruct r as [[id v6]|]; intros [= <- <-].
    + intros d id' v6' _ _. cbn [p_calls]. destruct c as [hash|]; [|destruct (proj2 (v_lock _ _ _ V) t N)]. exists t, hash, (TSend (length (p_nodes s))). split; [apply (set_nth_same _ _ _ _ N)|exact Logic.I].
    + eapply awaited_put; [exact A|exact N|reflexivity|exact Logic.I|cbn; eauto].
  - destruct (nth_error (p_calls s) t) as [[c [| |m|m|r0|]]|] eqn:N; try discriminate. destruct (nth_error (p_nodes s) m) as [d|] eqn:ND; [|discriminate].
    destruct (node_zero _ _ _ _ (v_nodes _ _ _ V) ND) as (-> & EN).
    destruct (dn_state d) as [? ?|a|] eqn:DS; [destruct (Nat.ltb _ _); [|discriminate]|destruct (Nat.ltb _ _); [|discriminate]|]; intros [= <- <-].
    + eapply awaited_put; [exact A|exact N|reflexivity|exact Logic.I|]. cbn [p_nodes]. rewrite EN. cbn. intros d' id v6' [= <-] [= <- <-]. eauto.
    + eapply awaited_put; [exact A|exact N|reflexivity|exact Logic.I|]. cbn [p_nodes]. rewrite EN. cbn. intros d' id v6' [= <-] [=].
    + intros d' id v6' E D. unfold M_App.finish in E. cbn [fst p_nodes] in E. rewrite EN in E. injection E as <-. congruence.
  - destruct (nth_error (p_nodes s) n) as [d|] eqn:ND; [|discriminate]. destruct (node_zero _ _ _ _ (v_nodes _ _ _ V) ND) as (-> & EN).
    destruct (dn_state d) as [id v6|a|] eqn:DS; try discriminate. destruct (a_running _).
    + intros [= <- <-] d' id' v6' E D. cbn [p_nodes] in E. rewrite EN in E. injection E as <-. discriminate.
    + intros [= E] d' id' v6' E' D. apply dies_calls in E. destruct E as (_ & E & _). rewrite E, EN in E'. injection E' as <-. discriminate.
  - destruct (nth_error (p_nodes s) n) as [d|] eqn:ND; [|discriminate]. destruct (node_zero _ _ _ _ (v_nodes _ _ _ V) ND) as (-> & EN).
    destruct (dn_state d) as [id v6|a|]; try discriminate. destruct (dn_chan d) as [|[t hash|t] chan]; try discriminate.
    + destruct (astep a (ALookup hash oks)) as [[a1 o1]|]; [|discriminate]. destruct (acted s 0 a1 chan _ o1) as [s1 p1] eqn:E. intros [= <- <-] d' id' v6' E' D.
      unfold acted in E. match type of E with context [deliver ?z _ _ _] => destruct (deliver z 0 _ o1) as [s2 p2] eqn:DE end. injection E as <- <-.
      assert (E : p_nodes s2 = [mkNode (Running a1) chan (dn_callers d ++ [(a_next a, t)])]).
      { refine (deliver_ind (fun s1 _ => p_nodes s1 = [mkNode (Running a1) chan (dn_callers d ++ [(a_next a, t)])]) 0 _ o1 _ [] _ _ _ _ DE); [cbn [p_nodes]; rewrite EN; reflexivity|]. intros. cbn [M_App.finish fst p_nodes]. exact H. }
      rewrite E in E'. injection E' as <-. discriminate.
    + destruct (astep a AShutdown) as [[a1 o1]|]; [|discriminate]. destruct (dies s 0 d) as [s1 p1] eqn:E. intros [= <- <-] d' id' v6' E' D. apply dies_calls in E. destruct E as (_ & E & _). rewrite E, EN in E'. injection E' as <-. discriminate.
  - destruct (nth_error (p_nodes s) n) as [d|] eqn:ND; [|discriminate]. destruct (node_zero _ _ _ _ (v_nodes _ _ _ V) ND) as (-> & EN).
    destruct (dn_state d) as [id v6|a|]; try discriminate.
    destruct e as [? ?| |from msg pick oks|k pick]; try discriminate; (destruct (astep a _) as [[a1 o1]|]; [|discriminate]; intros [= E] d' id' v6' E' D;
      unfold acted in E; match type of E with context [deliver ?z _ _ _] => destruct (deliver z 0 (dn_callers d) o1) as [s2 p2] eqn:DE end; injection E as <- <-;
      assert (E : p_nodes s2 = [mkNode (Running a1) (dn_chan d) (dn_callers d)]) by
        (refine (deliver_ind (fun s1 _ => p_nodes s1 = [mkNode (Running a1) (dn_chan d) (dn_callers d)]) 0 _ o1 _ [] _ _ _ _ DE); [cbn [p_nodes]; rewrite EN; reflexivity|]; intros; cbn [M_App.finish fst p_nodes]; assumption);
      rewrite E in E'; injection E' as <-; discriminate).
  - destruct (nth_error (p_calls s) t) as [[c [| |m|m|r0|]]|] eqn:N; try discriminate; intros [= <- <-]; (eapply awaited_put; [exact A|exact N|reflexivity|exact Logic.I|cbn; eauto]).
Qed.

Section Proc.
Context (cfg : config) (pid : bytes) (key port : N).
Notation step := (zstep cfg pid key port).
Notation run := (zrun cfg pid key port).
Notation rel := (zrel cfg pid key port).

(** The calls made of the node, once the command has returned *)
Definition calls_over (s : proc) : Prop :=
  match z_stage s with
  | Working | Crashed => True
  | Closing _ t => (exists st, nth_error (p_calls (z_app s)) t = Some (CShutdown, st)) /\
      forall i c st, nth_error (p_calls (z_app s)) i = Some (c, st) -> i = t \/ exists r, st = TDone r
  | _ => forall i c st, nth_error (p_calls (z_app s)) i = Some (c, st) -> exists r, st = TDone r
  end.
Record ainv (s : proc) : Prop := {
  a_pinv : exists la ha, pinv la ha (z_app s) /\ forall t, ~ In (PCancel t) la;
  a_await : awaited (z_app s);
  a_over : calls_over s }.
Lemma done_stays la ha a e a' o i c st c' st' : pinv la ha a -> wf_pev e -> pstep a e = Some (a', o) -> (forall c, e <> PCall c) ->
  nth_error (p_calls a) i = Some (c, st) -> nth_error (p_calls a') i = Some (c', st') -> c' = c /\ forall r, st = TDone r -> st' = TDone r.
Proof.
  intros V W E NC N N'. assert (V' := pinv_step _ _ _ _ _ _ V W E). split.
  - destruct (evolves_step _ _ _ _ E _ _ _ N') as [(st0 & X & _)|(X & _)]; [congruence|destruct (NC _ X)].
  - intros r ->. assert (Q := proj2 (v_calls _ _ _ V) i). rewrite N in Q. assert (Q' := proj2 (v_calls _ _ _ V') i). rewrite N', results_app, Q in Q'. destruct st'; try discriminate. injection Q' as <- _. reflexivity.
Qed.
Lemma still_there la ha a e a' o i c st : pinv la ha a -> wf_pev e -> pstep a e = Some (a', o) -> nth_error (p_calls a) i = Some (c, st) -> exists st', nth_error (p_calls a') i = Some (c, st').
Proof.
  intros V W E N. assert (V' := pinv_step _ _ _ _ _ _ V W E). apply (proj1 (v_calls _ _ _ V')). apply in_or_app. left. apply (proj1 (v_calls _ _ _ V)). eauto.
Qed.
Lemma ainv_step s e s' o : ainv s -> wf_zev e -> rel s e s' o -> ainv s'.
Proof.
  intros [(la & ha & V & NC) A O] W R. destruct R; try (split; [exists la, ha; split; [exact V|exact NC]|exact A|exact O]; fail).
  - (* dht *)
    assert (WP : wf_pev e) by (destruct e; exact W || exact Logic.I). assert (V' := pinv_step _ _ _ _ _ _ V WP H0). split; cbn [z_app].
    + exists (la ++ [e]), (ha ++ o). split; [exact V'|]. intros t X. apply in_app_iff in X. destruct X as [X|[->|[]]]; [exact (NC _ X)|discriminate H].
    + exact (awaited_step _ _ _ _ _ _ V A H0).
    + assert (KEEP : (forall c, e <> PCall c) -> forall i c st', nth_error (p_calls a) i = Some (c, st') -> exists st0, nth_error (p_calls (z_app s)) i = Some (c, st0) /\ forall r, st0 = TDone r -> st' = TDone r).
      { intros NP i c st' N'. destruct (evolves_step _ _ _ _ H0 _ _ _ N') as [(st0 & N0 & _)|(X & _)]; [|destruct (NP _ X)]. exists st0. split; [exact N0|]. apply (done_stays _ _ _ _ _ _ _ _ _ _ _ V WP H0 NP N0 N'). }
      unfold calls_over in *. cbn [z_stage z_app]. destruct (z_stage s) as [|ok t|ok|ok|] eqn:ST; [exact Logic.I| | | |exact Logic.I];
      (assert (NP : forall c, e <> PCall c) by (intros c X; subst e; destruct c; discriminate H)).
      * destruct O as ((st & O1) & O2). split; [exact (still_there _ _ _ _ _ _ _ _ _ V WP H0 O1)|]. intros i c st' N'. destruct (KEEP NP _ _ _ N') as (st0 & N0 & D).
        destruct (O2 _ _ _ N0) as [->|(r & ->)]; [auto|]. right. exists r. apply D. reflexivity.
      * intros i c st' N'. destruct (KEEP NP _ _ _ N') as (st0 & N0 & D). destruct (O _ _ _ N0) as (r & ->). exists r. apply D. reflexivity.
      * intros i c st' N'. destruct (KEEP NP _ _ _ N') as (st0 & N0 & D). destruct (O _ _ _ N0) as (r & ->). exists r. apply D. reflexivity.
  - (* done *)
    assert (V' := pinv_step _ _ _ _ _ _ V (Logic.I : wf_pev (PCall CShutdown)) H1). split; cbn [z_app].
    + exists (la ++ [PCall CShutdown]), (ha ++ o). split; [exact V'|]. intros t X. apply in_app_iff in X. destruct X as [X|[X|[]]]; [exact (NC _ X)|discriminate X].
    + exact (awaited_step _ _ _ _ _ _ V A H1).
    + cbn [pstep] in H1. injection H1 as <- <-. unfold calls_over. cbn [z_stage z_app p_calls]. split; [exists TLock; rewrite nth_error_app2, Nat.sub_diag by lia; reflexivity|].
      intros i c st N. destruct (Nat.lt_ge_cases i (length (p_calls (z_app s)))) as [L|L].
      * right. rewrite nth_error_app1 in N by exact L. unfold all_returned in H0. rewrite forallb_forall in H0. apply nth_error_In in N. apply H0 in N. cbn [snd] in N. destruct st; try discriminate. eauto.
      * left. assert (i < S (length (p_calls (z_app s)))); [|lia]. assert (X : i < length (p_calls (z_app s) ++ [(CShutdown, TLock)])) by (apply nth_error_Some; congruence). rewrite app_length in X. cbn in X. lia.
  - split; [exists la, ha; split; [exact V|exact NC]|exact A|]. unfold calls_over in *. rewrite H in O. cbn [z_stage z_app]. destruct O as (_ & O). intros i c0 st N.
    destruct (O _ _ _ N) as [->|X]; [|exact X]. rewrite H0 in N. injection N as <- <-. eauto.
  - split; [exists la, ha; split; [exact V|exact NC]|exact A|]. unfold calls_over in *. rewrite H0 in O. exact O.
  - split; [exists la, ha; split; [exact V|exact NC]|exact A|exact Logic.I].
Qed.
Lemma ainv_run l s h : Forall wf_zev l -> run z_new l = Some (s, h) -> ainv s.
Proof.
  intros W R. revert W. refine (run_ind cfg pid key port (fun l h s => Forall wf_zev l -> ainv s) z_new _ _ l s h R).
  - intros _. split; [exists [], []; split; [apply pinv_start|intros t []]| |exact Logic.I]. intros d id v6 X. discriminate.
  - clear. intros l h s e s' o R IH EX E REL W. apply Forall_app in W. destruct W as (W1 & W2). eapply ainv_step; eauto. inversion W2. assumption.
Qed.
(** Shutting down the node never has to wait. *)
Lemma closing_moves h s ok t : zinv cfg h s -> ainv s -> z_stage s = Closing ok t -> exists e, at_once e = true /\ step s e <> None.
Proof.
  intros Z [(la & ha & V & NC) A O] ST. unfold calls_over in O. rewrite ST in O. destruct O as ((st & N) & O).
  assert (ND : forall e, pstep (z_app s) e <> None -> dht_allowed (z_stage s) e = true -> step s (ZDht e) <> None).
  { intros e E D. unfold zstep, exited. rewrite ST. rewrite ST in D. rewrite D. destruct (pstep _ e) as [[a o]|]; [discriminate|congruence]. }
  assert (NW : forall i c st', nth_error (p_calls (z_app s)) i = Some (c, st') -> i <> t -> exists r, st' = TDone r). { intros i c st' X NE. destruct (O _ _ _ X); [congruence|assumption]. }
  assert (DONE : forall r, st = TDone r -> exists e, at_once e = true /\ step s e <> None).
  { intros r ->. exists ZClosed. split; [reflexivity|]. assert (SG := z_staged _ _ _ Z). unfold stage_inv in SG. rewrite ST in SG. destruct SG as (GB & _).
    unfold zstep, exited. rewrite ST, N. unfold gapply. cbn [gstep]. rewrite GB. discriminate. }
  assert (LOCK : st = TLock -> exists e, at_once e = true /\ step s e <> None).
  { intros ->. exists (ZDht (PLock t)). split; [reflexivity|]. apply ND; [|reflexivity]. cbn [pstep]. destruct (p_lock (z_app s)) as [i|] eqn:PL.
    - destruct (proj1 (proj1 (v_lock _ _ _ V) i) PL) as (c & st & Ni & HO). destruct (Nat.eq_dec i t) as [->|NE]; [rewrite N in Ni; injection Ni as <- <-; discriminate HO|].
      destruct (NW _ _ _ Ni NE) as (r & ->). discriminate HO.
    - rewrite N. destruct (p_handle (z_app s)); discriminate. }
  assert (GONE : st <> TGone). { intros ->. exact (NC _ (v_gone _ _ _ V _ _ N)). }
  assert (CREATE : st <> TCreate). { intros ->. exact (proj2 (v_lock _ _ _ V) t N). }
  destruct (v_nodes _ _ _ V) as [(A1 & A2 & _ & _ & _ & A6)|(d & A1 & A2 & _ & _ & _ & A6 & NI)]; assert (E := A6 _ _ _ N); destruct st as [| |n|n|r|]; try (destruct E; fail); try congruence; eauto.
  - cbn [here] in E. subst n. exists (ZDht (PSend t)). split; [reflexivity|]. apply ND; [|reflexivity]. cbn [pstep]. rewrite N, A2. cbn [nth_error].
    assert (CH : dn_chan d = []). { destruct (dn_chan d) as [|m ch] eqn:CH; [reflexivity|]. destruct (n_chan _ _ _ _ NI m) as (c & st & Nm & _ & Q); [rewrite CH; left; reflexivity|].
      destruct (Nat.eq_dec (caller m) t) as [X|NE]; [rewrite X, N in Nm; injection Nm as <- <-; destruct Q; discriminate|]. destruct (NW _ _ _ Nm NE) as (r & ->). destruct Q; discriminate. }
    rewrite CH. destruct (dn_state d); discriminate.
  - cbn [here] in E. subst n. destruct (n_wait _ _ _ _ NI _ _ _ N) as (DD & FE). unfold fed in FE. apply in_app_iff in FE. destruct FE as [FE|FE].
    + apply in_map_iff in FE. destruct FE as ([sid t'] & X & FE). cbn [snd] in X. subst t'. destruct (n_call _ _ _ _ NI _ _ FE) as (hash & st & X & _). congruence.
    + exists (ZDht (PTake 0 [])). split; [reflexivity|]. apply ND; [|reflexivity]. cbn [pstep]. rewrite A2. cbn [nth_error]. assert (SI := n_state _ _ _ _ NI). unfold state_inv in SI.
      destruct (dn_state d) as [id v6|a|] eqn:DS; [|destruct (dn_chan d) as [|m ch]; [destruct FE|]|congruence].
      * destruct (A d id v6 A2 DS) as (i & hash & st & Ni & Mi). destruct (Nat.eq_dec i t) as [->|NE]; [congruence|]. destruct (NW _ _ _ Ni NE) as (r & ->). destruct Mi.
      * destruct SI as (RU & _). destruct m as [i' hash|i'].
        -- destruct (lookup_possible a hash [] RU) as (a' & o & AS). rewrite AS. destruct (acted _ _ _ _ _ _). discriminate.
        -- unfold astep. rewrite RU. destruct (dies _ _ _). discriminate.
Qed.
End Proc.
