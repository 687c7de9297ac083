From Verif Require Import Base BaseFacts M_Nursery S_Nursery P_Nursery M_Nursery2 S_Nursery2.
From Coq Require Import Permutation.
Local Open Scope nat_scope.

Section P.
Context {J R : Type}.
Implicit Types (h : list (obs J R)) (s : nst J R) (l : list (nev J R)).

Lemma step_handles s e s' o : nstep s e = Some (s', o) ->
  n_handles s' = (if is_clone e then S (n_handles s) else if is_drop e then n_handles s - 1 else n_handles s) /\
  (is_drop e = true -> 1 <= n_handles s).
Proof.
  intros H. destruct e; cbn [nstep] in H;
  repeat match type of H with
  | match ?x with _ => _ end = Some _ => destruct x eqn:?; try discriminate
  | (if ?x then _ else _) = Some _ => destruct x eqn:?; try discriminate
  end; injection H as <- <-; cbn [set_w n_handles is_clone is_drop]; split; try reflexivity; try discriminate; try congruence; lia.
Qed.
Lemma run_handles l : forall s s' h, nrun s l = Some (s', h) ->
  n_handles s' + length (filter is_drop l) = n_handles s + length (filter is_clone l).
Proof.
  induction l as [|e l IH]; intros s s' h H; cbn [nrun filter] in *.
  - injection H as <- <-. reflexivity.
  - destruct (nstep s e) as [[s1 o1]|] eqn:E; [|discriminate]. destruct (nrun s1 l) as [[s2 h2]|] eqn:E2; [|discriminate].
    injection H as <- <-. specialize (IH _ _ _ E2). destruct (step_handles _ _ _ _ E) as (S1 & S2). destruct e; cbn [is_clone is_drop filter length] in *; try specialize (S2 eq_refl); lia.
Qed.
Lemma reach_handles n l s h : nrun (new n) l = Some (s, h) -> n_handles s = handles_left l.
Proof. intros H. apply run_handles in H. cbn [new n_handles] in H. unfold handles_left. lia. Qed.

Lemma closed_iff n l s h : nrun (new n) l = Some (s, h) -> (n_closed s = true <-> was_closed l).
Proof.
  intros H. destruct (reach_flags _ _ _ _ H) as (_ & _ & C & C'). unfold was_closed. rewrite <- (reach_handles _ _ _ _ H).
  split; [exact C|]. intros [X|X]; [auto|]. apply (i_closed _ _ _ (reach _ _ _ _ H)). auto.
Qed.
Lemma closing n l s h : nrun (new n) l = Some (s, h) ->
  (is_closed s = true <-> was_closed l) /\ (close_returns s = true <-> ~ was_closed l) /\
  (is_shutdown s = true <-> In Shutdown l) /\ (shutdown_returns s = true <-> ~ In Shutdown l).
Proof.
  intros H. pose proof (closed_iff _ _ _ _ H) as C. destruct (reach_flags _ _ _ _ H) as (_ & D & _).
  unfold is_closed, close_returns, is_shutdown, shutdown_returns. rewrite !negb_true_iff, <- C, <- D.
  destruct (n_closed s), (n_done s); intuition discriminate.
Qed.
Lemma pending_jobs n l s h : nrun (new n) l = Some (s, h) ->
  length (taken h) + handle_len s = length (accepted h) /\ (handle_is_empty s = true <-> handle_len s = 0).
Proof.
  intros H. rewrite (i_queue _ _ _ (reach _ _ _ _ H)), app_length. unfold handle_len, handle_is_empty. split; [reflexivity|].
  destruct (n_queue s); cbn [length]; split; intros; congruence.
Qed.
Lemma pending_results s : stream_is_empty s = true <-> stream_len s = 0.
Proof. unfold stream_is_empty, stream_len. destruct (n_out s); cbn [length]; split; intros; congruence. Qed.
(** Exactly so many results can be read without further steps of the workers. *)
Lemma readable s : n_alive s = true -> forall k, nrun s (repeat Recv k) <> None <-> k <= stream_len s.
Proof.
  unfold stream_len. intros A k. revert s A. induction k as [|k IH]; intros s A; cbn [repeat nrun nstep].
  - split; [lia|discriminate].
  - rewrite A. destruct (n_out s) as [|[j r] o] eqn:O; cbn [length]; [split; [congruence|lia]|].
    specialize (IH (mkN (n_queue s) (n_closed s) (n_done s) (n_handles s) (n_workers s) o (n_alive s) (n_next s)) A). cbn [n_out n_alive] in IH.
    rewrite A in IH. destruct (nrun _ (repeat Recv k)) as [[s2 h2]|]; split; intros X; try congruence; try lia.
    + assert (k <= length o) by (apply IH; discriminate). lia.
    + exfalso. apply IH; [lia|reflexivity].
Qed.

Lemma try_recv_ok s j r : n_alive s = true -> (try_recv s = Ok (j, r) <-> exists s', nstep s Recv = Some (s', [ODeliver j r])).
Proof.
  intros A. unfold try_recv. cbn [nstep]. rewrite A. destruct (n_out s) as [|[j' r'] o]; split.
  - discriminate.
  - intros (s' & X). discriminate.
  - intros [= -> ->]. eauto.
  - intros (s' & [= _ -> ->]). reflexivity.
Qed.
Lemma all_stopped ws : forallb (@is_stopped J R) ws = true <-> forall w, In w ws -> w = WStopped.
Proof. rewrite forallb_forall. split; intros H w I; specialize (H w I); destruct w; cbn in *; congruence. Qed.
Lemma try_recv_done s : n_alive s = true -> (try_recv s = Err TryDone <-> nstep s End = Some (s, [OEnd])).
Proof.
  intros A. unfold try_recv. cbn [nstep]. rewrite A. destruct (n_out s); [|split; discriminate]. cbn [andb].
  destruct (forallb is_stopped (n_workers s)); split; intros; congruence.
Qed.
Lemma nth_stopped ws i (w : wstate J R) : (forall w, In w ws -> w = WStopped) -> nth_error ws i = Some w -> w = WStopped.
Proof. intros H E. apply H. eapply nth_error_In. exact E. Qed.
Lemma done_forever l : forall s s' h, try_recv s = Err TryDone -> nrun s l = Some (s', h) -> delivered h = [] /\ started h = [] /\ try_recv s' = Err TryDone.
Proof.
  induction l as [|e l IH]; intros s s' h T H; cbn [nrun] in H.
  - injection H as <- <-. auto.
  - destruct (nstep s e) as [[s1 o1]|] eqn:E; [|discriminate]. destruct (nrun s1 l) as [[s2 h2]|] eqn:E2; [|discriminate]. injection H as <- <-.
    unfold try_recv in T. destruct (n_out s) as [|? ?] eqn:O; [|discriminate]. destruct (forallb is_stopped (n_workers s)) eqn:F; [|discriminate].
    pose proof (proj1 (all_stopped _) F) as ST.
    assert (K : n_out s1 = [] /\ n_workers s1 = n_workers s /\ delivered o1 = [] /\ started o1 = []).
    { destruct e; cbn [nstep] in E; rewrite ?O, ?F in E;
        try match type of E with context [nth_error _ ?w] => destruct (nth_error (n_workers s) w) as [x|] eqn:N; [rewrite (nth_stopped _ _ _ ST N) in E|]; destruct (n_alive s); discriminate end;
        repeat match type of E with
        | match ?x with _ => _ end = Some _ => destruct x eqn:?; try discriminate
        | (if ?x then _ else _) = Some _ => destruct x eqn:?; try discriminate
        end; try discriminate E; injection E as <- <-; cbn [n_out n_workers map]; auto. }
    destruct K as (O1 & W1 & D1 & S1).
    unfold delivered, started in *. rewrite !pick_app, D1, S1. cbn [app].
    apply (IH s1); [|exact E2]. unfold try_recv. rewrite O1, W1, F. reflexivity.
Qed.
(** ... and then the pool is closed. *)
Lemma done_closed n l s h : n <> 0 -> nrun (new n) l = Some (s, h) -> ~ In DropStream l -> try_recv s = Err TryDone ->
  was_closed l /\ Permutation (delivered h) (finished h) /\ Permutation (map fst (finished h)) (started h).
Proof.
  intros NZ H ND T. destruct (reach_flags _ _ _ _ H) as (FA & _). assert (A : n_alive s = true) by (apply FA; exact ND).
  apply (try_recv_done s A) in T. assert (H' : nrun (new n) (l ++ [End]) = Some (s, h ++ [OEnd])) by (rewrite nrun_app, H; cbn [nrun]; rewrite T; reflexivity).
  assert (ND' : ~ In DropStream (l ++ [End])) by (intros X; apply in_app_iff in X; destruct X as [X|[X|[]]]; [auto|discriminate]).
  assert (IE : In OEnd (h ++ [OEnd])) by (apply in_app_iff; right; left; reflexivity).
  split.
  - apply (closed_iff _ _ _ _ H). destruct (ended_closed _ _ _ _ NZ H' IE ND') as [X|X].
    + apply (i_closed _ _ _ (reach _ _ _ _ H)). auto.
    + apply in_app_iff in X. destruct X as [X|[X|[]]]; [|discriminate]. apply (reach_flags _ _ _ _ H). exact X.
  - destruct (completed _ _ _ _ NZ H' IE ND') as (P1 & P2 & _). rewrite delivered_snoc, finished_snoc, !app_nil_r in P1. rewrite finished_snoc, started_snoc, !app_nil_r in P2. split; assumption.
Qed.
End P.
