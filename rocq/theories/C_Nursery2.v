(** Property C109: what the calls on a worker pool answer, in every execution (M_Nursery).
    [s]: the state after the events [l]; [h]: what was observed. *)
From Verif Require Import Base M_Nursery S_Nursery P_Nursery M_Nursery2 S_Nursery2 P_Nursery2.
From Coq Require Import Permutation.
Local Open Scope nat_scope.

(** is_closed, close, is_shutdown, shutdown: a call of close says that it closed the pool
    exactly if it was open, so at most one does; likewise shutdown. *)
Theorem C109_closing : forall (J R : Type) n l (s : nst J R) h, nrun (new n) l = Some (s, h) ->
  (is_closed s = true <-> was_closed l) /\ (close_returns s = true <-> ~ was_closed l) /\
  (is_shutdown s = true <-> In Shutdown l) /\ (shutdown_returns s = true <-> ~ In Shutdown l).
Proof. exact @closing. Qed.
Print Assumptions C109_closing.
(** len and is_empty of a handle: the jobs accepted and not taken up yet *)
Theorem C109_pending_jobs : forall (J R : Type) n l (s : nst J R) h, nrun (new n) l = Some (s, h) ->
  length (taken h) + handle_len s = length (accepted h) /\ (handle_is_empty s = true <-> handle_len s = 0).
Proof. exact @pending_jobs. Qed.
Print Assumptions C109_pending_jobs.
(** len of the stream: how many results can be received at once *)
Theorem C109_pending_results : forall (J R : Type) (s : nst J R), n_alive s = true ->
  forall k, nrun s (repeat Recv k) <> None <-> k <= stream_len s.
Proof. exact @readable. Qed.
Print Assumptions C109_pending_results.
(** try_recv gives the result that waiting would give; "done" is given exactly if waiting
    would give the end *)
Theorem C109_try_recv : forall (J R : Type) (s : nst J R) j r, n_alive s = true ->
  (try_recv s = Ok (j, r) <-> exists s', nstep s Recv = Some (s', [ODeliver j r])).
Proof. exact @try_recv_ok. Qed.
Print Assumptions C109_try_recv.
Theorem C109_try_recv_done : forall (J R : Type) (s : nst J R), n_alive s = true -> (try_recv s = Err TryDone <-> nstep s End = Some (s, [OEnd])).
Proof. exact @try_recv_done. Qed.
Print Assumptions C109_try_recv_done.
(** Once it is "done" the pool is closed, no job runs, every result was delivered, ... *)
Theorem C109_done_partial : forall (J R : Type) n l (s : nst J R) h, n <> 0 -> nrun (new n) l = Some (s, h) -> ~ In DropStream l ->
  try_recv s = Err TryDone ->
  was_closed l /\ Permutation (delivered h) (finished h) /\ Permutation (map fst (finished h)) (started h).
Proof. exact @done_closed. Qed.
Print Assumptions C109_done_partial.
(** ... and it remains so: no job starts and no result comes. *)
Theorem C109_done_final : forall (J R : Type) l (s s' : nst J R) h, try_recv s = Err TryDone -> nrun s l = Some (s', h) ->
  delivered h = [] /\ started h = [] /\ try_recv s' = Err TryDone.
Proof. exact @done_forever. Qed.
Print Assumptions C109_done_final.
(** The converse, which the documentation claims (worker_nursery.rs:174-178: "the Done error
    if the stream is currently empty and the nursery is closed"), is false: as long as the
    workers have not noticed, the answer is "empty". *)
Theorem C109_done_refuted : exists l (s : nst nat bool) h, nrun (new 2) l = Some (s, h) /\ ~ In DropStream l /\
  was_closed l /\ stream_is_empty s = true /\ Permutation (map fst (delivered h)) (accepted h) /\ try_recv s = Err TryEmpty.
Proof.
  exists [Spawn 5; Take 1; Check 1; Start 1; Finish 1 (Ret true); Send 1; Recv; Close]. eexists. eexists. split; [reflexivity|].
  split; [cbn; intuition discriminate|]. split; [left; cbn; auto 20|]. split; [reflexivity|]. split; [apply Permutation_refl|reflexivity].
Qed.
Print Assumptions C109_done_refuted.

(** Two workers; two jobs waiting, two results to be read; closed by dropping both handles. *)
Example C109_nonvacuous :
  let l := [Spawn 10; Spawn 11; Clone; Take 0; Take 1; Check 0; Check 1; Start 0; Start 1; Finish 1 (Ret true); Finish 0 (@Panic bool); Send 0; Send 1;
            Spawn 12; Spawn 13; DropHandle; DropHandle] in
  match nrun (new 2) l with
  | Some (s, h) => was_closed l /\ close_returns s = false /\ shutdown_returns s = true /\ handle_len s = 2 /\ stream_len s = 2 /\ try_recv s = Ok ((0, 10), Panic)
  | None => False
  end.
Proof. vm_compute. auto 20. Qed.
Example C109_done_nonvacuous :
  let l := [Spawn 10; Take 0; Close; Quit 1; Check 0; Start 0; Finish 0 (Ret true); Send 0; Recv; Quit 0] in
  match nrun (new 2) l with Some (s, h) => try_recv s = Err TryDone /\ delivered h = [((0, 10), Ret true)] | None => False end.
Proof. vm_compute. auto. Qed.
