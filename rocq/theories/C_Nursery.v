(** Properties C52-C55: the worker pool.  An execution is any sequence of enabled atomic
    actions of the workers, of the submitters and of the reader of results (M_Nursery);
    [h]: what is observed of it (S_Nursery).  [n]: the number of workers. *)
From Verif Require Import Base M_Nursery S_Nursery P_Nursery.
From Coq Require Import Permutation.
Local Open Scope nat_scope.

(** C52: at every moment of every execution at most [n] jobs have been started and have
    neither finished nor been aborted. *)
Theorem C52_concurrency_limit : forall (J R : Type) n l (s : nst J R) h, nrun (new n) l = Some (s, h) ->
  length (started h) <= n + length (finished h) + length (aborted h).
Proof. exact @concurrency. Qed.
Print Assumptions C52_concurrency_limit.

(** C53: jobs are numbered as they are accepted, taken up in that order, started at most
    once and only once taken up; results are those the jobs yielded, each delivered at
    most once. *)
Theorem C53_at_most_once : forall (J R : Type) n l (s : nst J R) h, nrun (new n) l = Some (s, h) ->
  map fst (accepted h) = seq 0 (length (accepted h)) /\
  (exists waiting, accepted h = taken h ++ waiting) /\
  NoDup (started h) /\ incl (started h) (taken h) /\
  NoDup (map fst (finished h)) /\ incl (map fst (finished h)) (started h) /\
  NoDup (map fst (delivered h)) /\ incl (delivered h) (finished h).
Proof. exact @once. Qed.
Print Assumptions C53_at_most_once.
(** When the stream has ended every accepted job was started and finished and its result
    delivered, exactly once; after a shutdown, every started job. *)
Theorem C53_exactly_once : forall (J R : Type) n l (s : nst J R) h, n <> 0 -> nrun (new n) l = Some (s, h) -> In OEnd h -> ~ In DropStream l ->
  Permutation (delivered h) (finished h) /\ Permutation (map fst (finished h)) (started h) /\
  (~ In Shutdown l -> Permutation (started h) (accepted h)).
Proof. exact @completed. Qed.
Print Assumptions C53_exactly_once.

(** C54: the end is reported only once there are no submitters or the pool was closed
    (and all results were delivered: C53_exactly_once). *)
Theorem C54_end_only_when_closed : forall (J R : Type) n l (s : nst J R) h, n <> 0 -> nrun (new n) l = Some (s, h) -> In OEnd h -> ~ In DropStream l ->
  n_handles s = 0 \/ In Close l.
Proof. exact @ended_closed. Qed.
Print Assumptions C54_end_only_when_closed.
(** No deadlock: when neither the workers nor the reader can do anything, a closed pool is
    at its end and an open one has delivered all results. *)
Theorem C54_no_deadlock : forall (J R : Type) n l (s : nst J R) h, nrun (new n) l = Some (s, h) -> ~ In DropStream l -> stuck s ->
  n_closed s = true -> nstep s End = Some (s, [OEnd]).
Proof. exact @no_deadlock. Qed.
Print Assumptions C54_no_deadlock.
Theorem C54_no_deadlock_open : forall (J R : Type) n l (s : nst J R) h, n <> 0 -> nrun (new n) l = Some (s, h) ->
  ~ In DropStream l -> ~ In Shutdown l -> stuck s -> Permutation (map fst (delivered h)) (accepted h).
Proof. exact @all_delivered. Qed.
Print Assumptions C54_no_deadlock_open.
(** And that point is reached: the workers and the reader can make no more than this many
    steps without further submissions. *)
Theorem C54_terminates : forall (J R : Type) n l (s : nst J R) h l' s' h', nrun (new n) l = Some (s, h) -> all_internal l' -> nrun s l' = Some (s', h') ->
  length l' <= 6 * length (n_queue s) + 6 * n + length (n_out s).
Proof. exact @bounded. Qed.
Print Assumptions C54_terminates.

(** C55: after a close (every shutdown is preceded by one) submissions are refused; that
    jobs accepted before complete is C53_exactly_once and C54_no_deadlock. *)
Theorem C55_closed : forall (J R : Type) n l x (s : nst J R) h, In Close l -> nrun (new n) (l ++ [Spawn x]) = Some (s, h) -> exists h0, h = h0 ++ [ORefuse x].
Proof. exact @refused. Qed.
Print Assumptions C55_closed.
(** After a shutdown no job still in the queue starts. *)
Theorem C55_shutdown : forall (J R : Type) n l1 l2 (s1 : nst J R) h1 s h j, nrun (new n) l1 = Some (s1, h1) ->
  nrun (new n) (l1 ++ Shutdown :: l2) = Some (s, h) -> In j (accepted h1) -> ~ In j (taken h1) -> ~ In j (started h).
Proof. exact @queued_never_starts. Qed.
Print Assumptions C55_shutdown.

(** Two workers, four jobs (one panics), a submission refused after closing. *)
Example nursery_nonvacuous :
  let l := [Spawn 10; Spawn 11; Take 1; Clone; Spawn 12; Take 0; Check 0; Start 0; Check 1; DropHandle; Spawn 13; Start 1;
            Finish 0 (Ret true); Close; Spawn 14; Send 0; Recv; Take 0; Check 0; DropHandle; Start 0; Finish 0 Panic; Finish 1 (Ret false); Send 0;
            Send 1; Take 1; Check 1; Start 1; Finish 1 (Ret true); Quit 0; Send 1; Recv; Quit 1; Recv; Recv; End] in
  match nrun (new 2) l with
  | Some (s, h) => delivered h = [((1, 11), Ret true); ((2, 12), Panic); ((0, 10), Ret false); ((3, 13), Ret true)] /\
                   In (ORefuse 14) h /\ In OEnd h /\ n_handles s = 0
  | None => False
  end.
Proof. vm_compute. auto 50. Qed.
Example shutdown_nonvacuous :
  let l1 := [Spawn 10; Spawn 11; Spawn 12; Spawn 13; Take 0; Take 1; Check 0; Start 0; Close] in
  let l2 := [Check 1; Finish 0 (Ret true); Send 0; Take 0; Check 0; Recv; End] in
  match nrun (new 2) (l1 ++ Shutdown :: l2) with
  | Some (s, h) => delivered h = [((0, 10), Ret true)] /\ started h = [(0, 10)] /\ discarded h = [(1, 11); (2, 12)] /\ In OEnd h
  | None => False
  end.
Proof. vm_compute. auto 50. Qed.
