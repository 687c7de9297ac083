(** Property C60: the exit status of the batch command.  [parsed]: the magnets parsed from
    the file, or the error; [download k]: whether the [k]-th was saved. *)
From Verif Require Import Base M_Nursery S_Nursery M_Resolve M_Batch P_Batch.
Local Open Scope nat_scope.

(** C60: whatever the order of completion, success is reported iff the file was parsed
    and every magnet in it was saved. *)
Theorem C60_truthful : forall (Mg E : Type) download n (parsed : res E (list Mg)) l s h ok, n <> 0 ->
  brun download (b_start n parsed) l = Some (s, h) -> b_main s = BExit ok ->
  (ok = true <-> exists magnets, parsed = Ok magnets /\ forall k, k < length magnets -> download k = Ret true).
Proof. exact @truthful. Qed.
Print Assumptions C60_truthful.
(** An exit status is reached, unless a download panics. *)
Theorem C60_no_deadlock : forall (Mg E : Type) download n (parsed : res E (list Mg)) l s h,
  brun download (b_start n parsed) l = Some (s, h) -> (forall e, bstep download s e = None) ->
  (exists ok, b_main s = BExit ok) \/
  (b_main s = BPanicked /\ exists magnets k, parsed = Ok magnets /\ k < length magnets /\ download k = Panic).
Proof. exact @bprogress. Qed.
Print Assumptions C60_no_deadlock.
Theorem C60_terminates : forall (Mg : Type) download (s : bst Mg), exists bound, forall l s' h, brun download s l = Some (s', h) -> length l <= bound.
Proof. exact @bterminates. Qed.
Print Assumptions C60_terminates.

(** Three magnets, two at a time. *)
Definition ex_job w := map BWork [KTake w; KCheck w; KStart w; KFinish w; KSend w].
Definition ex_batch (good : nat -> bool) :=
  brun (fun k => Ret (good k)) (b_start (E := unit) 2 (Ok [5; 6; 7])) ([BMain; BMain; BWork (KTake 0); BMain] ++ ex_job 1 ++ [BMain; BMain] ++ ex_job 1 ++
    map BWork [KCheck 0; KStart 0; KFinish 0; KSend 0] ++ [BMain; BWork (KQuit 0); BWork (KQuit 1); BMain; BMain]).
Example batch_nonvacuous :
  match ex_batch (fun _ => true), ex_batch (fun k => negb (Nat.eqb k 0)) with
  | Some (s1, h1), Some (s2, h2) => b_main s1 = BExit true /\ b_main s2 = BExit false /\ map fst (delivered h2) = [(1, 6); (2, 7); (0, 5)]
  | _, _ => False
  end.
Proof. vm_compute. auto. Qed.
