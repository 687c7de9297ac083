(** Properties C58, C59: resolving a magnet.  An execution is any sequence of enabled
    atomic actions of the main task, of the task passing peers on and of the workers of
    the two pools (M_Resolve); [announce k]: the peers the [k]-th tracker yields, [fetch p]:
    what fetching the metadata from [p] yields; [hT], [hP]: what is observed of the tracker
    and the peer pool (S_Nursery, S_Resolve).  [nt], [np]: the pools' sizes. *)
From Verif Require Import Base M_Nursery S_Nursery M_Resolve S_Resolve P_Resolve3.
Local Open Scope nat_scope.

(** C58: success is with the metadata delivered by the first peer to deliver any: all
    results received before were failures.  That peer is one reported by a tracker, or
    by the DHT if there are no trackers. *)
Theorem C58_success : forall (T P A M : Type) (addr_eqb : A -> A -> bool) (addr : P -> A), (forall a b, addr_eqb a b = true <-> a = b) ->
  forall announce fetch nt np (trackers : list T) dht s0 l (s : rst T P A M) hT hP i,
  r_start nt np trackers dht = Some s0 -> rrun addr_eqb addr announce fetch s0 l = Some (s, hT, hP) -> r_main s = MReturned (Some i) ->
  exists before p, results hP = before ++ [(p, Ret (Some i))] /\ (forall x, In x before -> snd x = Ret None) /\
    fetch p = Ret (Some i) /\ In p (contacted hP) /\ known trackers dht announce p.
Proof. exact @c_success. Qed.
Print Assumptions C58_success.
(** Failure: every known peer, or one with the same address, was contacted and failed. *)
Theorem C58_failure : forall (T P A M : Type) (addr_eqb : A -> A -> bool) (addr : P -> A), (forall a b, addr_eqb a b = true <-> a = b) ->
  forall announce fetch nt np (trackers : list T) dht s0 l (s : rst T P A M) hT hP,
  np <> 0 -> nt <> 0 -> (forall k, announce k <> Panic) ->
  r_start nt np trackers dht = Some s0 -> rrun addr_eqb addr announce fetch s0 l = Some (s, hT, hP) -> r_main s = MReturned None ->
  (forall p, In p (contacted hP) -> fetch p = Ret None) /\
  forall p, known trackers dht announce p -> exists p', In p' (contacted hP) /\ addr p' = addr p.
Proof. exact @c_failure. Qed.
Print Assumptions C58_failure.
(** At every moment: only known peers were contacted; with trackers no address twice;
    without, no tracker was queried and the peers found were contacted in order; each
    tracker was queried at most once, in order. *)
Theorem C58_contacts : forall (T P A M : Type) (addr_eqb : A -> A -> bool) (addr : P -> A), (forall a b, addr_eqb a b = true <-> a = b) ->
  forall announce fetch nt np (trackers : list T) dht s0 l (s : rst T P A M) hT hP,
  r_start nt np trackers dht = Some s0 -> rrun addr_eqb addr announce fetch s0 l = Some (s, hT, hP) ->
  forall p, In p (contacted hP) -> known trackers dht announce p.
Proof. exact @c_known. Qed.
Print Assumptions C58_contacts.
Theorem C58_once : forall (T P A M : Type) (addr_eqb : A -> A -> bool) (addr : P -> A), (forall a b, addr_eqb a b = true <-> a = b) ->
  forall announce fetch nt np (trackers : list T) dht s0 l (s : rst T P A M) hT hP,
  r_start nt np trackers dht = Some s0 -> rrun addr_eqb addr announce fetch s0 l = Some (s, hT, hP) ->
  (trackers <> [] -> NoDup (map addr (contacted hP))) /\
  (trackers = [] -> accepted hT = [] /\ exists rest, dht = Some (contacted hP ++ rest)) /\
  (exists rest, trackers = map snd (accepted hT) ++ rest).
Proof. exact @c_once. Qed.
Print Assumptions C58_once.
(** And it comes to one of these ends: an execution that cannot go on has returned (or a
    peer job panicked, which the main task passes on), and none goes on for ever. *)
Theorem C58_no_deadlock : forall (T P A M : Type) (addr_eqb : A -> A -> bool) (addr : P -> A), (forall a b, addr_eqb a b = true <-> a = b) ->
  forall announce fetch nt np (trackers : list T) dht s0 l (s : rst T P A M) hT hP,
  r_start nt np trackers dht = Some s0 -> rrun addr_eqb addr announce fetch s0 l = Some (s, hT, hP) ->
  (forall e, rstep addr_eqb addr announce fetch s e = None) ->
  (exists r, r_main s = MReturned r) \/ (r_main s = MPanicked /\ exists p, In p (contacted hP) /\ fetch p = Panic).
Proof. exact @c_progress. Qed.
Print Assumptions C58_no_deadlock.
Theorem C58_terminates : forall (T P A M : Type) (addr_eqb : A -> A -> bool) (addr : P -> A), (forall a b, addr_eqb a b = true <-> a = b) ->
  forall announce fetch (s0 : rst T P A M),
  exists bound, forall l s hT hP, rrun addr_eqb addr announce fetch s0 l = Some (s, hT, hP) -> length l <= bound.
Proof. exact @c_terminates. Qed.
Print Assumptions C58_terminates.

(** C59: does not hold.  No job panics and yet peer_job does: its expect() fails when it submits a
    peer just after the main task has got its result and dropped the pool (abort() only
    takes effect at the next await). *)
Theorem C59_refuted : exists (fetch : nat -> outcome (option nat)) (announce : nat -> outcome (list nat)) s0 l s hT hP,
  (forall p, fetch p <> Panic) /\ (forall k, announce k <> Panic) /\
  r_start (A := nat) 1 1 [5] None = Some s0 /\
  rrun Nat.eqb (fun p => p) announce fetch s0 l = Some (s, hT, hP) /\ r_job s = JPanicked.
Proof.
  exists (fun p => Ret (Some p)), (fun k => Ret [1; 2]). eexists.
  exists [Main; Tr (KTake 0); Tr (KCheck 0); Tr (KStart 0); Main; Tr (KFinish 0); Tr (KSend 0);
          Job; Job; Job; Job; Pe (KTake 0); Pe (KCheck 0); Pe (KStart 0); Pe (KFinish 0); Pe (KSend 0); Main; Main; Main; Main; Job].
  eexists; eexists; eexists. split; [discriminate|]. split; [discriminate|]. split; [reflexivity|]. split; vm_compute; reflexivity.
Qed.
Print Assumptions C59_refuted.
(** What does hold: if no job panics the main task does not, and peer_job can only after the
    result was returned, which it thus does not change. *)
Theorem C59_panic_partial : forall (T P A M : Type) (addr_eqb : A -> A -> bool) (addr : P -> A), (forall a b, addr_eqb a b = true <-> a = b) ->
  forall announce fetch nt np (trackers : list T) dht s0 l (s : rst T P A M) hT hP,
  r_start nt np trackers dht = Some s0 -> rrun addr_eqb addr announce fetch s0 l = Some (s, hT, hP) ->
  (forall k, announce k <> Panic) -> (forall p, fetch p <> Panic) ->
  r_main s <> MPanicked /\ (r_job s = JPanicked -> exists i, r_main s = MReturned (Some i)).
Proof. exact @c_panic. Qed.
Print Assumptions C59_panic_partial.

(** Two trackers (one job at a time), two peers at a time; peers are (address, id).  The
    second tracker's peer has an address already seen. *)
Definition ex_announce (k : nat) : outcome (list (nat * nat)) := match k with O => Ret [(1, 10); (2, 20)] | _ => Ret [(1, 11); (3, 30)] end.
Definition ex_fetch (good : nat) (p : nat * nat) : outcome (option nat) := Ret (if Nat.eqb (fst p) good then Some (snd p) else None).
Definition ex_run good := rrun (T := nat) Nat.eqb fst ex_announce (ex_fetch good) (r_init 1 2 [7; 8]).
Definition one (k : wev -> rev) w := map k [KTake w; KCheck w; KStart w; KFinish w; KSend w].
Example resolve_success_nonvacuous :
  match ex_run 2 ([Main; Main] ++ one Tr 0 ++ [Main; Job; Job; Job; Job; Job; Pe (KTake 0)] ++ one Pe 1 ++ [Pe (KCheck 0); Main; Pe (KStart 0); Pe (KFinish 0); Pe (KSend 0)]) with
  | Some (s, _, hP) => r_main s = MGot 20 /\ contacted hP = [(1, 10); (2, 20)] /\ results hP = [((2, 20), Ret (Some 20))]
  | None => False
  end /\
  match ex_run 2 ([Main; Main] ++ one Tr 0 ++ [Main; Job; Job; Job; Job; Job; Pe (KTake 0)] ++ one Pe 1 ++
                  [Pe (KCheck 0); Pe (KStart 0); Pe (KFinish 0); Main; Main; JobAbort; Main; Pe (KAbort 0); Main]) with
  | Some (s, _, hP) => r_main s = MReturned (Some 20) /\ r_job s = JAborted
  | None => False
  end.
Proof. vm_compute. auto 10. Qed.
Example resolve_failure_nonvacuous :
  match ex_run 9 ([Main; Main] ++ one Tr 0 ++ [Main; Job; Job; Job; Job; Job] ++ one Pe 1 ++ [Main] ++ one Tr 0 ++ [Job; Job; Job; Job; Tr (KQuit 0)] ++ one Pe 1 ++ one Pe 0 ++
                  [Main; Main; Job; Pe (KQuit 0); Pe (KQuit 1); Main]) with
  | Some (s, _, hP) => r_main s = MReturned None /\ contacted hP = [(1, 10); (2, 20); (3, 30)] /\ r_job s = JDone
  | None => False
  end.
Proof. vm_compute. auto 10. Qed.
