(** Model of src/asyncutil/worker_nursery.rs: a transition system.  A state is what the
    channels, flags and worker tasks hold; an event is one atomic action of one task.  An
    execution is any sequence of enabled events, so every interleaving on every number of
    threads is one.  Trusted: async_channel's and tokio's unbounded channels are
    linearizable FIFO queues, a receiver is woken when there is something to receive, and
    a JoinSet aborts its tasks when dropped. *)
From Verif Require Import Base.

Section Nursery.
Context {J R : Type}.

(** A job that was accepted: its number in the order of acceptance and what it is. *)
Definition job := (nat * J)%type.
(** worker_nursery.rs:41-56: where a worker task is.  [WIdle]: in input.recv().await; [WGot]:
    received, before done.load; [WReady]: before the first poll of the future;
    [WRunning]: awaiting it; [WSending]: before output.send (Panic: catch_unwind caught
    one); [WStopped]: after the loop, or aborted. *)
Inductive wstate := WIdle | WGot (j : job) | WReady (j : job) | WRunning (j : job)
  | WSending (j : job) (r : outcome R) | WStopped.
(** worker_nursery.rs:26-29,147-153.  [n_queue], [n_closed]: the input channel; [n_handles]: the
    WorkerNursery clones in existence; [n_out]: the output channel; [n_alive]: its
    receiver exists; [n_next]: how many jobs were accepted. *)
Record nst := mkN { n_queue : list job; n_closed : bool; n_done : bool; n_handles : nat;
  n_workers : list wstate; n_out : list (job * outcome R); n_alive : bool; n_next : nat }.

(** worker_nursery.rs:34-68 WorkerNursery::new; [workers]: a NonZeroUsize *)
Definition new (workers : nat) : nst := mkN [] false false 1 (repeat WIdle workers) [] true 0.

Inductive nev :=
| Spawn (j : J) | Clone | DropHandle | Close | Shutdown
| Take (w : nat) | Check (w : nat) | Start (w : nat) | Finish (w : nat) (r : outcome R) | Send (w : nat) | Quit (w : nat)
| Recv | End | DropStream | Abort (w : nat).
(** What can be observed of an execution. *)
Inductive obs :=
| OAccept (j : job) | ORefuse (j : J) | OTake (j : job) | ODiscard (j : job) | OStart (j : job)
| OFinish (j : job) (r : outcome R) | OAbort (j : job)
| OLost (j : job) (r : outcome R) | ODeliver (j : job) (r : outcome R) | OEnd.

Definition set_nth {A} (l : list A) (i : nat) (a : A) : list A := firstn i l ++ match skipn i l with [] => [] | _ :: r => a :: r end.
Definition set_w (s : nst) (w : nat) (x : wstate) : nst :=
  mkN (n_queue s) (n_closed s) (n_done s) (n_handles s) (set_nth (n_workers s) w x) (n_out s) (n_alive s) (n_next s).
Definition is_stopped (w : wstate) : bool := match w with WStopped => true | _ => false end.

(** One event; None: not enabled.
    Spawn: :73-79 (try_send fails exactly if the channel is closed); Clone: :126-133;
    DropHandle: the last Sender closes the channel (async_channel); Close: :90-92,211-213,284-288;
    Shutdown: :106-109,227-230, the swap of [done], which follows a close; Take/Quit: recv
    (an item, or an error exactly if closed and empty); Check: :47-49; Send: :51-53 (fails
    exactly if the receiver is gone); Recv/End: :167-172,256-262 (None exactly if empty
    and all workers are gone); DropStream: the output receiver goes, its other fields
    follow ([Close], [Abort]). *)
Definition nstep (s : nst) (e : nev) : option (nst * list obs) :=
  match e with
  | Spawn x =>
      match n_handles s with
      | O => None
      | S _ =>
          if n_closed s then Some (s, [ORefuse x])
          else let j := (n_next s, x) in
               Some (mkN (n_queue s ++ [j]) (n_closed s) (n_done s) (n_handles s) (n_workers s) (n_out s) (n_alive s) (S (n_next s)), [OAccept j])
      end
  | Clone =>
      match n_handles s with
      | O => None
      | S h => Some (mkN (n_queue s) (n_closed s) (n_done s) (S (S h)) (n_workers s) (n_out s) (n_alive s) (n_next s), [])
      end
  | DropHandle =>
      match n_handles s with
      | O => None
      | S h => Some (mkN (n_queue s) (n_closed s || Nat.eqb h 0) (n_done s) h (n_workers s) (n_out s) (n_alive s) (n_next s), [])
      end
  | Close => Some (mkN (n_queue s) true (n_done s) (n_handles s) (n_workers s) (n_out s) (n_alive s) (n_next s), [])
  | Shutdown =>
      if n_closed s then Some (mkN (n_queue s) true true (n_handles s) (n_workers s) (n_out s) (n_alive s) (n_next s), []) else None
  | Take w =>
      match nth_error (n_workers s) w, n_queue s with
      | Some WIdle, j :: q =>
          Some (mkN q (n_closed s) (n_done s) (n_handles s) (set_nth (n_workers s) w (WGot j)) (n_out s) (n_alive s) (n_next s), [OTake j])
      | _, _ => None
      end
  | Quit w =>
      match nth_error (n_workers s) w, n_queue s with
      | Some WIdle, [] => if n_closed s then Some (set_w s w WStopped, []) else None
      | _, _ => None
      end
  | Check w =>
      match nth_error (n_workers s) w with
      | Some (WGot j) => if n_done s then Some (set_w s w WStopped, [ODiscard j]) else Some (set_w s w (WReady j), [])
      | _ => None
      end
  | Start w =>
      match nth_error (n_workers s) w with
      | Some (WReady j) => Some (set_w s w (WRunning j), [OStart j])
      | _ => None
      end
  | Finish w r =>
      match nth_error (n_workers s) w with
      | Some (WRunning j) => Some (set_w s w (WSending j r), [OFinish j r])
      | _ => None
      end
  | Send w =>
      match nth_error (n_workers s) w with
      | Some (WSending j r) =>
          if n_alive s
          then Some (mkN (n_queue s) (n_closed s) (n_done s) (n_handles s) (set_nth (n_workers s) w WIdle) (n_out s ++ [(j, r)]) (n_alive s) (n_next s), [])
          else Some (set_w s w WStopped, [OLost j r])
      | _ => None
      end
  | Recv =>
      match n_alive s, n_out s with
      | true, (j, r) :: o => Some (mkN (n_queue s) (n_closed s) (n_done s) (n_handles s) (n_workers s) o (n_alive s) (n_next s), [ODeliver j r])
      | _, _ => None
      end
  | End =>
      match n_out s with
      | [] => if n_alive s && forallb is_stopped (n_workers s) then Some (s, [OEnd]) else None
      | _ => None
      end
  | DropStream =>
      if n_alive s then Some (mkN (n_queue s) (n_closed s) (n_done s) (n_handles s) (n_workers s) [] false (n_next s), map (fun p => OLost (fst p) (snd p)) (n_out s)) else None
  | Abort w =>
      if n_alive s then None
      else match nth_error (n_workers s) w with
           | Some (WGot j) | Some (WReady j) => Some (set_w s w WStopped, [ODiscard j])
           | Some (WRunning j) => Some (set_w s w WStopped, [OAbort j])
           | Some (WSending j r) => Some (set_w s w WStopped, [OLost j r])
           | Some WIdle => Some (set_w s w WStopped, [])
           | _ => None
           end
  end.

(** An execution and what is observed of it. *)
Fixpoint nrun (s : nst) (l : list nev) : option (nst * list obs) :=
  match l with
  | [] => Some (s, [])
  | e :: l' =>
      match nstep s e with
      | Some (s1, o1) => match nrun s1 l' with Some (s2, o2) => Some (s2, o1 ++ o2) | None => None end
      | None => None
      end
  end.
End Nursery.
Arguments job J : clear implicits.
Arguments wstate J R : clear implicits.
Arguments nst J R : clear implicits.
Arguments nev J R : clear implicits.
Arguments obs J R : clear implicits.
