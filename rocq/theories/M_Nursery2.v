(** Model of what the functions of src/asyncutil/worker_nursery.rs return: those that close the
    pool, those that ask about it, and the one that reads without waiting. *)
From Verif Require Import Base M_Nursery.

Section Nursery.
Context {J R : Type}.
Implicit Types s : nst J R.
(** worker_nursery.rs:90-92,211-213,284-287 close: async_channel's close says whether this call
    closed it.  What it does is the event [Close]. *)
Definition close_returns s : bool := negb (n_closed s).
(** worker_nursery.rs:106-109,227-230 shutdown: the swap of [done] (the event [Shutdown]) *)
Definition shutdown_returns s : bool := negb (n_done s).
(** worker_nursery.rs:95-97,218-220,289-291 is_closed; :112-114,233-235 is_shutdown *)
Definition is_closed s : bool := n_closed s.
Definition is_shutdown s : bool := n_done s.
(** worker_nursery.rs:117-124 len and is_empty of the handle: the input channel *)
Definition handle_len s : nat := length (n_queue s).
Definition handle_is_empty s : bool := match n_queue s with [] => true | _ => false end.
(** worker_nursery.rs:238-245 len and is_empty of the stream: the output channel *)
Definition stream_len s : nat := length (n_out s).
Definition stream_is_empty s : bool := match n_out s with [] => true | _ => false end.
(** worker_nursery.rs:314-318,331-338 TryRecvError *)
Inductive try_recv_error := TryEmpty | TryDone.
(** worker_nursery.rs:191-196 try_recv, called while the stream exists: tokio's try_recv says
    Disconnected exactly if the channel is empty and all senders are gone, which the
    workers hold.  A result is taken as by the event [Recv]; a caught panic is resumed
    (here [Panic] is in the result). *)
Definition try_recv s : res try_recv_error (job J * outcome R) :=
  match n_out s with
  | x :: _ => Ok x
  | [] => Err (if forallb is_stopped (n_workers s) then TryDone else TryEmpty)
  end.
End Nursery.
