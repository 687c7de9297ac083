(** Specification vocabulary for worker pools: what an observer sees of an execution. *)
From Verif Require Import Base M_Nursery.

Section Observed.
Context {J R : Type}.
Implicit Types h : list (obs J R).
Definition pick {A} (f : obs J R -> option A) h : list A := flat_map (fun o => match f o with Some a => [a] | None => [] end) h.
(** The jobs accepted, taken off the queue, dropped without having been started, started,
    finished (with their results), aborted while running; the results delivered, and
    those lost because the stream was dropped; each in order. *)
Definition accepted := pick (fun o => match o with OAccept j => Some j | _ => None end).
Definition taken := pick (fun o => match o with OTake j => Some j | _ => None end).
Definition discarded := pick (fun o => match o with ODiscard j => Some j | _ => None end).
Definition started := pick (fun o => match o with OStart j => Some j | _ => None end).
Definition finished := pick (fun o => match o with OFinish j r => Some (j, r) | _ => None end).
Definition aborted := pick (fun o => match o with OAbort j => Some j | _ => None end).
Definition lost := pick (fun o => match o with OLost j r => Some (j, r) | _ => None end).
Definition delivered := pick (fun o => match o with ODeliver j r => Some (j, r) | _ => None end).

(** What the pool does by itself and what reading the stream does, as opposed to what
    those holding a handle or dropping the stream do. *)
Definition internal (e : nev J R) : bool :=
  match e with Take _ | Check _ | Start _ | Finish _ _ | Send _ | Quit _ | Recv => true | _ => false end.
Definition all_internal (l : list (nev J R)) : Prop := forall e, In e l -> internal e = true.
(** No further step, whatever results running jobs might yield. *)
Definition stuck (s : nst J R) : Prop := forall e, internal e = true -> nstep s e = None.
End Observed.
