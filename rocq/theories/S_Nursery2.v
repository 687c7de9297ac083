(** Specification vocabulary for the calls on a worker pool. *)
From Verif Require Import Base M_Nursery S_Nursery.
Local Open Scope nat_scope.

Section Calls.
Context {J R : Type}.
Implicit Types l : list (nev J R).
(** How many handles there are: one at first, one more with each clone, one less with each
    drop. *)
Definition is_clone (e : nev J R) : bool := match e with Clone => true | _ => false end.
Definition is_drop (e : nev J R) : bool := match e with DropHandle => true | _ => false end.
Definition handles_left l : nat := 1 + length (filter is_clone l) - length (filter is_drop l).
(** The pool has been closed: by a call (shutdown and dropping the stream make one) or
    because no handle is left. *)
Definition was_closed l : Prop := In Close l \/ handles_left l = 0.
End Calls.
