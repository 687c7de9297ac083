(** Specifications for unique_stream.rs and shutdown_group.rs. *)
From Verif Require Import Base M_Async.

(** [firsts key l out]: [out] is what remains of [l] if of each key only the first item is
    kept. *)
Inductive firsts {A K} (key : A -> K) : list A -> list A -> Prop :=
| f_nil : firsts key [] []
| f_old l out x : firsts key l out -> In (key x) (map key l) -> firsts key (l ++ [x]) out
| f_new l out x : firsts key l out -> ~ In (key x) (map key l) -> firsts key (l ++ [x]) (out ++ [x]).
Definition items {A} (l : list (poll A)) : list A := flat_map (fun p => match p with Item a => [a] | _ => [] end) l.
(** A stream's polls: items and pendings, then the end. *)
Definition well_formed {A} (l : list (poll A)) : Prop := exists l0, l = l0 ++ [Ended] /\ ~ In Ended l0.

Fixpoint ticks (l : list gev) : N := match l with [] => 0 | GTick n :: r => n + ticks r | _ :: r => ticks r end.
