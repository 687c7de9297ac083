(** Specification vocabulary for what is logged about failures. *)
From Verif Require Import Base M_Http M_Peer M_Resolve M_Get M_Report.

Section Report.
Context {T P E X : Type}.
(** The trackers (by number, with their errors) and the peers that are reported, in order *)
Definition tracker_reports (g : list (report T P E X)) : list (nat * T * E) := flat_map (fun r => match r with TrackerFailed k t e => [(k, t, e)] | _ => [] end) g.
Definition peer_reports (g : list (report T P E X)) : list (P * X) := flat_map (fun r => match r with PeerFailed p e => [(p, e)] | _ => [] end) g.
End Report.
(** The reports among the records of 'get' *)
Definition notes_of {E} (g : list (gnote E)) : list (report tracker contact E peer_error) :=
  flat_map (fun n => match n with Note r => [r] | _ => [] end) g.
