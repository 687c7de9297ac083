(** Specification vocabulary for resolving a magnet. *)
From Verif Require Import Base M_Nursery S_Nursery M_Resolve.

Section Resolve.
Context {T P M : Type}.
(** The peers contacted, in the order they were submitted; the results received from
    them, in the order of receipt; the peer lists received from trackers. *)
Definition contacted (h : list (obs P (option M))) : list P := map snd (accepted h).
Definition results (h : list (obs P (option M))) : list (P * outcome (option M)) := map (fun d => (snd (fst d), snd d)) (delivered h).
Definition reported (h : list (obs T (list P))) : list P := concat (map (fun d => match snd d with Ret ps => ps | Panic => [] end) (delivered h)).
(** The peers there are to try: those found on the DHT if there are no trackers, and those
    reported by the trackers. *)
Definition known (trackers : list T) (dht : option (list P)) (announce : nat -> outcome (list P)) (p : P) : Prop :=
  (trackers = [] /\ exists found, dht = Some found /\ In p found) \/
  (exists k ps, k < length trackers /\ announce k = Ret ps /\ In p ps)%nat.
End Resolve.
