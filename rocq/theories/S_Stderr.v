(** Specification vocabulary for the log on standard error. *)
From Verif Require Import Base M_Log M_Stderr.

(** [kept P l k]: [k] are those of [l], in order, that satisfy [P]. *)
Inductive kept {A} (P : A -> Prop) : list A -> list A -> Prop :=
| kept_nil : kept P [] []
| kept_in x l k : P x -> kept P l k -> kept P (x :: l) (x :: k)
| kept_out x l k : ~ P x -> kept P l k -> kept P (x :: l) k.

(** The program's own modules *)
Definition own (target : bytes) : Prop := target = bs "demagnetize" \/ exists rest, target = bs "demagnetize::" ++ rest.
(** What is asked for: of the program, everything at most as verbose as --log-level says; of the
    libraries, what is at most as verbose as INFO. *)
Definition wanted (f : option level) (e : entry) : Prop :=
  own (e_target e) /\ verbosity (e_level e) <= filter_verbosity f \/ ~ own (e_target e) /\ verbosity (e_level e) <= 3.

(** A time of day; second 60 is a leap second. *)
Definition time_of_day (t : N * N * N) : Prop := let '(h, m, s) := t in h < 24 /\ m < 60 /\ s <= 60.

(** The lines of a text in which every line is ended. *)
Definition lines_of (t : bytes) (ls : list bytes) : Prop := t = flat_map (fun l => l ++ [x0a]) ls /\ Forall (fun l => ~ In x0a l) ls.
(** What a line tells. *)
Definition told (e : entry) : (N * N * N) * level * bytes := (e_time e, e_level e, e_text e).

(** Records about something that went wrong. *)
Definition about_failure (r : record) : Prop :=
  match r with
  | LFallback _ _ | LPeerFailed _ _ _ _ | LPeerError _ _ | LTrackerFailed _ _ _ _ | LTrackerError _ _ | LStopFailed _ _ _ _ | LNodeError _ _ _ | LNodeInvalid _ _ _ _ => True
  | _ => False
  end.
