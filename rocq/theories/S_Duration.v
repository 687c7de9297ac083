(** Specification vocabulary for how long resolving a magnet takes. *)
From Verif Require Import Base M_Nursery S_Nursery M_Resolve M_Batch M_Duration.
Local Open Scope nat_scope.

(** The sum of the times some jobs take. *)
Definition total {J} (d : J -> nat) (l : list J) : nat := list_sum (map d l).

Section Prompt.
Context {T P A M : Type} (addr_eqb : A -> A -> bool) (addr : P -> A).
Context (announce : nat -> outcome (list P)) (fetch : P -> outcome (option M)).
Context (dT : job T -> nat) (dP : job P -> nat).
Notation tstep := (@tstep T P A M addr_eqb addr announce fetch dT dP).
(** No job goes on for longer than it takes if [d] more passes. *)
Definition in_time (x : tst T P A M) (d : nat) : Prop :=
  (forall w j, nth_error (n_workers (r_trackers (t_r x))) w = Some (WRunning j) -> t_now x + d <= t_bt x w + dT j) /\
  (forall w j, nth_error (n_workers (r_peers (t_r x))) w = Some (WRunning j) -> t_now x + d <= t_bp x w + dP j).
(** The tasks do what they can do at once: time passes only when no task can act, and
    not past the end of a job. *)
Fixpoint prompt (x : tst T P A M) (l : list tev) : Prop :=
  match l with
  | [] => True
  | e :: l' =>
      match e with Wait d => (forall a, tstep x (Act a) = None) /\ in_time x d | Act _ => True end /\
      match tstep x e with Some (x', _, _) => prompt x' l' | None => True end
  end.
End Prompt.

(** The same for the batch command. *)
Section BatchPrompt.
Context {Mg : Type} (download : nat -> outcome bool) (d : job Mg -> nat).
Fixpoint batch_prompt (x : ust Mg) (l : list uev) : Prop :=
  match l with
  | [] => True
  | e :: l' =>
      match e with
      | UWait t => (forall a, ustep download d x (UAct a) = None) /\
                   forall w j, nth_error (n_workers (b_pool (u_b x))) w = Some (WRunning j) -> u_now x + t <= u_began x w + d j
      | UAct _ => True
      end /\
      match ustep download d x e with Some (x', _) => batch_prompt x' l' | None => True end
  end.
End BatchPrompt.
