(** Specification vocabulary for how long DHT lookups take. *)
From Verif Require Import Base M_Net M_Tracker M_DhtMsg M_Dht S_Dht M_DhtTime.
Local Open Scope nat_scope.

Definition wf_dev (e : dev) : Prop := match e with DAct a => wf_ev a | DWait _ => True end.
(** A query whose time is over is given up before more time passes. *)
Fixpoint in_due_time (timeout : nat) (x : dst) (l : list dev) : Prop :=
  match l with
  | [] => True
  | e :: l' =>
      match e with
      | DWait t => forall k, In k (a_timers (d_a x)) -> d_now x + t <= d_began x k + timeout
      | DAct _ => True
      end /\
      match dstep timeout x e with Some (x', _) => in_due_time timeout x' l' | None => True end
  end.
(** What can have happened by now, and when; [d_now x]: the time by now. *)
Definition timed (timeout : nat) (my_id : bytes) (v6 : bool) (boot : list sockaddr) (x : dst) (th : list (nat * aobs)) : Prop :=
  exists l, Forall wf_dev l /\ drun timeout (d_start (actor_start my_id v6 boot)) l = Some (x, th) /\
    in_due_time timeout (d_start (actor_start my_id v6 boot)) l.
(** The times of the valid replies to lookup [sid]. *)
Definition reply_times (th : list (nat * aobs)) (sid : nat) : list nat :=
  flat_map (fun o => match o with (t, OReply i _ _ (Ok _)) => if Nat.eqb i sid then [t] else [] | _ => [] end) th.
(** The lookup has neither been answered nor failed. *)
Definition unanswered (th : list (nat * aobs)) (sid : nat) : Prop :=
  answers (map snd th) sid = [] /\ downs (map snd th) sid = 0.
