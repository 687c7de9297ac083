(** Model of src/asyncutil/unique_stream.rs and src/asyncutil/shutdown_group.rs. *)
From Verif Require Import Base.

(** *** UniqueByStream *)
(** One poll of a stream. *)
Inductive poll A := Pending | Item (a : A) | Ended.
Arguments Pending {A}.
Arguments Item {A} a.
Arguments Ended {A}.
Section Unique.
Context {A K : Type} (eqb : K -> K -> bool) (keyfunc : A -> K).
(** unique_stream.rs:49-62 poll_next: loops over the inner stream's polls ([inner]: what they
    will give) until one is pending, the end, or an item with a new key.  Result: the
    poll, the keys seen, the inner polls left.  No inner polls left: pending. *)
Fixpoint poll_next (seen : list K) (inner : list (poll A)) : poll A * list K * list (poll A) :=
  match inner with
  | [] => (Pending, seen, [])
  | Pending :: r => (Pending, seen, r)
  | Ended :: r => (Ended, seen, r)
  | Item v :: r => if existsb (eqb (keyfunc v)) seen then poll_next seen r else (Item v, keyfunc v :: seen, r)
  end.
(** [n] successive polls. *)
Fixpoint polls (n : nat) (seen : list K) (inner : list (poll A)) : list (poll A) :=
  match n with
  | O => []
  | S n' => let '(p, seen', inner') := poll_next seen inner in p :: polls n' seen' inner'
  end.
End Unique.

(** *** ShutdownGroup *)
(** shutdown_group.rs:6-10,34-40: where [shutdown] is. *)
Inductive gphase := GBefore | GFirstJoin (deadline : N) | GSecondJoin | GReturned.
(** [g_running]: the tasks the tracker holds; [g_ended]: those that ended; [g_cancelled]:
    the token *)
Record gst := mkG { g_running : list nat; g_ended : list nat; g_next : nat; g_cancelled : bool; g_phase : gphase; g_now : N }.
Definition g_new : gst := mkG [] [] 0 false GBefore 0.
(** GTick: time passes; GSpawn: :20-28; GEnd: a task ends; GCall: shutdown(duration) is
    called; GTimeout: the timer fires before the first join is done (:36-37; timeout polls
    the join first); GJoin: a join is done (TaskTracker::wait: closed and empty). *)
Inductive gev := GTick (n : N) | GSpawn | GEnd (i : nat) | GCall (duration : N) | GTimeout | GJoin.
Definition gstep (s : gst) (e : gev) : option gst :=
  match e with
  | GTick n => Some (mkG (g_running s) (g_ended s) (g_next s) (g_cancelled s) (g_phase s) (g_now s + n))
  | GSpawn => Some (mkG (g_next s :: g_running s) (g_ended s) (S (g_next s)) (g_cancelled s) (g_phase s) (g_now s))
  | GEnd i =>
      if existsb (Nat.eqb i) (g_running s)
      then Some (mkG (filter (fun j => negb (Nat.eqb i j)) (g_running s)) (i :: g_ended s) (g_next s) (g_cancelled s) (g_phase s) (g_now s))
      else None
  | GCall d =>
      match g_phase s with
      | GBefore => Some (mkG (g_running s) (g_ended s) (g_next s) (g_cancelled s) (GFirstJoin (g_now s + d)) (g_now s))
      | _ => None
      end
  | GTimeout =>
      match g_phase s, g_running s with
      | GFirstJoin dl, _ :: _ =>
          if dl <=? g_now s then Some (mkG (g_running s) (g_ended s) (g_next s) true GSecondJoin (g_now s)) else None
      | _, _ => None
      end
  | GJoin =>
      match g_running s, g_phase s with
      | [], GFirstJoin _ => Some (mkG [] (g_ended s) (g_next s) (g_cancelled s) GSecondJoin (g_now s))
      | [], GSecondJoin => Some (mkG [] (g_ended s) (g_next s) (g_cancelled s) GReturned (g_now s))
      | _, _ => None
      end
  end.
Fixpoint grun (s : gst) (l : list gev) : option gst :=
  match l with [] => Some s | e :: r => match gstep s e with Some s1 => grun s1 r | None => None end end.
