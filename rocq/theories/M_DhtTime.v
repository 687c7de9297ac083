(** Model of the time that passes in src/dht/actor.rs: the transition system of M_Dht with a
    clock.  Handling an event, sending datagrams included, takes no time. *)
From Verif Require Import Base M_Net M_Tracker M_DhtMsg M_Dht.
Local Open Scope nat_scope.

Section DhtTime.
(** actor.rs:70-72 [timeout], from the configuration (app.rs:44) *)
Context (timeout : nat).
(** The state of M_Dht, the time since the start, and when the sleep task of each query began. *)
Record dst := mkD { d_a : actor; d_now : nat; d_began : query_key -> nat }.
(** actor.rs:94-117 *)
Definition d_start (a : actor) : dst := mkD a 0 (fun _ => 0).
(** An event of M_Dht, or time passing. *)
Inductive dev := DAct (e : aev) | DWait (t : nat).
(** actor.rs:163 the sleep of a query is over; every other event may come at any time *)
Definition slept (x : dst) (e : aev) : bool :=
  match e with ATimeout k _ => d_began x k + timeout <=? d_now x | _ => true end.
(** actor.rs:223 the sleep of each query sent begins *)
Definition began (f : query_key -> nat) (now : nat) (o : list aobs) : query_key -> nat :=
  fun k => if existsb (fun b => match b with OQuery _ addr q ok => ok && key_eqb (addr, gq_txn q) k | _ => false end) o then now else f k.
(** actor.rs:133-171 with the clock *)
Definition dstep (x : dst) (e : dev) : option (dst * list aobs) :=
  match e with
  | DAct a =>
      if slept x a then
        match astep (d_a x) a with
        | Some (s, o) => Some (mkD s (d_now x) (began (d_began x) (d_now x) o), o)
        | None => None
        end
      else None
  | DWait t => Some (mkD (d_a x) (d_now x + t) (d_began x), [])
  end.
(** The observations, each with its time. *)
Fixpoint drun (x : dst) (l : list dev) : option (dst * list (nat * aobs)) :=
  match l with
  | [] => Some (x, [])
  | e :: l' =>
      match dstep x e with
      | Some (x1, o1) => match drun x1 l' with Some (x2, o2) => Some (x2, map (pair (d_now x)) o1 ++ o2) | None => None end
      | None => None
      end
  end.
End DhtTime.
