(** Model of the DHT node shared by all lookups of a process: src/app.rs:36-72,
    src/dht/actor.rs:94-155 and 276-333.  The node's own behaviour is M_Dht's [astep]. *)
From Verif Require Import Base M_Net M_Tracker M_DhtMsg M_Dht.

(** actor.rs:324-333 ActorMessage.  A oneshot channel is written as the number of the call
    that waits at its other end. *)
Inductive amsg := LookupPeers (caller : nat) (hash : bytes) | ShutdownMsg (caller : nat).
(** actor.rs:25 *)
Definition ACTION_CHANNEL_SIZE : nat := 64.
(** A spawned DhtActor: in resolve_bootstrap (my_id and whether there is an IPv6 socket), in
    the loop of run(), or run() has returned.  [dn_chan]: the messages in the channel;
    [dn_callers]: lookup_senders, by session id, with those already used. *)
Inductive nstate := Resolving (my_id : bytes) (v6 : bool) | Running (a : actor) | Dead.
Record dnode := mkNode { dn_state : nstate; dn_chan : list amsg; dn_callers : list (nat * nat) }.

(** The calls made of App: get_peers_from_dht, and the DHT part of shutdown. *)
Inductive call := CLookup (hash : bytes) | CShutdown.
(** What they return; get_peers_from_dht: the result, DhtError::Create or DhtError::Handle *)
Inductive dres := Found (r : found_peers) | CreateFailed | HandleFailed | Stopped.
(** Where a call is: waiting for the mutex, in DhtActor::new, in send() on the channel of
    node [n], waiting for node [n]'s reply, returned, or dropped by its caller. *)
Inductive tstate := TLock | TCreate | TSend (n : nat) | TWait (n : nat) | TDone (r : dres) | TGone.
(** app.rs:13-18: the mutex's owner and contents; [p_nodes]: the actors spawned *)
Record appst := mkApp { p_lock : option nat; p_handle : option nat; p_nodes : list dnode; p_calls : list (call * tstate) }.
(** app.rs:21-32 *)
Definition app_new : appst := mkApp None None [] [].

(** What happens: a call is made; a call takes the mutex; DhtActor::new returns (None: the
    IPv4 socket could not be bound); a call's send() goes through or fails; resolve_bootstrap
    returns; the actor takes a message; a datagram or a timer at the actor; a call is
    dropped by its caller.  A waiting mutex or channel may be granted in any order. *)
Inductive pev :=
| PCall (c : call)
| PLock (t : nat)
| PCreate (t : nat) (r : option (bytes * bool))
| PSend (t : nat)
| PResolve (n : nat) (boot : list sockaddr)
| PTake (n : nat) (oks : list bool)
| PNet (n : nat) (e : aev)
| PCancel (t : nat).
(** What is observed: call [t] begins; a node is created; call [t] becomes the lookup
    [sid] of node [n]; what node [n] does; call [t] returns. *)
Inductive pobs :=
| OBegin (t : nat) (c : call)
| ONode (n : nat)
| OServe (t n sid : nat)
| ODht (n : nat) (o : aobs)
| OReturn (t : nat) (r : dres).

Fixpoint set_nth {A} (l : list A) (i : nat) (x : A) : list A :=
  match l, i with
  | [], _ => []
  | _ :: r, O => x :: r
  | y :: r, S j => y :: set_nth r j x
  end.
Definition unlock (t : nat) (l : option nat) : option nat :=
  match l with Some t' => if Nat.eqb t t' then None else l | None => None end.
Definition put (s : appst) (t : nat) (c : call) (st : tstate) : appst := mkApp (p_lock s) (p_handle s) (p_nodes s) (set_nth (p_calls s) t (c, st)).
(** A call returns; dropping the guard frees the mutex *)
Definition finish (s : appst) (t : nat) (c : call) (r : dres) : appst * list pobs :=
  (mkApp (unlock t (p_lock s)) (p_handle s) (p_nodes s) (set_nth (p_calls s) t (c, TDone r)), [OReturn t r]).
(** actor.rs:291-298,307-313: what a call returns if the actor is gone *)
Definition on_death (c : call) : dres := match c with CLookup _ => HandleFailed | CShutdown => Stopped end.
Definition message (t : nat) (c : call) : amsg := match c with CLookup h => LookupPeers t h | CShutdown => ShutdownMsg t end.

(** The actor is dropped: the channel is closed and all messages in it and all senders are
    dropped, so that every call waiting for a reply returns. *)
Fixpoint fail_waiting (n i : nat) (l : list (call * tstate)) : list (call * tstate) * list pobs :=
  match l with
  | [] => ([], [])
  | (c, st) :: r =>
      let (r', o) := fail_waiting n (S i) r in
      match st with
      | TWait m => if Nat.eqb m n then ((c, TDone (on_death c)) :: r', OReturn i (on_death c) :: o) else ((c, st) :: r', o)
      | _ => ((c, st) :: r', o)
      end
  end.
Definition dies (s : appst) (n : nat) (d : dnode) : appst * list pobs :=
  let (l, o) := fail_waiting n 0 (p_calls s) in
  (mkApp (match p_lock s with
          | Some t => match nth_error l t with Some (_, TDone _) => None | _ => Some t end
          | None => None
          end) (p_handle s) (set_nth (p_nodes s) n (mkNode Dead [] (dn_callers d))) l, o).

(** actor.rs:265-274: results go to the calls that wait for them; one that was dropped does
    not *)
Fixpoint deliver (s : appst) (n : nat) (callers : list (nat * nat)) (o : list aobs) : appst * list pobs :=
  match o with
  | [] => (s, [])
  | OAnswer sid r :: o' =>
      match find (fun e => Nat.eqb (fst e) sid) callers with
      | Some (_, t) =>
          match nth_error (p_calls s) t with
          | Some (c, TWait _) => let (s1, p1) := finish s t c (Found r) in let (s2, p2) := deliver s1 n callers o' in (s2, p1 ++ p2)
          | _ => deliver s n callers o'
          end
      | None => deliver s n callers o'
      end
  | _ :: o' => deliver s n callers o'
  end.
(** The actor did [o] and is now [a]. *)
Definition acted (s : appst) (n : nat) (a : actor) (chan : list amsg) (callers : list (nat * nat)) (o : list aobs) : appst * list pobs :=
  let s1 := mkApp (p_lock s) (p_handle s) (set_nth (p_nodes s) n (mkNode (Running a) chan callers)) (p_calls s) in
  let (s2, p) := deliver s1 n callers o in (s2, map (ODht n) o ++ p).

Definition pstep (s : appst) (e : pev) : option (appst * list pobs) :=
  match e with
  | PCall c => Some (mkApp (p_lock s) (p_handle s) (p_nodes s) (p_calls s ++ [(c, TLock)]), [OBegin (length (p_calls s)) c])
  | PLock t =>
      match p_lock s, nth_error (p_calls s) t with
      | None, Some (c, TLock) =>
          match c, p_handle s with
          | CLookup _, Some n => Some (put s t c (TSend n), [])  (* app.rs:39-41: the guard is dropped on return *)
          | CLookup _, None => Some (mkApp (Some t) None (p_nodes s) (set_nth (p_calls s) t (c, TCreate)), [])
          | CShutdown, Some n => Some (mkApp (Some t) (p_handle s) (p_nodes s) (set_nth (p_calls s) t (c, TSend n)), [])  (* app.rs:62-66 *)
          | CShutdown, None => Some (finish s t c Stopped)
          end
      | _, _ => None
      end
  | PCreate t r =>  (* app.rs:43-49 *)
      match nth_error (p_calls s) t with
      | Some (c, TCreate) =>
          match r with
          | None => Some (finish s t c CreateFailed)
          | Some (id, v6) =>
              let n := length (p_nodes s) in
              Some (mkApp (unlock t (p_lock s)) (Some n) (p_nodes s ++ [mkNode (Resolving id v6) [] []]) (set_nth (p_calls s) t (c, TSend n)), [ONode n])
          end
      | _ => None
      end
  | PSend t =>  (* actor.rs:297,311 *)
      match nth_error (p_calls s) t with
      | Some (c, TSend n) =>
          match nth_error (p_nodes s) n with
          | Some d =>
              match dn_state d with
              | Dead => Some (finish s t c (on_death c))
              | st =>
                  if Nat.ltb (length (dn_chan d)) ACTION_CHANNEL_SIZE
                  then Some (mkApp (p_lock s) (p_handle s) (set_nth (p_nodes s) n (mkNode st (dn_chan d ++ [message t c]) (dn_callers d)))
                               (set_nth (p_calls s) t (c, TWait n)), [])
                  else None
              end
          | None => None
          end
      | _ => None
      end
  | PResolve n boot =>  (* actor.rs:125-132 *)
      match nth_error (p_nodes s) n with
      | Some d =>
          match dn_state d with
          | Resolving id v6 =>
              let a := actor_start id v6 boot in
              if a_running a then Some (mkApp (p_lock s) (p_handle s) (set_nth (p_nodes s) n (mkNode (Running a) (dn_chan d) (dn_callers d))) (p_calls s), [])
              else Some (dies s n d)
          | _ => None
          end
      | None => None
      end
  | PTake n oks =>  (* actor.rs:135-155 *)
      match nth_error (p_nodes s) n with
      | Some d =>
          match dn_state d, dn_chan d with
          | Running a, LookupPeers t hash :: chan =>
              match astep a (ALookup hash oks) with
              | Some (a1, o) => let (s1, p) := acted s n a1 chan (dn_callers d ++ [(a_next a, t)]) o in Some (s1, OServe t n (a_next a) :: p)
              | None => None
              end
          | Running a, ShutdownMsg t :: _ =>
              match astep a AShutdown with
              | Some (_, o) => let (s1, p) := dies s n d in Some (s1, map (ODht n) o ++ p)
              | None => None
              end
          | _, _ => None
          end
      | None => None
      end
  | PNet n e =>  (* actor.rs:157-171 *)
      match nth_error (p_nodes s) n with
      | Some d =>
          match dn_state d, e with
          | Running a, ADatagram _ _ _ _ | Running a, ATimeout _ _ =>
              match astep a e with
              | Some (a1, o) => Some (acted s n a1 (dn_chan d) (dn_callers d) o)
              | None => None
              end
          | _, _ => None
          end
      | None => None
      end
  | PCancel t =>
      match nth_error (p_calls s) t with
      | Some (_, TDone _) | Some (_, TGone) | None => None
      | Some (c, _) => Some (mkApp (unlock t (p_lock s)) (p_handle s) (p_nodes s) (set_nth (p_calls s) t (c, TGone)), [])
      end
  end.
Fixpoint prun (s : appst) (l : list pev) : option (appst * list pobs) :=
  match l with
  | [] => Some (s, [])
  | e :: l' =>
      match pstep s e with
      | Some (s1, o1) => match prun s1 l' with Some (s2, o2) => Some (s2, o1 ++ o2) | None => None end
      | None => None
      end
  end.
