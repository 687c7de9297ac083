(** The process: src/main.rs:60-103 (Arguments::run), src/app.rs:20-70 (App), composed of
    M_Config (the configuration), M_Announce (queries to trackers), M_App (the DHT node) and
    M_Async (the group of "stopped" announcements).  What the command does in between is left
    open: it may query any trackers and make any lookups. *)
From Verif Require Import Base M_Net M_Tracker M_Session M_Announce M_Mse M_Http M_Udp M_Config M_App M_Async.

(** A query to a tracker begun by the command: PeerGetter, what the network does, when it
    began; it runs, has returned, or was dropped (its task was aborted). *)
Record tquery := mkQuery { tq_session : tracker_session; tq_tracker : tracker; tq_net : net; tq_begun : N }.
Inductive qstate := QRunning | QReturned | QDropped.
(** Where Arguments::run is: in command.run (main.rs:100); in the first part of app.shutdown
    (app.rs:60-66), the DHT call having the number [call]; in shutdown_group.shutdown
    (app.rs:67-69); returned; the command has panicked (main.rs:100), which ends the process:
    app.shutdown is not reached, and dropping the runtime drops all tasks (simplification: at
    once).  [ok]: the command's exit status. *)
Inductive stage := Working | Closing (ok : bool) (call : nat) | Leaving (ok : bool) | Exited (ok : bool) | Crashed.
(** [z_tasks]: the tasks ever handed to the shutdown group, by number: the query each belongs
    to, what it announces, and whether it has begun to (tracker/mod.rs:80-92).  The clock is
    that of the group. *)
Record proc := mkProc { z_stage : stage; z_app : appst; z_group : gst; z_queries : list (tquery * qstate); z_tasks : list (nat * announcement * bool) }.
Definition z_now (s : proc) : N := g_now (z_group s).

(** ZTick: time passes; ZQuery: the command begins to query a tracker; ZAnswer: a query
    returns; ZDrop: it is dropped; ZDht: something happens to the DHT node or to a lookup;
    ZDone: the command returns; ZClosed: the DHT node has been shut down; ZStop: a task of the
    group is first polled, and calls stop(); ZStopped: stop() returns; ZGiveUp: the task sees
    the cancellation; ZTimeout, ZJoin: as in M_Async; ZPanic: the command panics (M_Stdout and
    C73 say when it may). *)
Inductive zev :=
| ZTick (n : N)
| ZQuery (ih : bytes) (override : option tracker_crypto) (tr : tracker) (n : net)
| ZAnswer (q : nat) | ZDrop (q : nat)
| ZDht (e : pev)
| ZDone (ok : bool) | ZClosed
| ZStop (i : nat) | ZStopped (i : nat) | ZGiveUp (i : nat)
| ZTimeout | ZJoin | ZPanic.
(** What is observed: the announcement [a] of query [q] was made; the tracker's answer was
    reported to the command; the announcement [a] is begun for query [q], is over (with
    whatever result) or is given up; the command returns; the process exits; it ends by a panic. *)
Inductive zobs :=
| OAnnounced (q : nat) (a : announcement) | OAnswered (q : nat) (peers : list peer)
| OStopping (q : nat) (a : announcement) | OStopped (q : nat) | OGivenUp (q : nat)
| OEnd (ok : bool) | OExit (ok : bool) | OPanic.

Section Process.
(** The configuration, and the local peer (app.rs:22-25: M_Types, M_Config for how these are
    chosen) *)
Context (cfg : config) (pid : bytes) (key port : N).

(** app.rs:21-32 *)
Definition z_new : proc := mkProc Working app_new g_new [] [].
(** src/tracker/mod.rs:32-43, 55-58 *)
Definition z_session (ih : bytes) (override : option tracker_crypto) : tracker_session :=
  mkTS ih override (c_encrypt cfg) pid key port (c_numwant cfg).

Definition set_group (s : proc) (g : gst) : proc := mkProc (z_stage s) (z_app s) g (z_queries s) (z_tasks s).
Definition set_query (s : proc) (q : nat) (x : tquery) (st : qstate) : proc :=
  mkProc (z_stage s) (z_app s) (z_group s) (M_App.set_nth (z_queries s) q (x, st)) (z_tasks s).
Definition set_stage (s : proc) (st : stage) : proc := mkProc st (z_app s) (z_group s) (z_queries s) (z_tasks s).
Definition exited (s : proc) : bool := match z_stage s with Exited _ | Crashed => true | _ => false end.
Definition gapply (s : proc) (e : gev) : option proc := option_map (set_group s) (gstep (z_group s) e).
(** A lookup is awaited by the command (magnet.rs:41, main.rs:320), which can drop it only by
    returning, and does not return before. *)
Definition all_returned (l : list (call * tstate)) : bool := forallb (fun c => match snd c with TDone _ => true | _ => false end) l.
Definition dht_allowed (st : stage) (e : pev) : bool :=
  match e with
  | PCall (CLookup _) => match st with Working => true | _ => false end
  | PCall CShutdown | PCancel _ => false
  | _ => true
  end.

Definition zstep (s : proc) (e : zev) : option (proc * list (N * zobs)) :=
  if exited s then None
  else
    match e with
    | ZTick n => option_map (fun s' => (s', [])) (gapply s (GTick n))
    | ZQuery ih override tr n =>
        match z_stage s with
        | Working => Some (mkProc (z_stage s) (z_app s) (z_group s) (z_queries s ++ [(mkQuery (z_session ih override) tr n (z_now s), QRunning)]) (z_tasks s), [])
        | _ => None
        end
    | ZAnswer q =>  (* tracker/mod.rs:72-98 *)
        match nth_error (z_queries s) q with
        | Some (x, QRunning) =>
            let '(made, stop, t, r) := tracker_query (ns (c_announce_timeout cfg)) (tq_session x) (tq_tracker x) (tq_net x) in
            if tq_begun x + t <=? z_now s
            then
              let s1 := set_query s q x QReturned in
              let o := map (fun a => (z_now s, OAnnounced q a)) made ++ match r with Ok peers => [(z_now s, OAnswered q peers)] | Err _ => [] end in
              match stop with
              | Some a =>
                  match gapply s1 GSpawn with
                  | Some s2 => Some (mkProc (z_stage s2) (z_app s2) (z_group s2) (z_queries s2) (z_tasks s2 ++ [(q, a, false)]), o)
                  | None => None
                  end
              | None => Some (s1, o)
              end
            else None
        | _ => None
        end
    | ZDrop q =>
        match nth_error (z_queries s) q with
        | Some (x, QRunning) => Some (set_query s q x QDropped, [])
        | _ => None
        end
    | ZDht e =>
        if dht_allowed (z_stage s) e
        then match pstep (z_app s) e with
             | Some (a, _) => Some (mkProc (z_stage s) a (z_group s) (z_queries s) (z_tasks s), [])
             | None => None
             end
        else None
    | ZDone ok =>  (* main.rs:100-101, app.rs:61-62 *)
        match z_stage s with
        | Working =>
            if all_returned (p_calls (z_app s))
            then match pstep (z_app s) (PCall CShutdown) with
                 | Some (a, _) => Some (mkProc (Closing ok (length (p_calls (z_app s)))) a (z_group s) (z_queries s) (z_tasks s), [(z_now s, OEnd ok)])
                 | None => None
                 end
            else None
        | _ => None
        end
    | ZClosed =>  (* app.rs:67-69, shutdown_group.rs:36 *)
        match z_stage s with
        | Closing ok t =>
            match nth_error (p_calls (z_app s)) t with
            | Some (_, TDone _) => option_map (fun s' => (set_stage s' (Leaving ok), [])) (gapply s (GCall (ns (c_shutdown_timeout cfg))))
            | _ => None
            end
        | _ => None
        end
    | ZStop i =>
        match nth_error (z_tasks s) i with
        | Some (q, a, false) =>
            if existsb (Nat.eqb i) (g_running (z_group s))
            then Some (mkProc (z_stage s) (z_app s) (z_group s) (z_queries s) (M_App.set_nth (z_tasks s) i (q, a, true)), [(z_now s, OStopping q a)])
            else None
        | _ => None
        end
    | ZStopped i =>
        match nth_error (z_tasks s) i with
        | Some (q, _, true) => option_map (fun s' => (s', [(z_now s, OStopped q)])) (gapply s (GEnd i))
        | _ => None
        end
    | ZGiveUp i =>
        match nth_error (z_tasks s) i with
        | Some (q, _, _) => if g_cancelled (z_group s) then option_map (fun s' => (s', [(z_now s, OGivenUp q)])) (gapply s (GEnd i)) else None
        | None => None
        end
    | ZTimeout => option_map (fun s' => (s', [])) (gapply s GTimeout)
    | ZJoin =>
        match gapply s GJoin with
        | Some s' =>
            match z_stage s', g_phase (z_group s') with
            | Leaving ok, GReturned => Some (set_stage s' (Exited ok), [(z_now s, OExit ok)])  (* main.rs:102 *)
            | _, _ => Some (s', [])
            end
        | None => None
        end
    | ZPanic => match z_stage s with Working => Some (set_stage s Crashed, [(z_now s, OPanic)]) | _ => None end
    end.
Fixpoint zrun (s : proc) (l : list zev) : option (proc * list (N * zobs)) :=
  match l with
  | [] => Some (s, [])
  | e :: l' =>
      match zstep s e with
      | Some (s1, o1) => match zrun s1 l' with Some (s2, o2) => Some (s2, o1 ++ o2) | None => None end
      | None => None
      end
  end.
End Process.

(** src/main.rs:61-103: an execution of the process; [selected]: M_Config.select_config.  Without
    a configuration the process exits at once (main.rs:71-74, 91-98). *)
Definition main_run (selected : option config) (pid : bytes) (key port : N) (l : list zev) : option (proc * list (N * zobs)) :=
  match selected with
  | Some cfg => zrun cfg pid key port z_new l
  | None => match l with [] => Some (mkProc (Exited false) app_new g_new [] [], [(0, OExit false)]) | _ :: _ => None end
  end.
