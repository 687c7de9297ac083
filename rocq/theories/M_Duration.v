(** Model of the time taken by src/magnet.rs:32-103 Magnet::get_torrent_file: the
    transition system of M_Resolve with a clock.  Every job takes some time, from when a
    worker begins it until it is over; everything else takes none.  (The time of a DHT
    lookup, magnet.rs:41-43, comes before and is not counted.)  Likewise for src/main.rs:234-282,
    the batch command (M_Batch). *)
From Verif Require Import Base M_Nursery M_Resolve M_Batch.
Local Open Scope nat_scope.

(** worker_nursery.rs:50 A job is over once its time has passed since worker [w] began it. *)
Definition over {J R} (d : job J -> nat) (n : nst J R) (began : nat -> nat) (now : nat) (e : wev) : bool :=
  match e with
  | KFinish w => match nth_error (n_workers n) w with Some (WRunning j) => began w + d j <=? now | _ => false end
  | _ => true
  end.
(** worker_nursery.rs:50 When each worker began its latest job. *)
Definition begin (began : nat -> nat) (now : nat) (e : wev) : nat -> nat :=
  match e with KStart w => fun i => if Nat.eqb i w then now else began i | _ => began end.

Section Duration.
Context {T P A M : Type} (addr_eqb : A -> A -> bool) (addr : P -> A).
Context (announce : nat -> outcome (list P)) (fetch : P -> outcome (option M)).
(** How long each tracker job and each peer job takes. *)
Context (dT : job T -> nat) (dP : job P -> nat).

(** The state of M_Resolve, the time since the start, and when each worker of the tracker
    pool and of the peer pool began its latest job. *)
Record tst := mkT { t_r : rst T P A M; t_now : nat; t_bt : nat -> nat; t_bp : nat -> nat }.
Definition t_start (s : rst T P A M) : tst := mkT s 0 (fun _ => 0) (fun _ => 0).
(** An action of M_Resolve, or time passing. *)
Inductive tev := Act (e : rev) | Wait (d : nat).
(** magnet.rs:32-103 with the clock: time passes only until get_torrent_file is over. *)
Definition tstep (x : tst) (e : tev) : option (tst * list (obs T (list P)) * list (obs P (option M))) :=
  match e with
  | Act a =>
      let ok := match a with
                | Tr k => over dT (r_trackers (t_r x)) (t_bt x) (t_now x) k
                | Pe k => over dP (r_peers (t_r x)) (t_bp x) (t_now x) k
                | _ => true
                end in
      if ok then match rstep addr_eqb addr announce fetch (t_r x) a with
                 | Some (s, o1, o2) =>
                     Some (mkT s (t_now x) (match a with Tr k => begin (t_bt x) (t_now x) k | _ => t_bt x end)
                                           (match a with Pe k => begin (t_bp x) (t_now x) k | _ => t_bp x end), o1, o2)
                 | None => None
                 end
      else None
  | Wait d =>
      match r_main (t_r x) with
      | MReturned _ | MPanicked => None
      | _ => Some (mkT (t_r x) (t_now x + d) (t_bt x) (t_bp x), [], [])
      end
  end.
Fixpoint trun (x : tst) (l : list tev) : option (tst * list (obs T (list P)) * list (obs P (option M))) :=
  match l with
  | [] => Some (x, [], [])
  | e :: l' =>
      match tstep x e with
      | Some (x1, t1, p1) => match trun x1 l' with Some (x2, t2, p2) => Some (x2, t1 ++ t2, p1 ++ p2) | None => None end
      | None => None
      end
  end.
End Duration.
Arguments tst T P A M : clear implicits.

Section BatchDuration.
Context {Mg : Type} (download : nat -> outcome bool).
(** How long each magnet link takes. *)
Context (d : job Mg -> nat).
(** The state of M_Batch, the time since the start, and when each worker began its latest job. *)
Record ust := mkU { u_b : bst Mg; u_now : nat; u_began : nat -> nat }.
Definition u_start (s : bst Mg) : ust := mkU s 0 (fun _ => 0).
Inductive uev := UAct (e : bev) | UWait (d : nat).
(** main.rs:234-282 with the clock: time passes only until the command is over. *)
Definition ustep (x : ust) (e : uev) : option (ust * list (obs Mg bool)) :=
  match e with
  | UAct a =>
      if match a with BWork k => over d (b_pool (u_b x)) (u_began x) (u_now x) k | BMain => true end
      then match bstep download (u_b x) a with
           | Some (s, o) => Some (mkU s (u_now x) (match a with BWork k => begin (u_began x) (u_now x) k | BMain => u_began x end), o)
           | None => None
           end
      else None
  | UWait t =>
      match b_main (u_b x) with
      | BExit _ | BPanicked => None
      | _ => Some (mkU (u_b x) (u_now x + t) (u_began x), [])
      end
  end.
Fixpoint urun (x : ust) (l : list uev) : option (ust * list (obs Mg bool)) :=
  match l with
  | [] => Some (x, [])
  | e :: l' =>
      match ustep x e with
      | Some (x1, o1) => match urun x1 l' with Some (x2, o2) => Some (x2, o1 ++ o2) | None => None end
      | None => None
      end
  end.
End BatchDuration.
Arguments ust Mg : clear implicits.
