(** Model of src/magnet.rs:32-103 Magnet::get_torrent_file: the main task, the pool of
    tracker jobs, the task passing peers on (peer_job) and the pool of peer jobs, as one
    transition system over the pools of M_Nursery. *)
From Verif Require Import Base M_Nursery.

(** What the workers of a pool do; a job's result is given by [f]. *)
Inductive wev := KTake (w : nat) | KCheck (w : nat) | KStart (w : nat) | KFinish (w : nat) | KSend (w : nat) | KQuit (w : nat) | KAbort (w : nat).
Definition wstep {J R} (f : job J -> outcome R) (s : nst J R) (e : wev) : option (nst J R * list (obs J R)) :=
  match e with
  | KTake w => nstep s (Take w)
  | KCheck w => nstep s (Check w)
  | KStart w => nstep s (Start w)
  | KFinish w => match nth_error (n_workers s) w with Some (WRunning j) => nstep s (Finish w (f j)) | _ => None end
  | KSend w => nstep s (Send w)
  | KQuit w => nstep s (Quit w)
  | KAbort w => nstep s (Abort w)
  end.

Section Resolve.
(** [T]: trackers, [P]: peers, [A]: addresses, [M]: metadata *)
Context {T P A M : Type} (addr_eqb : A -> A -> bool) (addr : P -> A).
(** What querying the tracker submitted as number [k] yields (an error counts as no
    peers, magnet.rs:54-61), and fetching the metadata from a peer; Panic: the job panics. *)
Context (announce : nat -> outcome (list P)) (fetch : P -> outcome (option M)).

(** Where the main task is.  [MSpawn]: submitting tracker jobs (magnet.rs:47-64); [MLoop]: in
    receiver.next().await (:86); [MGot]: got metadata, before peer_job.abort() (:90);
    [MDrop], [MClose]: returning, before the two steps of dropping [receiver] (:91).
    MReturned None: NothingFromPeers (:102). *)
Inductive main_st := MSpawn (rest : list T) | MLoop | MGot (i : M) | MDrop (i : M) | MClose (i : M) | MReturned (r : option M) | MPanicked.
(** Where peer_job is (:72-85).  [JNone]: not spawned yet; [JNext]: in peer_stream.next(); [JHave p]: about to
    submit [p]; [JDone]: ended, [JAborted], [JPanicked]. *)
Inductive job_st := JNone | JNext | JHave (p : P) | JDone | JAborted | JPanicked.
(** [r_cur], [r_seen]: flatten's current iterator and unique_by's set; [r_dht]: the peers are
    those in [r_cur] (:42) rather than from the tracker pool (:69); [r_abort]: abort was
    requested *)
Record rst := mkR { r_main : main_st; r_job : job_st; r_trackers : nst T (list P); r_peers : nst P (option M);
  r_cur : list P; r_seen : list A; r_dht : bool; r_abort : bool }.

(** :40-43,46,71 [found]: the peers found on the DHT; [nt], [np]: the pool sizes *)
Definition r_init_dht (np : nat) (found : list P) : rst := mkR MLoop JNext (new 1) (new np) found [] true false.
Definition r_init (nt np : nat) (trackers : list T) : rst := mkR (MSpawn trackers) JNone (new nt) (new np) [] [] false false.

(** :40-70 the DHT is asked exactly if there are no trackers; None: that failed *)
Definition r_start (nt np : nat) (trackers : list T) (dht : option (list P)) : option rst :=
  match trackers with
  | [] => match dht with Some found => Some (r_init_dht np found) | None => None end
  | _ => Some (r_init nt np trackers)
  end.

(** Main: the main task's next action; Job: peer_job's; JobAbort: an abort requested takes
    effect, which it does at an await; Tr, Pe: a worker of the tracker/peer pool. *)
Inductive rev := Main | Job | JobAbort | Tr (e : wev) | Pe (e : wev).
Definition with_main (s : rst) (m : main_st) (pn : nst P (option M)) : rst :=
  mkR m (r_job s) (r_trackers s) pn (r_cur s) (r_seen s) (r_dht s) (r_abort s).
(** peer_job ends: its handle of the peer pool is dropped (and so is the stream of tracker
    results; unless it had ended, DropStream below) *)
Definition job_ends (s : rst) : option (nst P (option M)) :=
  match nstep (r_peers s) DropHandle with Some (pn, _) => Some pn | None => None end.
(** The result: the new state and what is observed of the two pools. *)
Definition rstep (s : rst) (e : rev) : option (rst * list (obs T (list P)) * list (obs P (option M))) :=
  match e with
  | Tr w => match wstep (fun j => announce (fst j)) (r_trackers s) w with
            | Some (tn, o) => Some (mkR (r_main s) (r_job s) tn (r_peers s) (r_cur s) (r_seen s) (r_dht s) (r_abort s), o, [])
            | None => None
            end
  | Pe w => match wstep (fun j => fetch (snd j)) (r_peers s) w with
            | Some (pn, o) => Some (with_main s (r_main s) pn, [], o)
            | None => None
            end
  | Main =>
      match r_main s with
      | MSpawn (t :: rest) =>  (* .spawn(..).expect(..) *)
          match nstep (r_trackers s) (Spawn t) with
          | Some (tn, o) =>
              let m := match o with [OAccept _] => MSpawn rest | _ => MPanicked end in
              Some (mkR m (r_job s) tn (r_peers s) (r_cur s) (r_seen s) (r_dht s) (r_abort s), o, [])
          | None => None
          end
      | MSpawn [] =>  (* drop(tracker_nursery); tokio::spawn *)
          match nstep (r_trackers s) DropHandle with
          | Some (tn, o) => Some (mkR MLoop JNext tn (r_peers s) (r_cur s) (r_seen s) (r_dht s) (r_abort s), o, [])
          | None => None
          end
      | MLoop =>
          match nstep (r_peers s) Recv with
          | Some (pn, o) =>
              let m := match o with
                       | [ODeliver _ (Ret (Some i))] => MGot i
                       | [ODeliver _ (Ret None)] => MLoop
                       | _ => MPanicked
                       end in
              Some (with_main s m pn, [], o)
          | None =>
              match nstep (r_peers s) End with
              | Some (pn, o) => Some (with_main s (MReturned None) pn, [], o)
              | None => None
              end
          end
      | MGot i => Some (mkR (MDrop i) (r_job s) (r_trackers s) (r_peers s) (r_cur s) (r_seen s) (r_dht s) true, [], [])
      | MDrop i => match nstep (r_peers s) DropStream with Some (pn, o) => Some (with_main s (MClose i) pn, [], o) | None => None end
      | MClose i => match nstep (r_peers s) Close with Some (pn, o) => Some (with_main s (MReturned (Some i)) pn, [], o) | None => None end
      | MReturned _ | MPanicked => None
      end
  | Job =>
      match r_job s with
      | JNext =>
          match r_cur s with
          | p :: cur =>
              if negb (r_dht s) && existsb (addr_eqb (addr p)) (r_seen s)
              then Some (mkR (r_main s) JNext (r_trackers s) (r_peers s) cur (r_seen s) (r_dht s) (r_abort s), [], [])
              else Some (mkR (r_main s) (JHave p) (r_trackers s) (r_peers s) cur (addr p :: r_seen s) (r_dht s) (r_abort s), [], [])
          | [] =>
              if r_dht s
              then match job_ends s with
                   | Some pn => Some (mkR (r_main s) JDone (r_trackers s) pn [] (r_seen s) (r_dht s) (r_abort s), [], [])
                   | None => None
                   end
              else match nstep (r_trackers s) Recv with
                   | Some (tn, o) =>
                       match o with
                       | [ODeliver _ (Ret ps)] => Some (mkR (r_main s) JNext tn (r_peers s) ps (r_seen s) (r_dht s) (r_abort s), o, [])
                       | _ => match job_ends s, nstep tn DropStream with
                              | Some pn, Some (tn', o') => Some (mkR (r_main s) JPanicked tn' pn [] (r_seen s) (r_dht s) (r_abort s), o ++ o', [])
                              | _, _ => None
                              end
                       end
                   | None =>
                       match nstep (r_trackers s) End, job_ends s with
                       | Some (tn, o), Some pn => Some (mkR (r_main s) JDone tn pn [] (r_seen s) (r_dht s) (r_abort s), o, [])
                       | _, _ => None
                       end
                   end
          end
      | JHave p =>  (* .spawn(..).expect(..) *)
          match nstep (r_peers s) (Spawn p) with
          | Some (pn, o) =>
              match o with
              | [OAccept _] => Some (mkR (r_main s) JNext (r_trackers s) pn (r_cur s) (r_seen s) (r_dht s) (r_abort s), [], o)
              | _ => match nstep pn DropHandle, nstep (r_trackers s) DropStream with
                     | Some (pn', _), Some (tn, o') => Some (mkR (r_main s) JPanicked tn pn' [] (r_seen s) (r_dht s) (r_abort s), o', o)
                     | _, _ => None
                     end
              end
          | None => None
          end
      | _ => None
      end
  | JobAbort =>
      match r_abort s, r_job s with
      | true, JNext =>
          match job_ends s, nstep (r_trackers s) DropStream with
          | Some pn, Some (tn, o) => Some (mkR (r_main s) JAborted tn pn [] (r_seen s) (r_dht s) (r_abort s), o, [])
          | _, _ => None
          end
      | _, _ => None
      end
  end.
Fixpoint rrun (s : rst) (l : list rev) : option (rst * list (obs T (list P)) * list (obs P (option M))) :=
  match l with
  | [] => Some (s, [], [])
  | e :: l' =>
      match rstep s e with
      | Some (s1, t1, p1) => match rrun s1 l' with Some (s2, t2, p2) => Some (s2, t1 ++ t2, p1 ++ p2) | None => None end
      | None => None
      end
  end.
End Resolve.
Arguments main_st T M : clear implicits.
Arguments job_st P : clear implicits.
Arguments rst T P A M : clear implicits.
