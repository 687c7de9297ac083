(** The command 'batch', src/main.rs:234-282: M_Batch (the main task and the pool of jobs),
    each job being the command 'get' of M_Get (src/magnet.rs:105-113) for one magnet link.
    The jobs' requests to the operating system are interleaved. *)
From Verif Require Import Base M_Types M_Template M_Save M_Magnet M_Config M_Tracker M_Nursery M_Resolve M_Batch M_Http M_Get.
Local Open Scope nat_scope.

(** What one job meets with: M_Get's world, the order in which its tasks run, how the write
    calls divide the file, and which file operation fails. *)
Record trip := mkTrip { t_world : world; t_sched : list rev; t_cut : bytes -> list bytes; t_fail : option nat }.

Section BatchCmd.
Context (show_url : url -> bytes) (cfg : config) (pid : bytes) (template : list elem).
Context (magnets : list magnet) (trips : nat -> trip).

(** src/main.rs:251-263: what the job for the [k]-th magnet link does: its requests and
    whether it succeeds; None: it does not end (see get_cmd) *)
Definition bjob (k : nat) : option (outcome (list op * bool)) :=
  match nth_error magnets k with
  | Some m => let t := trips k in get_cmd show_url cfg pid m (t_world t) (t_sched t) template (t_cut t) (t_fail t)
  | None => None
  end.
(** Simplified: a job that panics makes no requests before it does (C93_no_panic: none panics). *)
Definition bjob_ops (k : nat) : list op := match bjob k with Some (Ret (ops, _)) => ops | _ => [] end.
Definition bjob_ends (k : nat) : bool := match bjob k with Some _ => true | None => false end.
(** The result of a job that ends *)
Definition bjob_result (k : nat) : outcome bool :=
  match bjob k with Some (Ret (_, b)) => Ret b | Some Panic => Panic | None => Ret false end.

(** [c_log]: the requests made so far, each with the number of the job that made it *)
Record cst := mkC { c_batch : bst magnet; c_log : list (nat * op) }.
(** An event: one of M_Batch, or the next request of the job number [k]. *)
Inductive cev := CTask (e : bev) | CRequest (k : nat).
Definition requests (k : nat) (log : list (nat * op)) : list op := map snd (filter (fun r => Nat.eqb (fst r) k) log).
Definition is_running (k : nat) (s : nst magnet bool) : bool :=
  existsb (fun x => match x with WRunning j => Nat.eqb (fst j) k | _ => false end) (n_workers s).
(** A job ends after it has made its last request. *)
Definition may_finish (s : cst) (e : bev) : bool :=
  match e with
  | BWork (KFinish x) =>
      match nth_error (n_workers (b_pool (c_batch s))) x with
      | Some (WRunning j) => bjob_ends (fst j) && Nat.eqb (length (requests (fst j) (c_log s))) (length (bjob_ops (fst j)))
      | _ => false
      end
  | _ => true
  end.
Definition cstep (s : cst) (e : cev) : option (cst * list (obs magnet bool)) :=
  match e with
  | CTask e =>
      if may_finish s e
      then match bstep bjob_result (c_batch s) e with Some (b, o) => Some (mkC b (c_log s), o) | None => None end
      else None
  | CRequest k =>
      if is_running k (b_pool (c_batch s))
      then match nth_error (bjob_ops k) (length (requests k (c_log s))) with
           | Some o => Some (mkC (c_batch s) (c_log s ++ [(k, o)]), [])
           | None => None
           end
      else None
  end.
Fixpoint crun (s : cst) (l : list cev) : option (cst * list (obs magnet bool)) :=
  match l with
  | [] => Some (s, [])
  | e :: l' =>
      match cstep s e with
      | Some (s1, o1) => match crun s1 l' with Some (s2, o2) => Some (s2, o1 ++ o2) | None => None end
      | None => None
      end
  end.
End BatchCmd.

(** src/main.rs:234-250: the start, [content] being what the file of magnet links holds *)
Definition batch_magnets (parse_url : bytes -> option url) (content : bytes) : list magnet :=
  match parse_magnets_file parse_url content with Ok l => l | Err _ => [] end.
Definition c_start (parse_url : bytes -> option url) (cfg : config) (content : bytes) : cst :=
  mkC (b_start (N.to_nat (c_batch_jobs cfg)) (parse_magnets_file parse_url content)) [].
(** An execution of the command *)
Definition batch_cmd (show_url : url -> bytes) (parse_url : bytes -> option url) (cfg : config) (pid : bytes) (template : list elem)
    (content : bytes) (trips : nat -> trip) (l : list cev) : option (cst * list (obs magnet bool)) :=
  crun show_url cfg pid template (batch_magnets parse_url content) trips (c_start parse_url cfg content) l.
