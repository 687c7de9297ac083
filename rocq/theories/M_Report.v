(** What the commands log about failures: src/magnet.rs:32-103 (over M_Resolve and M_Get),
    src/main.rs:222-282 (over M_Batch).  Which records are written and in what order; their
    texts are in M_Log. *)
From Verif Require Import Base M_Net M_Template M_Save M_Tracker M_Torrent M_Types M_Magnet M_Peer M_Session M_Config M_Nursery S_Nursery M_Resolve M_Batch M_Http M_Get.

Section Report.
Context {T P A M E X : Type} (addr_eqb : A -> A -> bool) (addr : P -> A).
Context (announce : nat -> outcome (list P)) (fetch : P -> outcome (option M)).
(** The errors with which querying the tracker submitted as number [k] and fetching from a
    peer end, if they do (M_Resolve only tells that they do) *)
Context (tracker_error : nat -> option E) (peer_error : P -> option X).

(** magnet.rs:56-59 and :94-99 *)
Inductive report := TrackerFailed (k : nat) (t : T) (e : E) | PeerFailed (p : P) (e : X).
(** What an action that is possible in [s] logs: a tracker's job before it ends (:52-61); the
    main task on receiving a peer's error (:86-100) *)
Definition writes (s : rst T P A M) (e : rev) : list report :=
  match e with
  | Tr (KFinish w) =>
      match nth_error (n_workers (r_trackers s)) w with
      | Some (WRunning (k, t)) => match tracker_error k with Some e => [TrackerFailed k t e] | None => [] end
      | _ => []
      end
  | Main =>
      match r_main s, n_out (r_peers s) with
      | MLoop, ((_, p), Ret None) :: _ => match peer_error p with Some e => [PeerFailed p e] | None => [] end
      | _, _ => []
      end
  | _ => []
  end.
(** An execution with what it logs *)
Fixpoint lrun (s : rst T P A M) (l : list rev) : option (rst T P A M * list (obs T (list P)) * list (obs P (option M)) * list report) :=
  match l with
  | [] => Some (s, [], [], [])
  | e :: l' =>
      match rstep addr_eqb addr announce fetch s e with
      | Some (s1, t1, p1) =>
          match lrun s1 l' with
          | Some (s2, t2, p2, g2) => Some (s2, t1 ++ t2, p1 ++ p2, writes s e ++ g2)
          | None => None
          end
      | None => None
      end
  end.
End Report.
Arguments report T P E X : clear implicits.

Section Get.
Context {E : Type} (show_url : url -> bytes) (cfg : config) (pid : bytes).
(** The error of a contact's job, if it ends with one *)
Definition contact_error (ih : bytes) (w : world) (c : contact) : option peer_error :=
  match contact_info cfg pid ih w c with Ret (_, SDone (Err e)) => Some e | _ => None end.
(** The two errors of magnet.rs:213-219 GetInfoError, and that of saving, :221-227 *)
Inductive why := NothingFromPeers | DhtFailed | NotSaved.
(** magnet.rs:36; the above; main.rs:228 *)
Inductive gnote := Fetching | Note (r : report tracker contact E peer_error) | Failed (y : why).
(** What the execution [l] of 'get' (M_Get.get_cmd) logs; [tracker_error]: as above *)
Definition get_log (tracker_error : nat -> option E) (m : magnet) (w : world) (l : list rev) (template : list elem) (cut : bytes -> list bytes) (fail : option nat)
  : option (outcome (list gnote)) :=
  match get_start cfg m w with
  | None => Some (Ret [Fetching; Failed DhtFailed])
  | Some s0 =>
      match lrun sa_eqb contact_addr (w_announce w) (contact_fetch cfg pid (mg_hash m) w) tracker_error (contact_error (mg_hash m) w) s0 l with
      | None => None
      | Some (s, _, hP, g) =>
          if existsb (fun d => hangs cfg pid (mg_hash m) w (snd (fst d))) (finished hP) then None
          else let notes := Fetching :: map Note g in
               match r_main s with
               | MReturned (Some info) =>
                   match save cut fail (tf_new info (map (url_string show_url) (mg_trackers m)) (file_nodes m w) (unix_now (w_clock w))) template with
                   | Panic => Some Panic
                   | Ret (_, ok) => Some (Ret (notes ++ if ok then [] else [Failed NotSaved]))
                   end
               | MReturned None => Some (Ret (notes ++ [Failed NothingFromPeers]))
               | MPanicked => Some Panic
               | _ => None
               end
      end
  end.
End Get.
Arguments gnote E : clear implicits.

Section Batch.
Context {Mg E : Type} (download : nat -> outcome bool).
(** main.rs:238, :243, :255-259, :274-276 *)
Inductive bnote := Unreadable (e : E) | NoLinks | LinkFailed (k : nat) (m : Mg) | Summary (success total : nat).
Definition bfirst (parsed : res E (list Mg)) : list bnote :=
  match parsed with Err e => [Unreadable e] | Ok [] => [NoLinks] | Ok _ => [] end.
Definition bwrites (s : bst Mg) (e : bev) : list bnote :=
  match e with
  | BWork (KFinish w) =>
      match nth_error (n_workers (b_pool s)) w with
      | Some (WRunning (k, m)) => match download k with Ret false => [LinkFailed k m] | _ => [] end
      | _ => []
      end
  | BMain =>
      match b_main s, n_out (b_pool s) with
      | BRecv success total, [] => [Summary success total]  (* the stream has ended *)
      | _, _ => []
      end
  | _ => []
  end.
Fixpoint blrun (s : bst Mg) (l : list bev) : option (bst Mg * list (obs Mg bool) * list bnote) :=
  match l with
  | [] => Some (s, [], [])
  | e :: l' =>
      match bstep download s e with
      | Some (s1, o1) => match blrun s1 l' with Some (s2, o2, g2) => Some (s2, o1 ++ o2, bwrites s e ++ g2) | None => None end
      | None => None
      end
  end.
End Batch.
Arguments bnote Mg E : clear implicits.
