(** Specification vocabulary for the process as a whole. *)
From Verif Require Import Base M_Net M_Tracker M_Session M_Announce M_Http M_Mse M_Config M_App M_Async M_Process.

(** The queries to trackers the command begins, in order. *)
Definition queries_of (l : list zev) : list (bytes * option tracker_crypto * tracker * net) :=
  flat_map (fun e => match e with ZQuery ih override tr n => [(ih, override, tr, n)] | _ => [] end) l.
(** Info hashes are 20 bytes. *)
Definition wf_zev (e : zev) : Prop := match e with ZDht (PCall (CLookup hash)) => length hash = 20%nat | _ => True end.

(** What the process does by itself, without waiting for anything outside: its tasks, the
    mutex, the channel to the DHT node, timers that have expired. *)
Definition at_once (e : zev) : bool :=
  match e with
  | ZClosed | ZStop _ | ZGiveUp _ | ZTimeout | ZJoin | ZDht (PLock _) | ZDht (PSend _) | ZDht (PTake _ _) => true
  | _ => false
  end.
(** Executions in which no time passes while there is something of this kind to do. *)
Section Prompt.
Context (cfg : config) (pid : bytes) (key port : N).
Inductive prompt : proc -> list zev -> Prop :=
| prompt_nil s : prompt s []
| prompt_cons s e s' o l : zstep cfg pid key port s e = Some (s', o) ->
    (forall n m s1 o1 x, e = ZTick n -> m < n -> zstep cfg pid key port s (ZTick m) = Some (s1, o1) -> at_once x = true ->
       zstep cfg pid key port s1 x = None) ->
    prompt s' l -> prompt s (e :: l).
End Prompt.

(** Announcements that differ in the event only *)
Definition same_peer (a z : announcement) : Prop :=
  an_hash a = an_hash z /\ an_pid a = an_pid z /\ an_key a = an_key z /\ an_port a = an_port z /\ an_crypto a = an_crypto z.
(** The end of query [q] is being announced: begun, neither over nor given up *)
Definition under_way (h : list (N * zobs)) (q : nat) : Prop :=
  (exists t z, In (t, OStopping q z) h) /\ forall t, ~ In (t, OStopped q) h /\ ~ In (t, OGivenUp q) h.
