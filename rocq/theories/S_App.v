(** Specification vocabulary: the calls made of the shared DHT node. *)
From Verif Require Import Base M_Net M_DhtMsg M_Dht S_Dht M_App.

(** What node [n] did, in order. *)
Definition of_node (n : nat) (h : list pobs) : list aobs :=
  flat_map (fun o => match o with ODht m x => if Nat.eqb m n then [x] else [] | _ => [] end) h.
(** The nodes created. *)
Definition created (h : list pobs) : list nat := flat_map (fun o => match o with ONode n => [n] | _ => [] end) h.
(** What call [t] returned. *)
Definition results (h : list pobs) (t : nat) : list dres :=
  flat_map (fun o => match o with OReturn i r => if Nat.eqb i t then [r] else [] | _ => [] end) h.
(** Info hashes are 20 bytes. *)
Definition wf_pev (e : pev) : Prop := match e with PCall (CLookup hash) => length hash = 20%nat | _ => True end.
(** Everything but new calls, calls dropped and datagrams: the mutex and the channel are
    granted, sockets bound, host names resolved, messages taken, and timers fire. *)
Definition inner (e : pev) : Prop :=
  match e with
  | PLock _ | PCreate _ _ | PSend _ | PResolve _ _ | PTake _ _ | PNet _ (ATimeout _ _) => True
  | _ => False
  end.
(** Call [t] was made, was not dropped and has not returned. *)
Definition pending (l : list pev) (h : list pobs) (t : nat) : Prop :=
  (exists c, In (OBegin t c) h) /\ results h t = [] /\ ~ In (PCancel t) l.
Local Open Scope nat_scope.
Definition sum {A} (w : A -> nat) (l : list A) : nat := fold_right (fun x n => w x + n) 0 l.
(** The messages in the channels and the running timers. *)
Definition queued (s : appst) : nat := sum (fun d => length (dn_chan d)) (p_nodes s).
Definition timers (s : appst) : nat := sum (fun d => match dn_state d with Running a => length (a_timers a) | _ => 0 end) (p_nodes s).
