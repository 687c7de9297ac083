(** Specification: the log of a query to a tracker, shown as [url], about [su]. *)
From Verif Require Import Base M_Net M_Peer M_Tracker M_Log M_TrackerLog.

(** The tracker has answered with [r]: first, it is asked; then, its warning, if there is one; the number of
    peers; the peers. *)
Definition answer_logged (url : bytes) (su : subject) (r : announce_response) (g : list tracker_note) : Prop :=
  exists w, g = [NRequesting url su] ++ w ++ [NRecord (LCount url su (map pr_addr (ar_peers r))); NRecord (LPeers url su (map pr_addr (ar_peers r)))] /\
    (length w <= 1)%nat /\ forall x, In x w <-> exists msg, ar_warning r = Some msg /\ x = NRecord (LWarning url su msg).
