(** Model of the log of a query to a tracker: src/tracker/mod.rs:60-83 and 203-219, over M_Tracker and
    M_Announce.  Left out: the trace records of the UDP session (src/tracker/udp.rs) and what is logged in the
    course of the "stopped" announcement (mod.rs:84-95). *)
From Verif Require Import Base M_Net M_Session M_Peer M_Tracker M_Udp M_Http M_Announce M_Mse M_Config M_Types M_Get M_Log.

(** mod.rs:61-65, those of M_Log *)
Inductive tracker_note := NRequesting (url : bytes) (s : subject) | NRecord (x : record).
(** [printable]: as in M_Log *)
Definition note_text (printable : N -> bool) (x : tracker_note) : bytes :=
  match x with
  | NRequesting u s => bs "Requesting peers for " ++ subj printable s ++ bs " from " ++ show_tracker u
  | NRecord r => record_text printable r
  end.

Section Log.
(** The tracker as it is shown, and the torrent *)
Context (url : bytes) (su : subject).
(** mod.rs:211-218: of an announcement answered with [r] *)
Definition announce_log (r : announce_response) : list tracker_note :=
  match ar_warning r with Some msg => [NRecord (LWarning url su msg)] | None => [] end.
(** mod.rs:60-83: as M_Tracker.getter_run *)
Definition getter_log {E} (limit : N) (s : tracker_session) (conn : timed (res E unit)) (ann : announcement -> timed (res E announce_response)) : list tracker_note :=
  NRequesting url su ::
  match timeout limit conn with
  | (t, Some (Ok _)) =>
      match timeout (limit - t) (ann (start_announcement s)) with
      | (_, Some (Ok r)) => announce_log r ++ [NRecord (LCount url su (map pr_addr (ar_peers r))); NRecord (LPeers url su (map pr_addr (ar_peers r)))]
      | _ => []
      end
  | _ => []
  end.
End Log.
(** As M_Announce.tracker_query; the tracker is shown as its URL *)
Definition query_log (show_url : url -> bytes) (su : subject) (limit : N) (s : tracker_session) (tr : tracker) (n : net) : list tracker_note :=
  getter_log (url_string show_url tr) su limit s (tracker_conn tr n) (tracker_ann tr n).
