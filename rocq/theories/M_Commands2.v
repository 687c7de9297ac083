(** query-tracker and query-dht over the tracker (M_Announce) and the DHT node (M_App) of the
    model: src/main.rs:283-341. *)
From Verif Require Import Base M_Net M_Tracker M_Http M_Announce M_Dht M_App M_Config M_Commands.

(** src/main.rs:283-317, src/tracker/mod.rs:60-111, 203-211 *)
Definition query_tracker_cmd (cfg : config) (pid : bytes) (key port : N) (json require_crypto support_crypto no_crypto : bool) (ih : bytes)
    (tr : tracker) (n : net) : list announcement * option announcement * bytes * bool :=
  query_tracker cfg pid key port json require_crypto support_crypto no_crypto ih (tracker_conn tr n) (tracker_ann tr n).
(** src/main.rs:318-341.  [r]: what App::get_peers_from_dht returned *)
Definition query_dht_cmd (json : bool) (r : dres) : bytes * bool :=
  query_dht json match r with Found f => Ok (fp_peers f, fp_nodes f) | _ => Err r end.
