(** Standard output may take only so much: the printing of query-tracker and query-dht once
    more (src/main.rs:283-341), with println!'s panic. *)
From Verif Require Import Base M_Net M_Tracker M_Json M_SockText M_Session M_Mse M_Http M_Announce M_Dht M_Config M_App M_Commands.

(** src/main.rs:305, 307, 330, 332: what println! is given *)
Definition peer_line (json : bool) (p : peer) : bytes := (if json then display_json p else show_sockaddr (pr_addr p)) ++ [x0a].
(** src/main.rs:303-309, 328-334: println! of each peer.  [room]: how many bytes standard output
    takes before every further write to it fails ([None]: any number).  println! panics if writing
    fails.  (Standard output passes each line on when it is complete, as much of it as is taken.
    Not modelled: that, if writing is possible again when the process ends, the rest of the line
    may still be written.  A standard output that is closed counts for Rust as one that takes
    everything.) *)
Fixpoint print_lines (room : option N) (lines : list bytes) : bytes * outcome unit :=
  match lines with
  | [] => ([], Ret tt)
  | b :: rest =>
      match room with
      | None => let (o, r) := print_lines None rest in (b ++ o, r)
      | Some n =>
          if n <? blen b then (takeN n b, Panic)
          else let (o, r) := print_lines (Some (n - blen b)) rest in (b ++ o, r)
      end
  end.
Definition print_peers (room : option N) (json : bool) (peers : list peer) : bytes * outcome bool :=
  let (o, r) := print_lines room (map (peer_line json) peers) in (o, match r with Ret _ => Ret true | Panic => Panic end).

(** src/main.rs:283-317: as M_Commands.query_tracker and M_Commands2.query_tracker_cmd; instead
    of the exit status, whether it panics *)
Definition query_tracker_run (room : option N) (cfg : config) (pid : bytes) (key port : N) (json require_crypto support_crypto no_crypto : bool) (ih : bytes)
    (tr : tracker) (n : net) : list announcement * option announcement * bytes * outcome bool :=
  let s := mkTS ih (tracker_flags require_crypto support_crypto no_crypto) (c_encrypt cfg) pid key port (c_numwant cfg) in
  match getter_run (ns (c_announce_timeout cfg)) s (tracker_conn tr n) (tracker_ann tr n) with
  | (l, stop, _, Ok peers) => let (o, r) := print_peers room json peers in (l, stop, o, r)
  | (l, stop, _, Err _) => (l, stop, [], Ret false)
  end.
(** src/main.rs:318-341: as M_Commands2.query_dht_cmd *)
Definition query_dht_run (room : option N) (json : bool) (r : dres) : bytes * outcome bool :=
  match r with
  | Found f => match fp_peers f with [] => ([], Ret false) | peers => print_peers room json peers end
  | _ => ([], Ret false)
  end.
