(** Model of the log of a DHT node's lookups, in full but for failures to send: src/dht/actor.rs:443-560,
    over M_Dht and M_DhtLog. *)
From Verif Require Import Base M_Net M_Peer M_Tracker M_DhtMsg M_Dht M_Types M_Log M_DhtLog.

(** The records of actor.rs:517-520, 453-476 (M_Log), 490-491 and 550-554 *)
Inductive dht_record :=
| DSending (id : option bytes) (a : sockaddr) (hash : bytes)
| DReplied (x : record)
| DTimedOut (id : option bytes) (a : sockaddr)
| DFound (n : nat) (hash : bytes).
(** Their texts; [printable]: as in M_Log *)
Definition dht_text (printable : N -> bool) (x : dht_record) : bytes :=
  match x with
  | DSending id a h => bs "Sending " ++ dq ++ bs "get_peers" ++ dq ++ bs " query to " ++ show_node id a ++ bs " for info hash " ++ show_info_hash h
  | DReplied r => record_text printable r
  | DTimedOut id a => bs "Query to " ++ show_node id a ++ bs " timed out"
  | DFound n h => bs "Found " ++ dec (N.of_nat n) ++ bs " peers for " ++ show_info_hash h ++ bs " on the DHT"
  end.

(** actor.rs:514-520 (get_outgoing): all the records precede the first datagram *)
Definition outgoing_log (s : session) : list dht_record :=
  map (fun x => let (id, a) := addr2display s x in DSending id a (sp_hash (ls_nodes s))) (ls_to_query s).
(** actor.rs:541-560 (get_result), called by postprocess_session (:265-274) *)
Definition result_log (a : actor) (sid : nat) : list dht_record :=
  match ses_get (a_sessions a) sid with
  | Some s => match get_result s with Some r => [DFound (length (fp_peers r)) (sp_hash (ls_nodes s))] | None => [] end
  | None => []
  end.
(** As M_Dht.send_outgoing *)
Definition send_log (a : actor) (sid : nat) (s : session) (oks : list bool) : list dht_record :=
  let '(s1, t, qs) := get_outgoing s (a_txn a) in
  let a1 := mkA (a_id a) (a_v6 a) t (ses_set (a_sessions a) sid s1) (a_senders a) (a_next a) (a_timers a) (a_boot a) (a_running a) in
  let (a2, _) := send_all a1 sid qs oks in outgoing_log s ++ result_log a2 sid.
(** As M_Dht.astep: what a possible turn of the loop logs *)
Definition turn_log (lib : bytes -> foreign) (a : actor) (e : aev) : list dht_record :=
  match e with
  | ALookup hash oks =>
      let sid := a_next a in
      let s := session_new hash (a_id a) (a_v6 a) (a_boot a) in
      send_log (mkA (a_id a) (a_v6 a) (a_txn a) (a_sessions a ++ [(sid, s)]) (a_senders a ++ [sid]) (S sid) (a_timers a) (a_boot a) (a_running a)) sid s oks
  | ADatagram from msg (Some sid) oks =>
      match prescan msg, ses_get (a_sessions a) sid with
      | Some (txn, _), Some s =>
          match session_message s from txn msg with
          | Some (s1, _) => DReplied (reply_record lib s from msg) :: send_log (with_sessions a (ses_set (a_sessions a) sid s1)) sid s1 oks
          | None => []
          end
      | _, _ => []
      end
  | ATimeout k (Some sid) =>
      match ses_get (a_sessions a) sid with
      | Some s =>
          match session_timeout s k with
          | Some s1 => (let (id, r) := addr2display s (fst k) in DTimedOut id r) :: result_log (with_sessions a (ses_set (a_sessions a) sid s1)) sid
          | None => []
          end
      | None => []
      end
  | _ => []
  end.
Fixpoint full_log (lib : bytes -> foreign) (a : actor) (l : list aev) : list dht_record :=
  match l with
  | [] => []
  | e :: l' => match astep a e with Some (a1, _) => turn_log lib a e ++ full_log lib a1 l' | None => [] end
  end.
