(** Model of the log of a DHT node's lookups: src/dht/actor.rs:443-482, 665-670 and 811-824. *)
From Verif Require Import Base M_Net M_Tracker M_DhtMsg M_Dht M_Log.

(** actor.rs:665-670 addr2display: the id, if known, and the address shown *)
Definition addr2display (s : session) (a : sockaddr) : option bytes * sockaddr :=
  match addr_get (sp_addr (ls_nodes s)) a with
  | Some n => (Some (nd_id n), node_address n)
  | None => (None, a)
  end.
(** actor.rs:445-477: what handle_message of the session writes to the log for the message [msg] it was
    waiting for; [lib]: the texts of the library's error for a message it cannot decode *)
Definition reply_record (lib : bytes -> foreign) (s : session) (from : sockaddr) (msg : bytes) : record :=
  let (id, a) := addr2display s from in
  match decode_response msg with
  | Ok rsp => LNodeReply id a (length (gr_values rsp)) (length (gr_nodes rsp ++ gr_nodes6 rsp)) (sp_hash (ls_nodes s))
  | Err (RRpc e) => LNodeError id a e
  | Err e => LNodeInvalid id a (lib msg) e
  end.
(** The records of replies that an event of M_Dht gives rise to *)
Definition step_log (lib : bytes -> foreign) (a : actor) (e : aev) : list record :=
  match e with
  | ADatagram from msg (Some sid) _ =>
      match ses_get (a_sessions a) sid with Some s => [reply_record lib s from msg] | None => [] end
  | _ => []
  end.
Fixpoint dht_log (lib : bytes -> foreign) (a : actor) (l : list aev) : list record :=
  match l with
  | [] => []
  | e :: l' => match astep a e with Some (a1, _) => step_log lib a e ++ dht_log lib a1 l' | None => [] end
  end.
