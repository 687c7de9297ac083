(** Specification vocabulary for the command 'get'. *)
From Verif Require Import Base M_Net M_Sha1 M_Tracker M_Torrent M_Save M_Magnet M_Peer M_Session M_Mse M_GetInfo M_Write M_Config M_Nursery M_Resolve S_Resolve M_Get
  S_Bencode S_Download S_GetInfo S_Write2.

(** What is written to standard output *)
Definition printed (ops : list op) : bytes := concat (map (fun o => match o with OStdout c => c | _ => [] end) ops).

(** The contacts there are to try: from the DHT if the magnet has no trackers *)
Definition to_try (m : magnet) (w : world) (c : contact) : Prop :=
  known (mg_trackers m) (option_map fst (w_dht w)) (w_announce w) c.

(** The contact serves [meta], which has the hash [ih], in time, over connections of the
    kinds the settings call for, and every write this takes succeeds (S_Write2). *)
Definition serves_meta (cfg : config) (pid ih : bytes) (w : world) (c : contact) (meta : bytes) : Prop :=
  bencoded_dict meta /\ sha1 meta = ih /\ blen meta <= 20971520 /\
  exists now enc plain l, w_meet w c = (now, enc, plain) /\
    obtainable_w ih pid (sa_ip (contact_addr c)) meta None (c_encrypt cfg) (pr_crypto (snd c)) (ns (c_handshake_timeout cfg)) (c_dh_timeout cfg) now enc plain l.
Definition serves (cfg : config) (pid ih : bytes) (w : world) (c : contact) : Prop := exists meta, serves_meta cfg pid ih w c meta.
(** A TCP connection does not fail with an error of the encryption handshake. *)
Definition tcp_errors (w : world) (c : contact) : Prop :=
  forall now enc plain t0, w_meet w c = (now, enc, plain) -> d_tcp (fst enc) <> Some (t0, Err ECryptoHandshake).

(** The key-exchange deadline is within the range of the clock. *)
Definition clock_fits (cfg : config) (w : world) (c : contact) : Prop :=
  forall now enc plain t0, w_meet w c = (now, enc, plain) -> d_tcp (fst enc) = Some (t0, Ok tt) -> (now + t0) / 1000000000 + c_dh_timeout cfg < 2 ^ 63.
