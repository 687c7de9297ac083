(** The DHT lookup of a magnet link without trackers: src/magnet.rs:40-43, between M_App (the
    process's DHT node) and M_Get. *)
From Verif Require Import Base M_Net M_Tracker M_Dht M_App M_Get.

(** src/magnet.rs:41-43: the peers and nodes get_torrent_file goes on with, [r] being what
    get_peers_from_dht returned; None: it returns an error.  (The numbers tell contacts apart,
    see M_Get.) *)
Definition dht_found (r : dres) : option (list contact * list sockaddr) :=
  match r with
  | Found f => Some (combine (seq 0 (length (fp_peers f))) (fp_peers f), fp_nodes f)
  | CreateFailed | HandleFailed | Stopped => None
  end.
