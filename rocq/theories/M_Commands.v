(** The commands query-tracker, query-dht and query-peer: src/main.rs:283-379.  (That the
    flags of a command exclude each other is checked by clap; the commands are modelled for
    all combinations.) *)
From Verif Require Import Base M_Net M_Types M_Torrent M_Template M_Save M_Tracker M_Json M_SockText M_Peer M_Session M_Mse M_Connect M_GetInfo M_Write M_Config M_Nursery M_Resolve M_Magnet M_Http M_Get.

(** src/main.rs:303-309, 328-334: println! of each peer *)
Definition listing (json : bool) (peers : list peer) : bytes :=
  concat (map (fun p => (if json then display_json p else show_sockaddr (pr_addr p)) ++ [x0a]) peers).

(** src/main.rs:291-296 *)
Definition tracker_flags (require_crypto support_crypto no_crypto : bool) : option tracker_crypto :=
  match require_crypto, support_crypto, no_crypto with
  | true, _, _ => Some TCRequired
  | false, true, _ => Some TCSupported
  | false, false, true => Some TCPlain
  | false, false, false => None
  end.
(** src/main.rs:283-317.  [pid], [key], [port]: app.local; [conn], [ann]: when and how
    connecting and announcing to the tracker end.  Result: the announcements made, the one
    left to the shutdown group, what is printed, and whether the exit status is success. *)
Definition query_tracker {E} (cfg : config) (pid : bytes) (key port : N) (json require_crypto support_crypto no_crypto : bool) (ih : bytes)
    (conn : timed (res E unit)) (ann : announcement -> timed (res E announce_response)) : list announcement * option announcement * bytes * bool :=
  let s := mkTS ih (tracker_flags require_crypto support_crypto no_crypto) (c_encrypt cfg) pid key port (c_numwant cfg) in
  match getter_run (ns (c_announce_timeout cfg)) s conn ann with
  | (l, stop, _, Ok peers) => (l, stop, listing json peers, true)
  | (l, stop, _, Err _) => (l, stop, [], false)
  end.
(** src/main.rs:318-341.  [r]: the result of get_peers_from_dht *)
Definition query_dht {E} (json : bool) (r : res E (list peer * list sockaddr)) : bytes * bool :=
  match r with
  | Ok ([], _) => ([], false)
  | Ok (peers, _) => (listing json peers, true)
  | Err _ => ([], false)
  end.

(** src/main.rs:350-355 *)
Definition peer_flags (encrypt prefer_encrypt no_encrypt : bool) : option crypto_mode :=
  match encrypt, prefer_encrypt, no_encrypt with
  | true, _, _ => Some Encrypt
  | false, true, _ => Some Prefer
  | false, false, true => Some Plain
  | false, false, false => None
  end.
(** src/main.rs:342-378.  [now], [enc], [plain]: as for M_Write.get_info_w; [clock]: the time
    when the metadata has arrived; [cut], [fail]: as for M_Get.save.  Result: the connections
    made ([true]: encrypted) and, unless the command never ends, what is done to the file
    system and whether the exit status is success. *)
Definition query_peer (cfg : config) (pid : bytes) (encrypt prefer_encrypt no_encrypt : bool) (template : list elem) (p : peer) (ih : bytes)
    (now : N) (enc plain : dial_w) (clock : Z) (cut : bytes -> list bytes) (fail : option nat) : outcome (list bool * option (list op * bool)) :=
  match get_info_w ih pid (sa_ip (pr_addr p)) (peer_flags encrypt prefer_encrypt no_encrypt) (c_encrypt cfg) (pr_crypto p)
          (ns (c_handshake_timeout cfg)) (c_dh_timeout cfg) now enc plain with
  | Panic | Ret (_, SPanicked) => Panic
  | Ret (l, SWaiting) => Ret (l, None)
  | Ret (l, SDone (Err _)) => Ret (l, Some ([], false))
  | Ret (l, SDone (Ok info)) =>
      match save cut fail (tf_new info [] [] (unix_now clock)) template with
      | Panic => Panic
      | Ret r => Ret (l, Some r)
      end
  end.
