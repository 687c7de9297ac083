(** The command 'get': src/main.rs:222-233, src/magnet.rs:32-113, composed of M_Resolve (the
    tasks), M_GetInfo and M_Write (one peer), M_Torrent and M_Save (the file). *)
From Verif Require Import Base M_Net M_Types M_Torrent M_Template M_Save M_Tracker M_Udp M_Http M_Magnet M_Peer M_Session M_Mse M_Connect M_GetInfo M_Write
  M_Config M_Nursery S_Nursery M_Resolve.

(** A peer to contact.  The number tells apart several contacts with the same peer, which
    may end differently. *)
Definition contact := (nat * peer)%type.
Definition contact_addr (c : contact) : sockaddr := pr_addr (snd c).

(** What the outside does, in one execution.  [w_announce k]: the peers the tracker listed as
    number [k] yields (none if querying it fails); [w_dht]: the peers and the closest nodes a
    DHT lookup yields, None: it fails; [w_meet c]: when fetching from [c] begins and what
    happens to the connections with and without encryption, and to the writes to them; [w_clock]: the time, in
    nanoseconds since the epoch, when the metadata has arrived. *)
Record world := mkWorld { w_announce : nat -> outcome (list contact); w_dht : option (list contact * list sockaddr);
  w_meet : contact -> N * dial_w * dial_w; w_clock : Z }.

Section Get.
(** Display for Url (crate url) *)
Context (show_url : url -> bytes).
Context (cfg : config) (pid : bytes).

(** src/tracker/mod.rs:25-30, http.rs:25-27, udp.rs:24-26 url_string *)
Definition url_string (t : tracker) : bytes := match t with THttp u => show_url u | TUdp u => show_udp_url u end.

Section World.
Context (ih : bytes) (w : world).
(** src/magnet.rs:79, src/peer/mod.rs:189-212 peer.info_getter(..).run() *)
Definition contact_info (c : contact) : outcome (list bool * stage torrent_info) :=
  let '(now, enc, plain) := w_meet w c in
  get_info_w ih pid (sa_ip (contact_addr c)) None (c_encrypt cfg) (pr_crypto (snd c)) (ns (c_handshake_timeout cfg)) (c_dh_timeout cfg) now enc plain.
(** src/peer/mod.rs:207: the metadata exchange has no time limit *)
Definition hangs (c : contact) : bool := match contact_info c with Ret (_, SWaiting) => true | _ => false end.
(** The result of the peer's job, if it ends *)
Definition contact_fetch (c : contact) : outcome (option torrent_info) :=
  match contact_info c with
  | Panic | Ret (_, SPanicked) => Panic
  | Ret (_, SDone (Ok i)) => Ret (Some i)
  | Ret (_, SDone (Err _)) | Ret (_, SWaiting) => Ret None
  end.
End World.

(** src/magnet.rs:40-71: the state get_torrent_file starts in; None: the DHT lookup failed *)
Definition get_start (m : magnet) (w : world) : option (rst tracker contact sockaddr torrent_info) :=
  r_start (N.to_nat (c_tracker_jobs cfg)) (N.to_nat (c_peer_jobs cfg)) (mg_trackers m) (option_map fst (w_dht w)).
Definition get_run (m : magnet) (w : world) (s0 : rst tracker contact sockaddr torrent_info) (l : list rev) :=
  rrun sa_eqb contact_addr (w_announce w) (contact_fetch (mg_hash m) w) s0 l.
(** src/magnet.rs:39-43 *)
Definition file_nodes (m : magnet) (w : world) : list sockaddr :=
  match mg_trackers m, w_dht w with [], Some (_, nodes) => nodes | _, _ => [] end.

(** src/torrent.rs:154-176 save: what the operating system is asked to do, and whether that
    succeeds.  [cut]: how the write calls divide the file; [fail]: None, or after how many
    operations one fails. *)
Definition save (cut : bytes -> list bytes) (fail : option nat) (tf : torrent_file) (template : list elem) : outcome (list op * bool) :=
  match save_dest (tf_info tf) template with
  | Panic => Panic
  | Ret d =>
      let ops := save_ops d (cut (tf_bytes tf)) in
      Ret (match fail with None => (ops, true) | Some k => (firstn k ops, false) end)
  end.

(** src/magnet.rs:105-113, src/main.rs:223-233: the execution [l] of the command; true: exit
    status success.  None: [l] is no execution, or is not at its end.  (A fetch that hangs
    does not end.) *)
Definition get_cmd (m : magnet) (w : world) (l : list rev) (template : list elem) (cut : bytes -> list bytes) (fail : option nat)
  : option (outcome (list op * bool)) :=
  match get_start m w with
  | None => Some (Ret ([], false))
  | Some s0 =>
      match get_run m w s0 l with
      | None => None
      | Some (s, _, hP) =>
          if existsb (fun d => hangs (mg_hash m) w (snd (fst d))) (finished hP) then None
          else match r_main s with
               | MReturned (Some info) =>
                   Some (save cut fail (tf_new info (map url_string (mg_trackers m)) (file_nodes m w) (unix_now (w_clock w))) template)
               | MReturned None => Some (Ret ([], false))
               | MPanicked => Some Panic
               | _ => None
               end
      end
  end.
End Get.
