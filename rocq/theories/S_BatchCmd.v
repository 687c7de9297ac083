(** Specification vocabulary for the command 'batch'. *)
From Verif Require Import Base S_Path M_Net M_Sha1 M_Types M_Tracker M_Utf8 M_Template S_Template M_Torrent M_Save S_Disk M_Magnet M_Config M_Http M_Nursery M_Batch M_Get S_Get M_BatchCmd
  S_Bencode M_Bencode S_Download S_TorrentFile.
Local Open Scope nat_scope.

(** [contents] is a torrent file: a canonical bencoded document with these trackers and
    nodes, and an info dictionary with the hash [ih]; [path] is the template [ts] filled in
    for it. *)
Definition torrent_of (ts : list tok) (ih : bytes) (trackers : list bytes) (nodes : list sockaddr) (created : Z) (path contents : bytes) : Prop :=
  exists doc d, canonical (VDict d) /\ sha1 (encode (VDict d)) = ih /\ canonical (VDict doc) /\
    says doc trackers nodes (bs "demagnetize 0.7.0") created (VDict d) /\ contents = encode (VDict doc) /\
    let name := match lookup (bs "name") d with Some (VBytes n) => from_utf8_lossy n | _ => bs "NONAME" end in
    path = expand ts (sanitize name) (show_info_hash ih).
(** ... for the [k]-th magnet link [m] *)
Definition file_for (show_url : url -> bytes) (trips : nat -> trip) (ts : list tok) (k : nat) (m : magnet) (path contents : bytes) : Prop :=
  torrent_of ts (mg_hash m) (map (url_string show_url) (mg_trackers m)) (file_nodes m (t_world (trips k))) (unix_now (w_clock (t_world (trips k)))) path contents.
(** Addresses are addresses (their octets and ports are in range). *)
Definition sound_world (m : magnet) (w : world) : Prop :=
  (forall c, to_try m w c -> wf_ip (sa_ip (contact_addr c))) /\ Forall wf_sa (file_nodes m w).
(** The request opens the file [q]. *)
Definition opens (cwd : place) (q : place) (r : nat * op) : Prop := exists p, snd r = OCreate p /\ locate cwd p = q.
(** The command 'get' for the link [m], given what its job meets with; None: it never ends. *)
Definition gets (show_url : url -> bytes) (cfg : config) (pid : bytes) (template : list elem) (t : trip) (m : magnet) : option (outcome (list op * bool)) :=
  get_cmd show_url cfg pid m (t_world t) (t_sched t) template (t_cut t) (t_fail t).
