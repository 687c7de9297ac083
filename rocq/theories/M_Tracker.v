(** Model of src/tracker/mod.rs: announcements, tracker URLs and sessions. *)
From Verif Require Import Base M_Net M_Session.

(** src/peer/mod.rs:38-43 Peer *)
Record peer := mkPeer { pr_addr : sockaddr; pr_id : option bytes; pr_crypto : bool }.
(** src/peer/mod.rs:83-111 From<SocketAddr>, From<SocketAddrV4>, From<SocketAddrV6> *)
Definition peer_of (a : sockaddr) : peer := mkPeer a None false.

(** src/tracker/mod.rs:247-255 AnnounceEvent *)
Inductive announce_event := EvAnnounce | EvCompleted | EvStarted | EvStopped.
(** src/tracker/mod.rs:268-275 AnnounceEvent::for_udp *)
Definition event_code (e : announce_event) : N :=
  match e with EvAnnounce => 0 | EvCompleted => 1 | EvStarted => 2 | EvStopped => 3 end.
(** src/tracker/mod.rs:258-264 the value of the "event" parameter, if any *)
Definition event_name (e : announce_event) : option bytes :=
  match e with
  | EvAnnounce => None
  | EvCompleted => Some (bs "completed")
  | EvStarted => Some (bs "started")
  | EvStopped => Some (bs "stopped")
  end.

(** src/tracker/mod.rs:308-313 TrackerCrypto *)
Inductive tracker_crypto := TCRequired | TCSupported | TCPlain.
(** src/tracker/mod.rs:316-326: parameter to add, if any *)
Definition crypto_param (c : tracker_crypto) : option (bytes * bytes) :=
  match c with
  | TCRequired => Some (bs "requirecrypto", bs "1")
  | TCSupported => Some (bs "supportcrypto", bs "1")
  | TCPlain => None
  end.

(** src/tracker/mod.rs:278-290 Announcement *)
Record announcement := mkAnn {
  an_hash : bytes; an_pid : bytes; an_downloaded : N; an_left : N; an_uploaded : N;
  an_event : announce_event; an_key : N; an_numwant : N; an_port : N; an_crypto : tracker_crypto }.

(** src/tracker/mod.rs:292-303 AnnounceResponse *)
Record announce_response := mkResp {
  ar_interval : N; ar_peers : list peer; ar_warning : option bytes; ar_min_interval : option N;
  ar_tracker_id : option bytes; ar_complete : option N; ar_incomplete : option N;
  ar_leechers : option N; ar_seeders : option N }.

(** The part of url::Url that is used: the components the url crate reports
    (parsing a URL into them is the url crate's and not modelled). *)
Inductive url_host := HDomain (d : bytes) | HIp (i : ip).
Record url := mkUrlFull {
  u_scheme : bytes; u_user : bytes; u_host : option url_host; u_port : option N; u_path : bytes; u_query : option bytes;
  u_fragment : option bytes }.
(** [u_user]: user name and password, as written before the "@".  A URL without these and
    without a fragment: *)
Definition mkUrl (scheme : bytes) (host : option url_host) (port : option N) (path : bytes) (query : option bytes) : url :=
  mkUrlFull scheme [] host port path query None.

(** src/tracker/mod.rs:224-233 TrackerUrlError (url::ParseError aside) *)
Inductive tracker_url_error := UnsupportedScheme (s : bytes) | NoHost | NoUdpPort.

(** src/config.rs:278-285 CryptoPreference::get_tracker_crypto *)
Definition pref_tracker_crypto (p : crypto_pref) : tracker_crypto :=
  match p with CPAlways => TCRequired | CPNever => TCPlain | CPPrefer | CPIfRequired => TCSupported end.

(** src/consts.rs LEFT *)
Definition LEFT : N := 65535.

(** src/tracker/mod.rs:136-141, 149-152: what a session announces for.  [s_override]:
    tracker_crypto; [s_pref]: the configured preference; [s_id], [s_key], [s_port]:
    app.local; [s_numwant]: cfg.trackers.numwant. *)
Record tracker_session := mkTS {
  s_hash : bytes; s_override : option tracker_crypto; s_pref : crypto_pref;
  s_id : bytes; s_key : N; s_port : N; s_numwant : N }.
Definition get_tracker_crypto (s : tracker_session) : tracker_crypto :=
  match s_override s with Some c => c | None => pref_tracker_crypto (s_pref s) end.

(** src/tracker/mod.rs:161-180 start; 182-201 stop: the announcement made *)
Definition start_announcement (s : tracker_session) : announcement :=
  mkAnn (s_hash s) (s_id s) 0 LEFT 0 EvStarted (s_key s) (s_numwant s) (s_port s) (get_tracker_crypto s).
Definition stop_announcement (s : tracker_session) : announcement :=
  mkAnn (s_hash s) (s_id s) 0 LEFT 0 EvStopped (s_key s) (s_numwant s) (s_port s) (get_tracker_crypto s).

(** src/tracker/mod.rs:60-98 PeerGetter::run / inner_get_peers.  [conn]: when and how
    connecting to the tracker finishes; [ann a]: when (after that) and how announcing
    [a] does.  Between a successful "started" announcement and the spawning of the
    "stopped" one there is no suspension point, so the time limit cannot separate
    them.  Returns the announcements made within the limit, the announcement handed
    to the shutdown group (if any), the time used and the result. *)
Section Getter.
Context {E : Type}.
Inductive getter_error := GTimeout | GInner (e : E).
Definition getter_run (limit : N) (s : tracker_session) (conn : timed (res E unit))
    (ann : announcement -> timed (res E announce_response))
  : list announcement * option announcement * N * res getter_error (list peer) :=
  match timeout limit conn with
  | (t, None) => ([], None, t, Err GTimeout)
  | (t, Some (Err e)) => ([], None, t, Err (GInner e))
  | (t, Some (Ok _)) =>
      let a := start_announcement s in
      match timeout (limit - t) (ann a) with
      | (t', None) => ([a], None, t + t', Err GTimeout)
      | (t', Some (Err e)) => ([a], None, t + t', Err (GInner e))
      | (t', Some (Ok r)) => ([a], Some (stop_announcement s), t + t', Ok (ar_peers r))
      end
  end.
End Getter.
