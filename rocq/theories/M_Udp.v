(** Model of src/tracker/udp.rs. *)
From Verif Require Import Base M_Net M_Util M_Utf8 M_Session M_Tracker.

(** src/tracker/udp.rs:15-18 *)
Definition PROTOCOL_ID : N := 4497486125440.
Definition CONNECT_ACTION : N := 0.
Definition ANNOUNCE_ACTION : N := 1.
Definition ERROR_ACTION : N := 3.

(** ** URLs *)
(** src/tracker/udp.rs:48-53 UdpUrl *)
Record udp_url := mkUU { uu_host : bytes; uu_port : N; uu_data : bytes }.

(** src/tracker/udp.rs:68-96 TryFrom<Url> for UdpUrl *)
Definition udp_url_of (u : url) : res tracker_url_error udp_url :=
  if negb (bytes_eqb (u_scheme u) (bs "udp")) then Err (UnsupportedScheme (u_scheme u))
  else
    let? host := match u_host u with
                 | Some (HDomain d) => Ok d
                 | Some (HIp i) => Ok (show_ip i)
                 | None => Err NoHost
                 end in
    let? port := ok_or (u_port u) NoUdpPort in
    Ok (mkUU host port (u_path u ++ match u_query u with Some q => "?"%byte :: q | None => [] end)).

(** src/tracker/udp.rs:55-66 Display for UdpUrl *)
Definition has_colon (s : bytes) : bool := existsb (fun b => Byte.eqb b ":"%byte) s.
Definition show_udp_url (u : udp_url) : bytes :=
  bs "udp://" ++ (if has_colon (uu_host u) then ["["%byte] ++ uu_host u ++ ["]"%byte] else uu_host u)
  ++ [":"%byte] ++ dec (uu_port u) ++ uu_data u.

(** ** Packets *)
(** src/tracker/udp.rs:312-320 UdpConnectionRequest *)
Definition connection_request (txn : N) : bytes :=
  be_bytes 8 PROTOCOL_ID ++ be_bytes 4 CONNECT_ACTION ++ be_bytes 4 txn.

(** src/tracker/udp.rs:375-385: the BEP 41 loop.  [fuel] bounds the number of
    segments (one byte each at least). *)
Fixpoint url_segments (fuel : nat) (data : bytes) : bytes :=
  match data with
  | [] => []
  | _ =>
      match fuel with
      | O => []
      | S f =>
          let k := Nat.min (length data) 255 in
          n2b 2 :: n2b (N.of_nat k) :: firstn k data ++ url_segments f (skipn k data)
      end
  end.

(** src/tracker/udp.rs:359-388 UdpAnnounceRequest *)
Definition announce_request (cid txn : N) (a : announcement) (urldata : bytes) : bytes :=
  be_bytes 8 cid ++ be_bytes 4 ANNOUNCE_ACTION ++ be_bytes 4 txn
  ++ an_hash a ++ an_pid a
  ++ be_bytes 8 (an_downloaded a) ++ be_bytes 8 (an_left a) ++ be_bytes 8 (an_uploaded a)
  ++ be_bytes 4 (event_code (an_event a)) ++ be_bytes 4 0 ++ be_bytes 4 (an_key a)
  ++ be_bytes 4 (an_numwant a) ++ be_bytes 2 (an_port a)
  ++ url_segments (length urldata) urldata.

(** src/tracker/udp.rs:442-466 UdpTrackerError, and TrackerError::Failure
    (src/tracker/mod.rs:236-245); I/O error details dropped *)
Inductive udp_error :=
| ULookup | UNoResolve | UBind | UConnect | USend | URecv
| UPacketLen (e : packet_error)
| UBadAction (expected got : N)
| UXactionMismatch (expected got : N)
| UFailure (msg : bytes).

(** src/tracker/udp.rs:277-281 Response *)
Inductive response T := Success (t : T) | Failure (msg : bytes).
Arguments Success {T} t.
Arguments Failure {T} msg.

(** src/tracker/udp.rs:291-304 Response::from_bytes *)
Definition response_from_bytes {T} (parser : bytes -> res udp_error T) (buf : bytes) : res udp_error (response T) :=
  match try_get_uint 4 buf with
  | Ok (a, view) =>
      if a =? ERROR_ACTION then
        let? (_, r) := res_map_err UPacketLen (try_get_uint 4 view) in
        Ok (Failure (from_utf8_lossy r))
      else let? t := parser buf in Ok (Success t)
  | Err _ => let? t := parser buf in Ok (Success t)
  end.
(** src/tracker/udp.rs:284-289 Response::ok *)
Definition response_ok {T} (r : response T) : res udp_error T :=
  match r with Success t => Ok t | Failure m => Err (UFailure m) end.

(** src/tracker/udp.rs:328-349 UdpConnectionResponse: (transaction id, connection id) *)
Definition connection_response (buf : bytes) : res udp_error (N * N) :=
  let? (action, r) := res_map_err UPacketLen (try_get_uint 4 buf) in
  if negb (action =? CONNECT_ACTION) then Err (UBadAction CONNECT_ACTION action)
  else
    let? (txn, r1) := res_map_err UPacketLen (try_get_uint 4 r) in
    let? (cid, _) := res_map_err UPacketLen (try_get_uint 8 r1) in
    Ok (txn, cid).

(** src/tracker/udp.rs:396-439 UdpAnnounceResponse::from_bytes: (transaction id, response) *)
Definition udp_announce_response (v6 : bool) (buf : bytes) : res udp_error (N * announce_response) :=
  let? (action, r) := res_map_err UPacketLen (try_get_uint 4 buf) in
  if negb (action =? ANNOUNCE_ACTION) then Err (UBadAction ANNOUNCE_ACTION action)
  else
    let? (txn, r1) := res_map_err UPacketLen (try_get_uint 4 r) in
    let? (interval, r2) := res_map_err UPacketLen (try_get_uint 4 r1) in
    let? (leechers, r3) := res_map_err UPacketLen (try_get_uint 4 r2) in
    let? (seeders, r4) := res_map_err UPacketLen (try_get_uint 4 r3) in
    let? addrs := res_map_err UPacketLen (if v6 then try_get_all try_get_v6 r4 else try_get_all try_get_v4 r4) in
    Ok (txn, mkResp interval (map peer_of addrs) None None None None None (Some leechers) (Some seeders)).

(** ** Sessions
    The session is a state machine driven by what its task observes.  Times are in
    nanoseconds and are chosen by the environment. *)

(** src/tracker/udp.rs:270-275 Connection *)
Record connection := mkCx { cx_id : N; cx_expires : N }.

(** Where the task is suspended.  [u_sent]: when the current message was last sent;
    [n]: the loop counter of [chat] (src/tracker/udp.rs:194-211). *)
Inductive uphase :=
| UIdle
| UConnecting (txn : N) (msg : bytes) (n sent : N) (a : announcement)
| UAnnouncing (cx : connection) (txn : N) (msg : bytes) (n sent : N) (a : announcement).
Record usession := mkUS { us_conn : option connection; us_phase : uphase }.

(** src/tracker/udp.rs:104-110 UdpTrackerSession::new *)
Definition us_new : usession := mkUS None UIdle.

(** Duration::from_secs *)
Definition secs (n : N) : N := n * 1000000000.
(** src/tracker/udp.rs:198 the time to wait, [Duration::from_secs(15 << n)] *)
Definition wait_time (n : N) : N := secs (N.shiftl 15 n).

(** What can wake the task: [announce] being called, [recv] returning, the timer of
    [chat] or the expiry of the connection (src/tracker/udp.rs:128, 199). *)
Inductive uwhat :=
| InAnnounce (a : announcement)
| InRecv (d : option bytes)        (* None: I/O error *)
| InTimer
| InExpiry.
(** [ui_at]: the time; [ui_txn]: the random transaction id drawn, if this step draws
    one (src/tracker/udp.rs:213-215); [ui_send]: whether a send in this step succeeds. *)
Record uinput := mkIn { ui_at : N; ui_what : uwhat; ui_txn : N; ui_send : bool }.

(** What an observer sees. *)
Inductive uobs :=
| OCalled (t : N) (a : announcement)
| OSent (t : N) (msg : bytes)
| OReceived (t : N) (d : bytes)
| OReturned (t : N) (r : res udp_error announce_response).

Section Session.
(** [urldata]: self.tracker.0.urldata; [v6]: self.socket.ipv6 *)
Context (urldata : bytes) (v6 : bool).

Definition finish (t : N) (c : option connection) (r : res udp_error announce_response) : usession * list uobs :=
  (mkUS c UIdle, [OReturned t r]).

(** src/tracker/udp.rs:196-197: send, then wait *)
Definition send_or_fail (i : uinput) (c : option connection) (msg : bytes) (p : uphase) : usession * list uobs :=
  if ui_send i then (mkUS c p, [OSent (ui_at i) msg]) else finish (ui_at i) c (Err USend).

(** src/tracker/udp.rs:119-128: the announce request under a live connection *)
Definition begin_announce (i : uinput) (c : option connection) (cx : connection) (a : announcement) :=
  let msg := announce_request (cx_id cx) (ui_txn i) a urldata in
  send_or_fail i c msg (UAnnouncing cx (ui_txn i) msg 0 (ui_at i) a).
(** src/tracker/udp.rs:168-171: the connection request *)
Definition begin_connect (i : uinput) (c : option connection) (a : announcement) :=
  let msg := connection_request (ui_txn i) in
  send_or_fail i c msg (UConnecting (ui_txn i) msg 0 (ui_at i) a).

(** src/tracker/udp.rs:118, 151-162: one round of the announce loop up to its first
    suspension point *)
Definition begin_round (i : uinput) (c : option connection) (a : announcement) : usession * list uobs :=
  match c with
  | Some cx => if ui_at i <? cx_expires cx then begin_announce i c cx a else begin_connect i c a
  | None => begin_connect i c a
  end.

(** src/tracker/udp.rs:200-208 *)
Definition next_n (n : N) : N := if n <? 8 then n + 1 else n.

(** One step.  A timer that is not due is a spurious wake-up and changes nothing. *)
Definition ustep (st : usession) (i : uinput) : usession * list uobs :=
  let t := ui_at i in
  let c := us_conn st in
  match us_phase st, ui_what i with
  | UIdle, InAnnounce a =>
      let (st', o) := begin_round i c a in (st', OCalled t a :: o)
  | UConnecting txn msg n sent a, InRecv (Some d) =>
      (* src/tracker/udp.rs:172-191, then 159-161 *)
      let (st', o) :=
        match (let? r := response_from_bytes connection_response d in response_ok r) with
        | Err e => finish t c (Err e)
        | Ok (got, cid) =>
            if negb (got =? txn) then finish t c (Err (UXactionMismatch txn got))
            else let cx := mkCx cid (t + secs 60) in begin_announce i (Some cx) cx a
        end in
      (st', OReceived t d :: o)
  | UConnecting txn msg n sent a, InRecv None => finish t c (Err URecv)
  | UConnecting txn msg n sent a, InTimer =>
      if sent + wait_time n <=? t
      then send_or_fail i c msg (UConnecting txn msg (next_n n) t a)
      else (st, [])
  | UAnnouncing cx txn msg n sent a, InRecv (Some d) =>
      (* src/tracker/udp.rs:128-147 *)
      let (st', o) :=
        match (let? r := response_from_bytes (udp_announce_response v6) d in response_ok r) with
        | Err e => finish t c (Err e)
        | Ok (got, resp) =>
            if negb (got =? txn) then finish t c (Err (UXactionMismatch txn got))
            else finish t c (Ok resp)
        end in
      (st', OReceived t d :: o)
  | UAnnouncing cx txn msg n sent a, InRecv None => finish t c (Err URecv)
  | UAnnouncing cx txn msg n sent a, InTimer =>
      if sent + wait_time n <=? t
      then send_or_fail i c msg (UAnnouncing cx txn msg (next_n n) t a)
      else (st, [])
  | UAnnouncing cx txn msg n sent a, InExpiry =>
      (* src/tracker/udp.rs:133-137 *)
      if cx_expires cx <=? t then begin_round i None a else (st, [])
  | _, _ => (st, [])
  end.

Fixpoint urun (st : usession) (is : list uinput) : usession * list uobs :=
  match is with
  | [] => (st, [])
  | i :: is' =>
      let (st1, o1) := ustep st i in
      let (st2, o2) := urun st1 is' in
      (st2, o1 ++ o2)
  end.
End Session.

(** src/tracker/udp.rs:223-253 ConnectedUdpSocket::connect: the first resolved
    address decides.  [lookup]: the resolver's answer; [bind_ok], [connect_ok]: whether
    the system calls succeed.  Returns the address bound and the peer address. *)
Definition udp_socket (lookup : option (list sockaddr)) (bind_ok connect_ok : bool)
  : res udp_error (bytes * sockaddr * bool) :=
  match lookup with
  | None => Err ULookup
  | Some [] => Err UNoResolve
  | Some (a :: _) =>
      let '(bindaddr, v6) := match sa_ip a with V4 _ => (bs "0.0.0.0:0", false) | V6 _ => (bs "[::]:0", true) end in
      if negb bind_ok then Err UBind
      else if negb connect_ok then Err UConnect
      else Ok (bindaddr, a, v6)
  end.
