(** Model of src/tracker/http.rs and Tracker::from_str of src/tracker/mod.rs. *)
From Verif Require Import Base S_Bencode M_Bencode M_Utf8 M_Net M_IpText M_Types M_Compact M_Messages M_Tracker M_Udp M_Form.

(** src/tracker/http.rs:47-60 TryFrom<Url> for HttpTracker *)
Definition http_url_of (u : url) : res tracker_url_error url :=
  if negb (bytes_eqb (u_scheme u) (bs "http")) && negb (bytes_eqb (u_scheme u) (bs "https"))
  then Err (UnsupportedScheme (u_scheme u))
  else match u_host u with None => Err NoHost | Some _ => Ok u end.

(** src/tracker/mod.rs:18-22 Tracker *)
Inductive tracker := THttp (u : url) | TUdp (u : udp_url).
(** src/tracker/mod.rs:122-133 FromStr for Tracker, after Url::parse *)
Definition tracker_of (u : url) : res tracker_url_error tracker :=
  if bytes_eqb (u_scheme u) (bs "http") || bytes_eqb (u_scheme u) (bs "https")
  then let? t := http_url_of u in Ok (THttp t)
  else if bytes_eqb (u_scheme u) (bs "udp") then let? t := udp_url_of u in Ok (TUdp t)
  else Err (UnsupportedScheme (u_scheme u)).

Definition opt_append (q : option bytes) (kv : option (bytes * bytes)) : option bytes :=
  match kv with Some (k, v) => append_pair q k v | None => q end.

(** src/tracker/http.rs:72-86 the URL that is fetched (event and crypto parameters: src/tracker/mod.rs:257-266,
    317-328; info_hash and peer_id: src/types.rs:46-48, 144-146) *)
Definition announce_query (q : option bytes) (a : announcement) : option bytes :=
  let q := opt_append q (option_map (fun v => (bs "event", v)) (event_name (an_event a))) in
  let q := add_bytes_query_param q (bs "info_hash") (an_hash a) in
  let q := add_bytes_query_param q (bs "peer_id") (an_pid a) in
  let q := opt_append q (crypto_param (an_crypto a)) in
  let q := append_pair q (bs "port") (dec (an_port a)) in
  let q := append_pair q (bs "uploaded") (dec (an_uploaded a)) in
  let q := append_pair q (bs "downloaded") (dec (an_downloaded a)) in
  let q := append_pair q (bs "left") (dec (an_left a)) in
  let q := append_pair q (bs "numwant") (dec (an_numwant a)) in
  let q := append_pair q (bs "key") (dec (an_key a)) in
  append_pair q (bs "compact") (bs "1").
Definition announce_url (u : url) (a : announcement) : url :=
  mkUrlFull (u_scheme u) (u_user u) (u_host u) (u_port u) (u_path u) (announce_query (u_query u) a) None.

(** src/peer/mod.rs:113-159 FromBencode for Peer ([None]: any bendy error) *)
Fixpoint peer_fields (d : list (bytes * value)) (acc : option bytes * option ip * option N)
  : option (option bytes * option ip * option N) :=
  match d with
  | [] => Some acc
  | (k, v) :: r =>
      let '(pid, i, port) := acc in
      if bytes_eqb k (bs "peer id") then
        leto s := as_bytes v in leto x := peer_id_of_slice s in peer_fields r (Some x, i, port)
      else if bytes_eqb k (bs "ip") then
        leto s := as_string v in leto x := parse_ip s in peer_fields r (pid, Some x, port)
      else if bytes_eqb k (bs "port") then
        leto x := as_uint 16 v in peer_fields r (pid, i, Some x)
      else peer_fields r acc
  end.
Definition peer_decode (v : value) : option peer :=
  leto d := as_dict v in
  leto (pid, i, port) := peer_fields d (None, None, None) in
  leto i := i in
  leto port := port in
  Some (mkPeer (mkSA i port) pid false).
(** Vec<Peer>::decode_bencode_object *)
Fixpoint peers_decode (l : list value) : option (list peer) :=
  match l with
  | [] => Some []
  | v :: r => leto p := peer_decode v in leto ps := peers_decode r in Some (p :: ps)
  end.

(** src/tracker/http.rs:103-106 HttpAnnounceResponse *)
Inductive http_response := HSuccess (r : announce_response) | HFailure (msg : bytes).

(** src/tracker/http.rs:120-127: the local variables *)
Record http_acc := mkHA {
  ha_interval : option N; ha_peers : list peer; ha_warning : option bytes; ha_min : option N;
  ha_tracker_id : option bytes; ha_complete : option N; ha_incomplete : option N;
  ha_flags : option (list bool) }.
Definition ha_new : http_acc := mkHA None [] None None None None None None.

(** src/tracker/http.rs:163-169 *)
Fixpoint apply_flags (ps : list peer) (fl : list bool) : list peer :=
  match ps, fl with
  | p :: ps', f :: fl' => (if f then mkPeer (pr_addr p) (pr_id p) true else p) :: apply_flags ps' fl'
  | _, _ => ps
  end.
(** src/tracker/http.rs:154-162 *)
Definition decode_peers (v : value) : option (list peer) :=
  match v with
  | VList l => peers_decode l
  | _ => leto s := as_bytes v in leto l := res_ok (vec_v4_from_compact s) in Some (map peer_of l)
  end.

(** src/tracker/http.rs:118-213 FromBencode for HttpAnnounceResponse.  [Panic]: the
    debug assertion of lines 150-153; [None]: any bendy error. *)
Fixpoint http_fields (d : list (bytes * value)) (h : http_acc) : outcome (option http_response) :=
  match d with
  | [] =>
      Ret (leto i := ha_interval h in
           Some (HSuccess (mkResp i (ha_peers h) (ha_warning h) (ha_min h) (ha_tracker_id h)
                                  (ha_complete h) (ha_incomplete h) None None)))
  | (k, v) :: r =>
      if bytes_eqb k (bs "failure reason") then
        Ret (leto s := as_bytes v in Some (HFailure (from_utf8_lossy s)))
      else if bytes_eqb k (bs "interval") then
        match as_uint 32 v with
        | None => Ret None
        | Some x => http_fields r (mkHA (Some x) (ha_peers h) (ha_warning h) (ha_min h) (ha_tracker_id h) (ha_complete h) (ha_incomplete h) (ha_flags h))
        end
      else if bytes_eqb k (bs "crypto_flags") then
        match as_bytes v with
        | None => Ret None
        | Some s => http_fields r (mkHA (ha_interval h) (ha_peers h) (ha_warning h) (ha_min h) (ha_tracker_id h) (ha_complete h) (ha_incomplete h)
                                        (Some (map (fun b => negb (b2n b =? 0)) s)))
        end
      else if bytes_eqb k (bs "peers") then
        match ha_peers h with
        | _ :: _ => Panic
        | [] =>
            match decode_peers v with
            | None => Ret None
            | Some ps =>
                let ps := match ha_flags h with Some fl => apply_flags ps fl | None => ps end in
                http_fields r (mkHA (ha_interval h) ps (ha_warning h) (ha_min h) (ha_tracker_id h) (ha_complete h) (ha_incomplete h) (ha_flags h))
            end
        end
      else if bytes_eqb k (bs "peers6") then
        match (leto s := as_bytes v in res_ok (vec_v6_from_compact s)) with
        | None => Ret None
        | Some l => http_fields r (mkHA (ha_interval h) (ha_peers h ++ map peer_of l) (ha_warning h) (ha_min h) (ha_tracker_id h) (ha_complete h) (ha_incomplete h) (ha_flags h))
        end
      else if bytes_eqb k (bs "warning message") then
        match as_bytes v with
        | None => Ret None
        | Some s => http_fields r (mkHA (ha_interval h) (ha_peers h) (Some (from_utf8_lossy s)) (ha_min h) (ha_tracker_id h) (ha_complete h) (ha_incomplete h) (ha_flags h))
        end
      else if bytes_eqb k (bs "min interval") then
        match as_uint 32 v with
        | None => Ret None
        | Some x => http_fields r (mkHA (ha_interval h) (ha_peers h) (ha_warning h) (Some x) (ha_tracker_id h) (ha_complete h) (ha_incomplete h) (ha_flags h))
        end
      else if bytes_eqb k (bs "tracker id") then
        match as_bytes v with
        | None => Ret None
        | Some s => http_fields r (mkHA (ha_interval h) (ha_peers h) (ha_warning h) (ha_min h) (Some s) (ha_complete h) (ha_incomplete h) (ha_flags h))
        end
      else if bytes_eqb k (bs "complete") then
        match as_uint 32 v with
        | None => Ret None
        | Some x => http_fields r (mkHA (ha_interval h) (ha_peers h) (ha_warning h) (ha_min h) (ha_tracker_id h) (Some x) (ha_incomplete h) (ha_flags h))
        end
      else if bytes_eqb k (bs "incomplete") then
        match as_uint 32 v with
        | None => Ret None
        | Some x => http_fields r (mkHA (ha_interval h) (ha_peers h) (ha_warning h) (ha_min h) (ha_tracker_id h) (ha_complete h) (Some x) (ha_flags h))
        end
      else http_fields r h
  end.

(** src/tracker/http.rs:97-99 decode_bencode::<HttpAnnounceResponse> *)
Definition http_decode (body : bytes) : outcome (option http_response) :=
  match decode_tree DEFAULT_MAX_DEPTH body with
  | Ok (VDict d) => http_fields d ha_new
  | _ => Ret None
  end.
