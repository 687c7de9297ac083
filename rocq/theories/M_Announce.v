(** Model of a query to a tracker from end to end: src/tracker/mod.rs:100-111, 203-220
    (PeerGetter::connect, TrackerSession::announce), src/tracker/http.rs:29-38, 68-115,
    src/tracker/udp.rs:28-31, over the sessions of M_Udp and the decoder of M_Http. *)
From Verif Require Import Base M_Net M_Session M_Tracker M_Udp M_Http M_Mse M_Config.

(** src/tracker/http.rs:215-228 HttpTrackerError (details of reqwest's and the decoder's
    errors dropped), src/tracker/mod.rs:235-245 TrackerError (Timeout: [GTimeout] of
    M_Tracker).  TEPanic: not an error but a panic; there is none (C99). *)
Inductive http_error := HEClient | HESend | HEStatus (code : N) | HEBody | HEParse.
Inductive tracker_error := TEFailure (msg : bytes) | TEHttp (e : http_error) | TEUdp (e : udp_error) | TEPanic.

(** What becomes of a request: it cannot be sent or gets no response; the response's status
    and its body (None: reading it fails).  Redirections are followed by reqwest. *)
Inductive http_reply := RNoResponse | RResponse (status : N) (body : option bytes).

(** What the network does in the course of one query; times since its beginning, in
    nanoseconds.  [n_client]: the HTTP client can be built; [n_reply v]: when it is settled
    what becomes of a request for the URL [v], and what; [n_socket host port]: when the UDP
    socket is set up, what the name resolves to, whether binding and connecting succeed;
    [n_txn], [n_send]: the first transaction id, whether the first packet can be sent;
    [n_inputs]: what wakes the session after that. *)
Record net := mkNet {
  n_client : bool; n_reply : url -> timed http_reply;
  n_socket : bytes -> N -> timed (option (list sockaddr) * bool * bool); n_txn : N; n_send : bool; n_inputs : list uinput }.

(** http.rs:88-100: error_for_status, bytes, decode_bencode; http.rs:110-115 result *)
Definition http_result (r : http_reply) : res tracker_error announce_response :=
  match r with
  | RNoResponse => Err (TEHttp HESend)
  | RResponse status body =>
      if (400 <=? status) && (status <? 600) then Err (TEHttp (HEStatus status))
      else match body with
           | None => Err (TEHttp HEBody)
           | Some b =>
               match http_decode b with
               | Panic => Err TEPanic
               | Ret None => Err (TEHttp HEParse)
               | Ret (Some (HSuccess a)) => Ok a
               | Ret (Some (HFailure m)) => Err (TEFailure m)
               end
           end
  end.

(** The first return of a call, and when *)
Fixpoint first_return (tr : list uobs) : timed (res udp_error announce_response) :=
  match tr with
  | [] => None
  | OReturned t r :: _ => Some (t, r)
  | _ :: tr' => first_return tr'
  end.
(** udp.rs:284-289, tracker/mod.rs:239, 243-244 *)
Definition udp_failure (e : udp_error) : tracker_error := match e with UFailure m => TEFailure m | _ => TEUdp e end.

(** mod.rs:100-111, http.rs:29-38, udp.rs:28-31 *)
Definition socket_of (u : udp_url) (n : net) : timed (res udp_error (bytes * sockaddr * bool)) :=
  match n_socket n (uu_host u) (uu_port u) with
  | Some (t, (l, b, c)) => Some (t, udp_socket l b c)
  | None => None
  end.
Definition tracker_conn (tr : tracker) (n : net) : timed (res tracker_error unit) :=
  match tr with
  | THttp _ => Some (0, if n_client n then Ok tt else Err (TEHttp HEClient))
  | TUdp u =>
      match socket_of u n with
      | Some (t, Ok _) => Some (t, Ok tt)
      | Some (t, Err e) => Some (t, Err (udp_failure e))
      | None => None
      end
  end.
(** mod.rs:203-211 *)
Definition tracker_ann (tr : tracker) (n : net) (a : announcement) : timed (res tracker_error announce_response) :=
  match tr with
  | THttp u =>
      match n_reply n (announce_url u a) with
      | Some (t, r) => Some (t, http_result r)
      | None => None
      end
  | TUdp u =>
      match socket_of u n with
      | Some (t0, Ok (_, _, v6)) =>
          match first_return (snd (urun (uu_data u) v6 us_new (mkIn t0 (InAnnounce a) (n_txn n) (n_send n) :: n_inputs n))) with
          | Some (t, r) => Some (t - t0, res_map_err udp_failure r)
          | None => None
          end
      | _ => None
      end
  end.
(** mod.rs:60-98: the announcements made, the one left to the shutdown group, the time it
    took, the result *)
Definition tracker_query (limit : N) (s : tracker_session) (tr : tracker) (n : net) :=
  getter_run limit s (tracker_conn tr n) (tracker_ann tr n).
(** src/magnet.rs:49-66 the job for one of a magnet's trackers; [pid], [key], [port]: app.local *)
Definition tracker_job (cfg : config) (pid : bytes) (key port : N) (ih : bytes) (tr : tracker) (n : net) : list peer :=
  match tracker_query (ns (c_announce_timeout cfg)) (mkTS ih None (c_encrypt cfg) pid key port (c_numwant cfg)) tr n with
  | (_, _, _, Ok peers) => peers
  | (_, _, _, Err _) => []
  end.
