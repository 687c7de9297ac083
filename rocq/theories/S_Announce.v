(** Specification: a query to a tracker from end to end. *)
From Verif Require Import Base S_Bencode M_Net M_Session M_Tracker M_Udp M_Http M_Announce S_Wire S_Form S_Udp S_UdpSession S_Http
  M_Config M_Magnet M_Get.

(** ** HTTP.  The URL asked for: the tracker's, with the announcement's parameters after its
    own. *)
Definition asks (u : url) (a : announcement) (v : url) : Prop :=
  u_scheme v = u_scheme u /\ u_user v = u_user u /\ u_host v = u_host u /\ u_port v = u_port u /\ u_path v = u_path u /\ u_fragment v = None /\
  forall own, form match u_query u with Some q => q | None => [] end own ->
    exists q, u_query v = Some q /\ form q (own ++ announced a) /\ (forall kvs, form q kvs -> kvs = own ++ announced a).
(** A response, at time [t], that is not an HTTP error and whose body is the bencoded
    dictionary [d] *)
Definition responds (n : net) (v : url) (t : N) (d : list (bytes * value)) : Prop :=
  n_client n = true /\
  exists status, n_reply n v = Some (t, RResponse status (Some (encode (VDict d)))) /\ (status < 400 \/ 600 <= status) /\
    canonical (VDict d) /\ (depth (VDict d) <= 2048)%nat.

(** ** UDP (BEP 15).  [connecting txn is t r], [announcing txn expires is t r]: a connect (an
    announce) request with transaction id [txn] has been sent; in the course of [is], the
    tracker answers the last request sent and the announcement ends at time [t] with the
    reply [r].  Requests may be sent again when a timer says so, and a connection that
    expires is replaced. *)
Inductive connecting (v6 : bool) : N -> list uinput -> N -> announce_response -> Prop :=
| con_wait txn i is t r : (forall d, ui_what i <> InRecv d) -> connecting v6 txn is t r -> connecting v6 txn (i :: is) t r
| con_reply txn i is t r d cid : ui_what i = InRecv (Some d) -> connect_reply d txn cid ->
    announcing v6 (ui_txn i) (ui_at i + 60 * second) is t r -> connecting v6 txn (i :: is) t r
with announcing (v6 : bool) : N -> N -> list uinput -> N -> announce_response -> Prop :=
| ann_wait txn x i is t r : (forall d, ui_what i <> InRecv d) -> (ui_what i = InExpiry -> ui_at i < x) -> announcing v6 txn x is t r ->
    announcing v6 txn x (i :: is) t r
| ann_expired txn x i is t r : ui_what i = InExpiry -> x <= ui_at i -> connecting v6 (ui_txn i) is t r ->
    announcing v6 txn x (i :: is) t r
| ann_reply txn x i is r d : ui_what i = InRecv (Some d) -> announce_reply v6 d txn r -> announcing v6 txn x (i :: is) (ui_at i) r.

(** The tracker's name resolves to [addr] first, and the tracker there answers. *)
Definition udp_answers (u : udp_url) (n : net) (t : N) (r : announce_response) : Prop :=
  exists t0 addr others (v6 : bool), n_socket n (uu_host u) (uu_port u) = Some (t0, (Some (addr :: others), true, true)) /\
    (if v6 then ~ is_v4 addr else is_v4 addr) /\ connecting v6 (n_txn n) (n_inputs n) t r.
(** No packet can fail to be sent. *)
Definition sending_works (n : net) : Prop := n_send n = true /\ Forall (fun i => ui_send i = true) (n_inputs n).
(** Nothing happens to the socket before there is one. *)
Definition in_order (n : net) : Prop :=
  forall host port t0 x, n_socket n host port = Some (t0, x) -> Forall (fun i => t0 <= ui_at i) (n_inputs n).

(** ** Either.  The tracker answers the announcement [a], at time [t] with [r], however it is
    put. *)
Definition answers (tr : tracker) (a : announcement) (n : net) (t : N) (r : announce_response) : Prop :=
  match tr with
  | THttp u => forall v, asks u a v -> exists d, responds n v t d /\ http_success d r
  | TUdp u => udp_answers u n t r /\ sending_works n
  end.
(** It has answered. *)
Definition answered (tr : tracker) (a : announcement) (n : net) (t : N) (r : announce_response) : Prop :=
  match tr with
  | THttp u => exists v d, asks u a v /\ responds n v t d /\ http_success d r
  | TUdp u => udp_answers u n t r
  end.
(** It has reported a failure. *)
Definition refused (tr : tracker) (a : announcement) (n : net) (msg : bytes) : Prop :=
  match tr with
  | THttp u => exists v t d, asks u a v /\ responds n v t d /\ http_failure d msg
  | TUdp _ => exists i d raw, In i (n_inputs n) /\ ui_what i = InRecv (Some d) /\ error_reply d raw /\ msg = M_Utf8.from_utf8_lossy raw
  end.

(** ** The trackers of the command 'get'.  [pid], [key], [port]: the local peer's; [nets k]:
    the network during the query to the tracker listed as number [k].  The peers to contact
    are those the trackers report. *)
Definition peers_from (cfg : config) (pid : bytes) (key port : N) (m : magnet) (nets : nat -> net) (w : world) : Prop :=
  forall k tr, nth_error (mg_trackers m) k = Some tr ->
    exists l, w_announce w k = Ret l /\ map snd l = tracker_job cfg pid key port (mg_hash m) tr (nets k).
(** (There is no tracker number [k] otherwise.) *)
Definition no_other (m : magnet) (w : world) : Prop := forall k, nth_error (mg_trackers m) k = None -> w_announce w k = Ret [].
(** What they are told *)
Definition told (cfg : config) (pid : bytes) (key port : N) (ih : bytes) : announcement :=
  mkAnn ih pid 0 65535 0 EvStarted key (c_numwant cfg) port
    match c_encrypt cfg with CPAlways => TCRequired | CPNever => TCPlain | CPPrefer | CPIfRequired => TCSupported end.
