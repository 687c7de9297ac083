(** Specification: HTTP tracker responses (BEP 3, 7, 23 and the crypto_flags
    convention). *)
From Verif Require Import Base S_Bencode S_Utf8 M_Utf8 M_Net S_IpText M_Tracker S_Wire.

Definition byte_string (v : value) (s : bytes) : Prop := v = VBytes s.
(** Human-readable text, decoded lossily. *)
Definition message (v : value) (s : bytes) : Prop := exists raw, v = VBytes raw /\ s = from_utf8_lossy raw.
Definition id20 (v : value) (s : bytes) : Prop := v = VBytes s /\ length s = 20%nat.
(** An address in text form. *)
Definition ip_text (v : value) (i : ip) : Prop := exists s, text v s /\ address_text s i.

(** BEP 3: a peer given as a dictionary *)
Definition peer_dict (v : value) (p : peer) : Prop :=
  exists d, v = VDict d /\
    field id20 (bs "peer id") d (pr_id p) /\
    field ip_text (bs "ip") d (Some (sa_ip (pr_addr p))) /\
    field (uint 16) (bs "port") d (Some (sa_port (pr_addr p))) /\
    pr_crypto p = false.
(** BEP 23 / BEP 7: addresses of one kind, end to end *)
Definition compact_peers (v6 : bool) (v : value) (ps : list peer) : Prop :=
  exists parts, v = VBytes (concat parts) /\
    Forall2 (fun w p => compact (pr_addr p) w /\ pr_id p = None /\ pr_crypto p = false /\
                        (if v6 then ~ is_v4 (pr_addr p) else is_v4 (pr_addr p))) parts ps.
Definition peer_list (v : value) (ps : list peer) : Prop :=
  (exists vs, v = VList vs /\ Forall2 peer_dict vs ps) \/ compact_peers false v ps.

(** The i-th flag says whether the i-th peer requires encryption; peers without a
    flag do not. *)
Definition flagged (flags : option bytes) (ps out : list peer) : Prop :=
  length out = length ps /\
  forall i p, nth_error ps i = Some p -> exists c,
    nth_error out i = Some (mkPeer (pr_addr p) (pr_id p) c) /\
    (c = true <-> exists s b, flags = Some s /\ nth_error s i = Some b /\ b <> x00).

Definition of_option {A} (o : option (list A)) : list A := match o with Some l => l | None => [] end.

Definition http_success (d : list (bytes * value)) (r : announce_response) : Prop :=
  lookup (bs "failure reason") d = None /\
  (exists flags p4 p6 out,
     field byte_string (bs "crypto_flags") d flags /\
     field peer_list (bs "peers") d p4 /\
     field (compact_peers true) (bs "peers6") d p6 /\
     flagged flags (of_option p4) out /\ ar_peers r = out ++ of_option p6) /\
  field (uint 32) (bs "interval") d (Some (ar_interval r)) /\
  field (uint 32) (bs "min interval") d (ar_min_interval r) /\
  field (uint 32) (bs "complete") d (ar_complete r) /\
  field (uint 32) (bs "incomplete") d (ar_incomplete r) /\
  field byte_string (bs "tracker id") d (ar_tracker_id r) /\
  field message (bs "warning message") d (ar_warning r) /\
  ar_leechers r = None /\ ar_seeders r = None.

(** A failure reason wins, whatever the entries after it are ("complete" and
    "crypto_flags" are the known entries before it). *)
Definition http_failure (d : list (bytes * value)) (msg : bytes) : Prop :=
  field message (bs "failure reason") d (Some msg) /\
  (exists c, field (uint 32) (bs "complete") d c) /\
  (exists f, field byte_string (bs "crypto_flags") d f).

(** BEP 3 announce parameters, in the order they are sent, numbers in decimal *)
Definition announced (a : announcement) : list (bytes * bytes) :=
  (match an_event a with
   | EvAnnounce => []
   | EvCompleted => [(bs "event", bs "completed")]
   | EvStarted => [(bs "event", bs "started")]
   | EvStopped => [(bs "event", bs "stopped")]
   end)
  ++ [(bs "info_hash", an_hash a); (bs "peer_id", an_pid a)]
  ++ (match an_crypto a with
      | TCRequired => [(bs "requirecrypto", bs "1")]
      | TCSupported => [(bs "supportcrypto", bs "1")]
      | TCPlain => []
      end)
  ++ [(bs "port", dec (an_port a)); (bs "uploaded", dec (an_uploaded a)); (bs "downloaded", dec (an_downloaded a));
      (bs "left", dec (an_left a)); (bs "numwant", dec (an_numwant a)); (bs "key", dec (an_key a)); (bs "compact", bs "1")].
