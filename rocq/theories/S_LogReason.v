(** Specification: what a record of a failed peer shows of the reason. *)
From Verif Require Import Base S_Magnet M_Types M_Messages M_Mse M_Torrent M_Peer M_Session M_Udp M_Http M_Announce M_DhtMsg M_Log S_Log.

(** The same reason, but for what is not shown of an unexpected message.  Of a failed encryption
    handshake, of metadata with the wrong hash and of a wrong hash in the peer's handshake the
    details are among those of [d]. *)
Definition same_reason (d : details) (e : peer_error) (d' : details) (e' : peer_error) : Prop :=
  match e, e' with
  | Unexpected a, Unexpected b => same_msg a b
  | _, _ => e = e'
  end /\
  (e = ECryptoHandshake -> d_hs d = d_hs d') /\
  (e = InfoBuild Digest -> d_digest d = d_digest d') /\
  ((exists got, e = InfoHashMismatch got) \/ e = InfoBuild Digest -> d_expected d = d_expected d').
(** Reasons as they occur: hashes have 20 bytes (S_Log: messages) *)
Definition reason_fits (d : details) (e : peer_error) : Prop :=
  match e with
  | InfoHashMismatch got => length got = 20%nat /\ length (d_expected d) = 20%nat
  | Unexpected m => readable m
  | InfoBuild Digest => length (d_digest d) = 20%nat /\ length (d_expected d) = 20%nat
  | _ => True
  end.

(** The reason for which a tracker is given up: an error message reads alike whether a UDP or
    an HTTP tracker sent it, and of an HTTP status only the library shows the number.  [None]:
    it took too long. *)
Definition same_tracker_reason (e e' : option tracker_error) : Prop :=
  match e, e' with
  | Some (TEFailure a), Some (TEUdp (UFailure b)) | Some (TEUdp (UFailure a)), Some (TEFailure b) => a = b
  | Some (TEHttp (HEStatus _)), Some (TEHttp (HEStatus _)) => True
  | _, _ => e = e'
  end.
(** Messages are Unicode text; a panic is not reported this way. *)
Definition tracker_fits (e : option tracker_error) : Prop :=
  match e with
  | Some (TEFailure a) | Some (TEUdp (UFailure a)) => is_text a
  | Some TEPanic => False
  | _ => True
  end.

(** The reason for which a DHT node's reply is of no use *)
Definition same_node_reason (e e' : response_error) : Prop :=
  match e, e' with
  | RBencode, RBencode | RQuery, RQuery => True
  | RRpc a, RRpc b => er_code a = er_code b /\ er_message a = er_message b
  | _, _ => False
  end.
Definition node_fits (e : response_error) : Prop := match e with RRpc a => is_text (er_message a) | _ => True end.
