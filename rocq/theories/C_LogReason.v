(** Property C111, continued: the reasons for which peers and trackers are given up.
    Specification: S_Log, S_LogReason. *)
From Verif Require Import Base M_Net M_Util M_Types M_Extensions M_Messages M_Mse M_Torrent M_Peer M_Session M_Udp M_Http M_Announce M_DhtMsg M_Log S_Magnet S_Log S_LogReason P_LogReason3 P_LogReason4.

(** From the record of a failed peer one can tell the peer and the reason with every number in
    it (how many bytes, which piece, which message type, which hashes); but for a connection lost during the encryption handshake (C111_reason_kinds_refuted). *)
Theorem C111_reasons_partial : forall plain s p p' d d' e e', wf_sa p -> wf_sa p' ->
  ~ connection_lost (d_hs d) -> ~ connection_lost (d_hs d') -> reason_fits d e -> reason_fits d' e' ->
  record_text plain (LPeerFailed s p d e) = record_text plain (LPeerFailed s p' d' e') -> p = p' /\ same_reason d e d' e'.
Proof. exact reason_full. Qed.
Print Assumptions C111_reasons_partial.
Example C111_reasons_nonvacuous :
  let d := mkDetails (UnknownMethod 48) (repeat xab 20) (repeat xcd 20) [bs "oops"] in
  ~ connection_lost (d_hs d) /\
  Forall (reason_fits d) [InfoHashMismatch (repeat xef 20); ECryptoHandshake; EMessage (MLength x05 Short); ERegistry (RCode 7); InfoConstruct (TooLarge 30000000);
    InfoPush (PushLength 1 16384 5); InfoBuild Digest; InfoBuild (NotFinished 3); SizeMismatch 5 6; WrongPiece 1 2; InfoRequestRejected 4; Unexpected (Core (Have 3))] /\
  chain (peer_chain (fun _ => false) d ECryptoHandshake) = bs "server selected unknown crypto method 0x30".
Proof. split; [intros [H|[H|H]]; discriminate H|]. split; [repeat constructor|vm_compute; reflexivity]. Qed.

(** Likewise the records of a failed tracker, and of a tracker that could not be told that the
    download has stopped, whose URL contains no ">" *)
Theorem C111_tracker_reasons : forall plain u u' s src src' e e', ~ In ">"%byte u -> ~ In ">"%byte u' -> tracker_fits e -> tracker_fits e' ->
  record_text plain (LTrackerFailed u s src e) = record_text plain (LTrackerFailed u' s src' e') -> u = u' /\ same_tracker_reason e e'.
Proof. exact tracker_reason_full. Qed.
Print Assumptions C111_tracker_reasons.
Theorem C111_stop_reasons : forall plain u u' s src src' e e', ~ In ">"%byte u -> ~ In ">"%byte u' -> tracker_fits e -> tracker_fits e' ->
  record_text plain (LStopFailed u s src e) = record_text plain (LStopFailed u' s src' e') -> u = u' /\ same_tracker_reason e e'.
Proof. exact stop_reason_full. Qed.
Print Assumptions C111_stop_reasons.
Example C111_tracker_reasons_nonvacuous :
  ~ In ">"%byte (bs "udp://t:1/") /\ Forall tracker_fits [None; Some (TEHttp HEBody); Some (TEUdp (UBadAction 1 3)); Some (TEUdp (UXactionMismatch 255 256))] /\
  record_text (fun _ => false) (LTrackerFailed (bs "udp://t:1/") (mkSubject None (repeat xab 20)) [] (Some (TEUdp (UXactionMismatch 255 256)))) =
    bs "Error communicating with <Tracker udp://t:1/> for abababababababababababababababababababab: response from UDP tracker did not contain expected transaction ID; expected 0xff, got 0x100".
Proof. split; [cbn; intuition discriminate|]. split; [repeat constructor|vm_compute; reflexivity]. Qed.

(** And that of a DHT node's invalid reply *)
Theorem C111_node_reasons : forall plain i a src src' e e', node_fits e -> node_fits e' ->
  record_text plain (LNodeInvalid i a src e) = record_text plain (LNodeInvalid i a src' e') -> same_node_reason e e'.
Proof. exact node_reason_full. Qed.
Print Assumptions C111_node_reasons.
Example C111_node_reasons_nonvacuous : node_fits RBencode /\ node_fits RQuery /\
  record_text (fun _ => false) (LNodeInvalid None (mkSA (V4 1) 80) [] RQuery) = bs "DHT node at 0.0.0.1:80 sent invalid reply message: failed to decode response from packet: is actually a query".
Proof. split; [exact I|]. split; [exact I|vm_compute; reflexivity]. Qed.
