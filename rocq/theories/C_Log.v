(** C110, C111: what the log says.  [plain] says which characters above U+007F Rust prints
    as they are; the only thing assumed of it is that control characters are not among them. *)
From Verif Require Import Base S_Utf8 S_Magnet S_Template S_Download M_Template M_Net M_Torrent M_Extensions M_Messages M_Util M_Types M_Udp M_Http M_Announce M_Mse M_Peer M_DhtMsg P_Bencode M_Log S_Log P_Log P_LogMsg P_LogReason.

Definition ex_plain (c : N) : bool := 160 <=? c.
Definition ex_peer : sockaddr := mkSA (V4 3232235777) 6881.
Definition ex_subject : subject := mkSubject (Some (bs "a" ++ [x0a] ++ bs "b")) (repeat xab 20).

(** C110: whatever the peer, the tracker or the DHT node has sent *)
Theorem C110_no_control_characters : forall plain, (forall c, control c -> plain c = false) -> forall r,
  Forall clean (local_parts r) -> clean (record_text plain r).
Proof. exact record_clean. Qed.
Print Assumptions C110_no_control_characters.
Example C110_nonvacuous : (forall c, control c -> ex_plain c = false) /\
  record_text ex_plain (LWarning (bs "http://t/") ex_subject (bs "x" ++ [x1b] ++ bs "[31m" ++ utf8 [155; 233])) =
    bs "<Tracker http://t/> replied with warning in response to ""a\nb"" (abababababababababababababababababababab) announcement: ""x\u{1b}[31m\u{9b}" ++ utf8 [233] ++ bs """" /\
  local_parts (LWarning (bs "http://t/") ex_subject (bs "x")) = [bs "http://t/"] /\ clean (bs "http://t/").
Proof.
  split; [|split; [vm_compute; reflexivity|split; [reflexivity|apply lit_clean; reflexivity]]]. intros c C. apply N.leb_gt. unfold control in C. lia.
Qed.

(** The name of the file is the exception: no line break, no escape character... *)
Theorem C110_saving_partial : forall plain s ts t name h data r, (forall c, control c -> plain c = false) ->
  reads s ts -> parse_template s = Ret (Ok t) -> bencoded_dict data -> one_line s ->
  saving_record name (mkTI h data) t = Ret (Some r) -> one_line (record_text plain r).
Proof. exact saving_one_line. Qed.
Print Assumptions C110_saving_partial.
Example C110_saving_nonvacuous : exists ts t r, reads (bs "{name}.torrent") ts /\ parse_template (bs "{name}.torrent") = Ret (Ok t) /\
  bencoded_dict (bs "d4:name3:a" ++ [x0a] ++ bs "be") /\ saving_record None (mkTI (repeat xab 20) (bs "d4:name3:a" ++ [x0a] ++ bs "be")) t = Ret (Some r) /\
  record_text ex_plain r = bs "Saving torrent for info hash abababababababababababababababababababab to file a_b.torrent".
Proof.
  eexists _, _, _. split; [apply (reads_name (bs ".torrent")); repeat (apply reads_char; [discriminate|intros [D _]; discriminate D|]); apply reads_nil|].
  split; [vm_compute; reflexivity|]. split; [|split; [vm_compute; reflexivity|vm_compute; reflexivity]].
  apply check_bencode_dict_iff. vm_compute. reflexivity.
Qed.
(** ... but DEL and the C1 controls of the metadata's name go through; U+009B starts an escape
    sequence on some terminals. *)
Theorem C110_saving_refuted : exists data t, bencoded_dict data /\ parse_template (bs "{name}.torrent") = Ret (Ok t) /\
  forall plain, exists r, saving_record None (mkTI (repeat xab 20) data) t = Ret (Some r) /\ ~ clean (record_text plain r).
Proof. exact saving_not_clean. Qed.
Print Assumptions C110_saving_refuted.

(** The text of bendy's errors takes several lines, so that a tracker's answer can break the line. *)
Theorem C110_one_line_refuted : exists body message context,
  http_result (RResponse 200 (Some body)) = Err (TEHttp HEParse) /\
  forall plain, ~ one_line (record_text plain (LTrackerError [bendy_text message context] (Some (TEHttp HEParse)))).
Proof. exact bendy_breaks. Qed.
Print Assumptions C110_one_line_refuted.

(** C111: the record of a message from a peer tells the peer and the message, but for the
    contents listed at [same_msg] *)
Theorem C111_received_messages : forall plain p a q b, wf_sa p -> wf_sa q -> readable a -> readable b ->
  (record_text plain (LReceived p a) = record_text plain (LReceived q b) <-> p = q /\ same_msg a b).
Proof. exact received_iff. Qed.
Print Assumptions C111_received_messages.
(** which covers every message that is accepted: *)
Theorem C111_messages_readable : forall buf r m, msg_decode buf r = Ok m -> readable m.
Proof. exact decode_readable. Qed.
Print Assumptions C111_messages_readable.
Example C111_received_nonvacuous : exists m, msg_decode (x14 :: x00 :: bs "d1:md11:ut_metadatai3ee1:v3:a" ++ [x22] ++ bs "be") reg_new = Ok m /\
  record_text ex_plain (LReceived ex_peer m) =
    bs "<Peer 192.168.1.1:6881> sent message: extended handshake: extensions: ""ut_metadata""; client: ""a\""b""" /\ wf_sa ex_peer.
Proof. eexists. split; [vm_compute; reflexivity|]. split; [vm_compute; reflexivity|]. split; reflexivity. Qed.

(** Handshakes: everything but the info hash, which has been compared *)
Theorem C111_handshakes : forall plain p g q h, wf_sa p -> wf_sa q ->
  (record_text plain (LShake p g) = record_text plain (LShake q h) <-> p = q /\ hs_ext g = hs_ext h /\ hs_pid g = hs_pid h).
Proof. exact shake_iff. Qed.
Print Assumptions C111_handshakes.
Example C111_handshakes_nonvacuous :
  record_text ex_plain (LShake ex_peer (mkHS 9223372036855824389 [] (bs "-TR3000-" ++ repeat xff 2))) =
    bs "<Peer 192.168.1.1:6881> sent handshake (extensions: Azureus Messaging Protocol, BEP 10 Extension Protocol, BitTorrent DHT, Fast Extension; peer ID: b""-TR3000-\xff\xff"")" /\
  record_text ex_plain (LShake ex_peer (mkHS 64 [] [])) = bs "<Peer 192.168.1.1:6881> sent handshake (extensions: Unknown(0x0000000000000040); peer ID: b"""")".
Proof. vm_compute. auto. Qed.

(** Quoted texts: a tracker's warning, its failure message, a DHT node's error message *)
Theorem C111_quoted_texts : forall plain u s src src' i n e f a b, is_text a -> is_text b -> is_text (er_message e) -> is_text (er_message f) ->
  (record_text plain (LWarning u s a) = record_text plain (LWarning u s b) <-> a = b) /\
  (record_text plain (LTrackerFailed u s src (Some (TEFailure a))) = record_text plain (LTrackerFailed u s src' (Some (TEFailure b))) <-> a = b) /\
  (record_text plain (LNodeError i n e) = record_text plain (LNodeError i n f) <-> er_code e = er_code f /\ er_message e = er_message f).
Proof. exact quoted_iff. Qed.
Print Assumptions C111_quoted_texts.
Example C111_quoted_nonvacuous :
  is_text (bs "x" ++ utf8 [155; 233]) /\
  record_text ex_plain (LNodeError None ex_peer (mkER [] None (EOther 300) (bs "a: ""b""") None)) =
    bs "DHT node at 192.168.1.1:6881 replied with error message: other error: code 300: ""a: \""b\""""".
Proof. split; [|vm_compute; reflexivity]. exists [120; 155; 233]. split; [|reflexivity]. repeat constructor; unfold scalar; lia. Qed.

(** The peers a tracker has named *)
Theorem C111_peers : forall plain u s l k, Forall wf_sa l -> Forall wf_sa k ->
  (record_text plain (LPeers u s l) = record_text plain (LPeers u s k) <-> l = k).
Proof. exact peers_iff. Qed.
Print Assumptions C111_peers.
Example C111_peers_nonvacuous : Forall wf_sa [ex_peer; mkSA (V6 1) 80] /\
  record_text ex_plain (LPeers (bs "udp://t:1/") (mkSubject None (repeat xab 20)) [ex_peer; mkSA (V6 1) 80]) =
    bs "<Tracker udp://t:1/> returned peers for abababababababababababababababababababab: <Peer 192.168.1.1:6881>, <Peer [::1]:80>" /\
  record_text ex_plain (LPeers (bs "udp://t:1/") (mkSubject None (repeat xab 20)) []) =
    bs "<Tracker udp://t:1/> returned peers for abababababababababababababababababababab: <none>".
Proof. split; [|vm_compute; auto]. repeat constructor. Qed.

(** The reason why a peer was given up: its first words tell the kind of failure... *)
Theorem C111_reason_kinds_partial : forall plain d d' e e', ~ connection_lost (d_hs d) -> ~ connection_lost (d_hs d') ->
  hd [] (peer_chain plain d e) = hd [] (peer_chain plain d' e') -> kind e = kind e'.
Proof. exact reason_kind. Qed.
Print Assumptions C111_reason_kinds_partial.
Example C111_reason_nonvacuous : ~ connection_lost VcNotZero /\
  record_text ex_plain (LPeerFailed (mkSubject None (repeat xab 20)) ex_peer (mkDetails VcNotZero [] [] []) (EMessage (MLength x05 Long))) =
    bs "Failed to fetch info for abababababababababababababababababababab from <Peer 192.168.1.1:6881>: peer sent invalid message: message type  0x5 had invalid length: packet had trailing bytes" /\
  hd [] (peer_chain ex_plain (mkDetails VcNotZero [] [] []) (WrongPiece 1 2)) <> hd [] (peer_chain ex_plain (mkDetails VcNotZero [] [] []) (InfoRequestRejected 1)).
Proof. split; [intros [H|[H|H]]; discriminate H|]. split; [vm_compute; reflexivity|vm_compute; discriminate]. Qed.
(** ... except that a connection lost during the encryption handshake reads like one lost later. *)
Theorem C111_reason_kinds_refuted : exists d e e', kind e <> kind e' /\ forall plain, chain (peer_chain plain d e) = chain (peer_chain plain d e').
Proof. exact reasons_coincide. Qed.
Print Assumptions C111_reason_kinds_refuted.
