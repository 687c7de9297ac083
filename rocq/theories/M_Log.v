(** What is written to the log: the Display and Debug implementations of /repo, the texts of
    its errors, and the records whose text depends on what a peer, a tracker or a DHT node has
    sent.  Not modelled: which records are written when; the time, level and colours that
    src/main.rs:385-411 puts around a record's text. *)
From Verif Require Import Base S_Utf8 M_Utf8 M_Net M_Util M_Types M_Bencode M_Torrent M_Extensions M_Messages M_Peer M_Session M_Tracker M_SockText M_Udp M_Http M_Announce M_Mse M_DhtMsg M_Save.

(** format {:0w$x} *)
Definition hexw (w : nat) (n : N) : bytes := let h := hex n in repeat "0"%byte (w - length h) ++ h.
(** format {:x} of a byte string *)
Definition lower_hex (s : bytes) : bytes := flat_map (fun b => hexw 2 (b2n b)) s.
Definition hex0x (n : N) : bytes := bs "0x" ++ hex n.
Definition dq : bytes := [n2b 34].

Section Log.
(** The characters above U+007F that Rust prints as they are: char::is_printable and not
    Grapheme_Extend (tables of the Rust standard library) *)
Variable plain : N -> bool.

(** char::escape_debug_ext, as used by Debug for str *)
Definition esc_char (c : N) : bytes :=
  if c =? 0 then bs "\0"
  else if c =? 9 then bs "\t"
  else if c =? 13 then bs "\r"
  else if c =? 10 then bs "\n"
  else if c =? 34 then bs "\" ++ dq
  else if c =? 92 then bs "\\"
  else if c <? 128 then (if (32 <=? c) && (c <=? 126) then [n2b c] else bs "\u{" ++ hex c ++ bs "}")
  else if plain c then utf8_char c
  else bs "\u{" ++ hex c ++ bs "}".
(** Debug for str ([s]: UTF-8) *)
Definition debug_str (s : bytes) : bytes := dq ++ flat_map esc_char (lossy_chars s) ++ dq.

(** Debug for Bytes (crate bytes) *)
Definition esc_byte (b : byte) : bytes :=
  let n := b2n b in
  if n =? 10 then bs "\n"
  else if n =? 13 then bs "\r"
  else if n =? 9 then bs "\t"
  else if (n =? 92) || (n =? 34) then bs "\" ++ [b]
  else if n =? 0 then bs "\0"
  else if (32 <=? n) && (n <? 127) then [b]
  else bs "\x" ++ hexw 2 n.
Definition debug_bytes (s : bytes) : bytes := bs "b" ++ dq ++ flat_map esc_byte s ++ dq.

(** src/util.rs:7-27 comma_list; also the loops of src/peer/extensions.rs:54-73 and
    src/peer/messages.rs:519-528 *)
Fixpoint commas (l : list bytes) : bytes :=
  match l with [] => [] | [x] => x | x :: r => x ++ bs ", " ++ commas r end.
Definition comma_list (l : list bytes) : bytes := match l with [] => bs "<none>" | _ => commas l end.
(** src/util.rs:158-170 ErrorChain: the error and its sources *)
Fixpoint chain (l : list bytes) : bytes :=
  match l with [] => [] | [x] => x | x :: r => x ++ bs ": " ++ chain r end.

(** src/peer/extensions.rs:27-41 Display for Extension *)
Definition show_ext (e : extension) : bytes :=
  match e with
  | AzureusMessaging => bs "Azureus Messaging Protocol"
  | LocationAware => bs "BitTorrent Location-aware Protocol"
  | Bep10 => bs "BEP 10 Extension Protocol"
  | Dht => bs "BitTorrent DHT"
  | XbtPex => bs "XBT Peer Exchange"
  | Fast => bs "Fast Extension"
  | NatTraversal => bs "NAT Traversal"
  | HybridV2 => bs "hybrid torrent legacy to v2 upgrade"
  end.
(** src/peer/extensions.rs:52-76 Display for ExtensionSet *)
Definition unknown_bits (s : N) : N := fold_left (fun v e => N.ldiff v (ext_bit e)) all_extensions s.
Definition show_exts (s : N) : bytes :=
  comma_list (map show_ext (filter (ext_has s) all_extensions) ++
    (if unknown_bits s =? 0 then [] else [bs "Unknown(0x" ++ hexw 16 (unknown_bits s) ++ bs ")"])).
(** src/types.rs:149-153 Display for PeerId; src/peer/messages.rs:38-46 Display for Handshake *)
Definition show_shake (h : M_Messages.handshake) : bytes :=
  bs "handshake (extensions: " ++ show_exts (hs_ext h) ++ bs "; peer ID: " ++ debug_bytes (hs_pid h) ++ bs ")".

Definition count_ones (b : byte) : N := N.of_nat (length (filter (N.testbit (b2n b)) [0; 1; 2; 3; 4; 5; 6; 7])).
Definition ones (s : bytes) : N := fold_left (fun n b => n + count_ones b) s 0.
(** src/peer/messages.rs:189-232 Display for CoreMessage *)
Definition show_core (m : core_msg) : bytes :=
  let triple i b l := bs "index " ++ dec i ++ bs ", begin " ++ dec b ++ bs ", length " ++ dec l in
  match m with
  | Keepalive => bs "keepalive"
  | Choke => bs "choke"
  | Unchoke => bs "unchoke"
  | Interested => bs "interested"
  | NotInterested => bs "not interested"
  | Have p => bs "have: piece " ++ dec p
  | Bitfield b => bs "bitfield: have " ++ dec (ones b) ++ bs " pieces"
  | Request i b l => bs "request: " ++ triple i b l
  | Piece i b d => bs "piece: " ++ triple i b (blen d)
  | Cancel i b l => bs "cancel: " ++ triple i b l
  | Port p => bs "DHT port: " ++ dec p
  | Suggest i => bs "suggest: piece " ++ dec i
  | HaveAll => bs "have all"
  | HaveNone => bs "have none"
  | Reject i b l => bs "reject: " ++ triple i b l
  | AllowedFast i => bs "allowed fast: piece " ++ dec i
  | Extended id _ => bs "extended message (message ID " ++ dec id ++ bs ")"
  end.
(** src/peer/messages.rs:515-551 Display for ExtendedHandshake *)
Definition show_eh (h : ext_handshake) : bytes :=
  bs "extended handshake: "
  ++ match eh_m h with
     | Some m => bs "extensions: " ++ comma_list (map (fun kc => debug_str (fst kc)) m)
     | None => bs "no extensions"
     end
  ++ match eh_e h with
     | Some true => bs "; prefers encryption"
     | Some false => bs "; does not prefer encryption"
     | None => []
     end
  ++ match eh_v h with Some v => bs "; client: " ++ debug_str v | None => [] end
  ++ match eh_size h with Some n => bs "; metadata size: " ++ dec n | None => [] end
  ++ match eh_yourip h with Some i => bs "; yourip: " ++ show_ip i | None => [] end.
(** src/peer/messages.rs:661-680 Display for MetadataMessage *)
Definition show_meta (m : metadata_msg) : bytes :=
  match m with
  | MRequest p => bs "metadata request: piece " ++ dec p
  | MData p t d => bs "metadata data: piece " ++ dec p ++ bs ", total size " ++ dec t ++ bs ", payload size " ++ dec (blen d)
  | MReject p => bs "metadata reject: piece " ++ dec p
  | MUnknownType t => bs "metadata: unknown message type " ++ dec t
  end.
(** src/peer/messages.rs:122-129, 488-495 Display for Message, ExtendedMessage *)
Definition show_msg (m : message) : bytes :=
  match m with Core m => show_core m | ExtHandshake h => show_eh h | Meta m => show_meta m end.

(** ** Errors: the text of the error and those of its sources (thiserror; a transparent error
    has its inner error's text and sources) *)
(** Sources that are library errors (I/O, bendy, reqwest): their texts, from the outermost in *)
Definition foreign := list bytes.

(** src/util.rs:126-132 PacketError *)
Definition packet_text (e : packet_error) : bytes :=
  match e with Short => bs "unexpected end of packet" | Long => bs "packet had trailing bytes" end.
(** src/peer/msepe.rs:355-373 HandshakeError *)
Definition method_text (m : crypto_method) : bytes := match m with CPlaintext => bs "Plaintext" | CRc4 => bs "Rc4" end.
Definition hs_chain (src : foreign) (e : hs_error) : list bytes :=
  match e with
  | Packet2Len n => [bs "initial crypto handshake packet from server had invalid length: " ++ dec n ++ bs " bytes"]
  | VcNotZero => [bs "received invalid verification constant in crypto handshake"]
  | SelectNotSingle n => [bs "server selected " ++ dec n ++ bs " crypto methods instead of exactly 1"]
  | UnknownMethod n => [bs "server selected unknown crypto method " ++ hex0x n]
  | UnexpectedSelection m => [bs "server selected crypto method " ++ method_text m ++ bs " even though we didn't ask for it"]
  | HSend => bs "error sending message to peer" :: src
  | HRecv => bs "error receiving message from peer" :: src
  | HDisconnect => [bs "peer suddenly disconnected"]
  end.
(** src/peer/messages.rs:805-817 MessageError ({:#4x} pads with a blank) *)
Definition message_chain (src : foreign) (e : message_error) : list bytes :=
  match e with
  | MUnknown t => [bs "unknown message type: " ++ dec (b2n t)]
  | MLength t e => [bs "message type " ++ (if b2n t <? 16 then bs " " else []) ++ hex0x (b2n t) ++ bs " had invalid length"; packet_text e]
  | MUnknownExtended id => [bs "unknown extended message ID: " ++ dec id]
  | MExtHandshake => bs "failed to decode extended handshake payload" :: src
  | MMetadata => bs "failed to decode metadata message" :: src
  end.
(** src/peer/messages.rs:80-86 HandshakeError *)
Definition shake_chain (e : handshake_error) : list bytes :=
  match e with
  | InvalidHeader => [bs "peer sent handshake with invalid header"]
  | HSLength e => [bs "peer sent handshake with invalid length"; packet_text e]
  end.
(** src/peer/extensions.rs:209-217 Bep10RegistryError *)
Definition registry_text (e : registry_error) : bytes :=
  match e with
  | RHandshake => bs "extended message ID 0 listed in " ++ dq ++ bs "m" ++ dq
  | RCode c => bs "extended message ID " ++ dec c ++ bs " listed in " ++ dq ++ bs "m" ++ dq ++ bs " more than once"
  | RExt e => bs "extension " ++ ext_name e ++ bs " listed in " ++ dq ++ bs "m" ++ dq ++ bs " more than once"
  end.
(** src/torrent.rs:368-405 ConstructError, PushError, BuildError, BencodeDictError *)
Definition construct_text (e : construct_error) : bytes :=
  match e with TooLarge n => bs "metadata size of " ++ dec n ++ bs " exceeds " ++ dec MAX_INFO_LENGTH ++ bs " limit" end.
Definition push_text (e : push_error) : bytes :=
  match e with
  | TooManyPieces => bs "too many metadata pieces fetched"
  | PushLength i e g => bs "wrong length for metadata piece " ++ dec i ++ bs ": expected " ++ dec e ++ bs ", got " ++ dec g
  end.
Definition dict_text (e : dict_error) : bytes :=
  match e with
  | DSyntax => bs "data is not valid bencode"
  | DNotADict => bs "data is not a bencode dict"
  | DEmpty => bs "data is empty"
  | DTrailing => bs "data has trailing bytes after bencode dict"
  end.
(** [expected], [digest]: the torrent's info hash and the hash of what was received *)
Definition build_text (expected digest : bytes) (e : build_error) : bytes :=
  match e with
  | BBencode e => dict_text e
  | NotFinished n => bs "not all metadata pieces fetched; " ++ dec n ++ bs " remaining"
  | Digest => bs "info hash mismatch: expected " ++ show_info_hash expected ++ bs ", got " ++ lower_hex digest
  end.
(** What M_Peer.peer_error does not record: the encryption handshake's error, the expected
    info hash, the hash found, and the library errors *)
Record details := mkDetails { d_hs : hs_error; d_expected : bytes; d_digest : bytes; d_src : foreign }.
(** src/peer/mod.rs:430-478 PeerError *)
Definition peer_chain (d : details) (e : peer_error) : list bytes :=
  match e with
  | CantRequireCrypto => [bs "peer requires encryption, but encryption is disabled"]
  | EConnect => bs "could not connect to peer" :: d_src d
  | ConnectTimeout => [bs "timed out trying to connect to peer and complete handshake"]
  | ESend => bs "error sending message to peer" :: d_src d
  | ERecv => bs "error receiving message from peer" :: d_src d
  | InfoHashMismatch got => [bs "peer sent wrong info hash in handshake; expected " ++ show_info_hash (d_expected d) ++ bs ", got " ++ show_info_hash got]
  | NoBep10 => [bs "peer does not support BEP 10 extensions"]
  | NoExtendedHandshake => [bs "peer did not send extended handshake"]
  | NoMetadataExt => [bs "peer does not support sending metadata"]
  | Disconnect => [bs "peer suddenly disconnected"]
  | EHandshake e => shake_chain e
  | ECryptoHandshake => hs_chain (d_src d) (d_hs d)
  | EMessage e => bs "peer sent invalid message" :: message_chain (d_src d) e
  | ERegistry e => [bs "peer sent extended handshake with inconsistent " ++ dq ++ bs "m" ++ dq ++ bs " dict"; registry_text e]
  | NoMetadataSize => [bs "peer did not report info size in extended handshake"]
  | InfoConstruct e => [construct_text e]
  | InfoPush e => [push_text e]
  | InfoBuild e => [bs "peer sent invalid torrent metadata"; build_text (d_expected d) (d_digest d) e]
  | SizeMismatch h x => [bs "peer declared total metadata size as " ++ dec h ++ bs " in extended handshake but as " ++ dec x ++ bs " in metadata data message"]
  | WrongPiece e g => [bs "request for metadata piece " ++ dec e ++ bs " was replied to with message for piece " ++ dec g]
  | InfoRequestRejected p => [bs "request for metadata piece " ++ dec p ++ bs " was rejected"]
  | Unexpected m => [bs "peer sent unexpected message: " ++ show_msg m]
  end.

(** src/tracker/udp.rs:441-466 UdpTrackerError *)
Definition udp_chain (src : foreign) (e : udp_error) : list bytes :=
  match e with
  | ULookup => bs "failed to resolve remote hostname" :: src
  | UNoResolve => [bs "remote hostname did not resolve to any IP addresses"]
  | UBind => bs "failed to bind UDP socket" :: src
  | UConnect => bs "failed to connect UDP socket" :: src
  | USend => bs "failed to send UDP packet" :: src
  | URecv => bs "failed to receive UDP packet" :: src
  | UPacketLen e => [bs "UDP tracker sent response with invalid length"; packet_text e]
  | UBadAction e g => [bs "UDP tracker sent response with unexpected or unsupported action; expected " ++ dec e ++ bs ", got " ++ dec g]
  | UXactionMismatch e g => [bs "response from UDP tracker did not contain expected transaction ID; expected " ++ hex0x e ++ bs ", got " ++ hex0x g]
  | UFailure msg => [bs "tracker replied with error message " ++ debug_str msg]
  end.
(** src/tracker/http.rs:215-227 HttpTrackerError *)
Definition http_chain (src : foreign) (e : http_error) : list bytes :=
  match e with
  | HEClient => bs "failed to build HTTP client" :: src
  | HESend => bs "failed to send request to HTTP tracker" :: src
  | HEStatus _ => bs "HTTP tracker responded with HTTP error" :: src
  | HEBody => bs "failed to read HTTP tracker response" :: src
  | HEParse => bs "failed to parse HTTP tracker response" :: src
  end.
(** src/tracker/mod.rs:235-245 TrackerError ([None]: Timeout; a panic has no text here) *)
Definition tracker_chain (src : foreign) (e : option tracker_error) : list bytes :=
  match e with
  | None => [bs "interactions with tracker did not complete in time"]
  | Some (TEFailure msg) => [bs "tracker replied with error message " ++ debug_str msg]
  | Some (TEHttp e) => http_chain src e
  | Some (TEUdp e) => udp_chain src e
  | Some TEPanic => []
  end.

(** src/dht/messages.rs:249-259, 170-174 Display for ErrorCode, ErrorResponse *)
Definition show_code (c : error_code) : bytes :=
  match c with
  | EGeneric => bs "generic error"
  | EServer => bs "server error"
  | EProtocol => bs "protocol error"
  | EMethodUnknown => bs "method unknown error"
  | EOther n => bs "other error: code " ++ dec n
  end.
Definition show_rpc_error (e : error_response) : bytes := show_code (er_code e) ++ bs ": " ++ debug_str (er_message e).
(** src/dht/messages.rs:382-390 ResponseError *)
Definition response_chain (src : foreign) (e : response_error) : list bytes :=
  match e with
  | RBencode => bs "failed to decode DHT RPC packet" :: src
  | RRpc e => [bs "remote DHT node replied with error"; show_rpc_error e]
  | RQuery => [bs "failed to decode response from packet: is actually a query"]
  end.

(** ** Records *)
(** src/peer/mod.rs:77-81 Display for Peer *)
Definition show_peer (a : sockaddr) : bytes := bs "<Peer " ++ show_sockaddr a ++ bs ">".
(** src/magnet.rs:154-162 Display for Magnet; an InfoHash is shown without a name *)
Definition show_subject (dn : option bytes) (ih : bytes) : bytes :=
  match dn with Some n => debug_str n ++ bs " (" ++ show_info_hash ih ++ bs ")" | None => show_info_hash ih end.
(** src/tracker/http.rs:41-45, src/tracker/udp.rs:34-38 Display for the trackers; [u]: the URL's text *)
Definition show_tracker (u : bytes) : bytes := bs "<Tracker " ++ u ++ bs ">".
(** src/dht/mod.rs:97-101 Display for Node, src/dht/actor.rs:817-824 Display for NodeDisplay *)
Definition show_node (id : option bytes) (a : sockaddr) : bytes :=
  match id with Some i => bs "DHT node " ++ show_info_hash i ++ bs " at " ++ show_sockaddr a | None => bs "DHT node at " ++ show_sockaddr a end.

(** What is logged is about a torrent: a magnet link's name, if any, and the info hash *)
Record subject := mkSubject { s_name : option bytes; s_hash : bytes }.
Inductive record :=
| LShake (p : sockaddr) (h : M_Messages.handshake)  (* src/peer/mod.rs:250 *)
| LReceived (p : sockaddr) (m : message)  (* src/peer/mod.rs:346 *)
| LSending (p : sockaddr) (m : message)  (* src/peer/mod.rs:333 *)
| LRejecting (p : sockaddr) (piece : N)  (* src/peer/mod.rs:406-409 *)
| LSelected (p : sockaddr) (m : crypto_method)  (* src/peer/msepe.rs:174 *)
| LFallback (p : sockaddr) (d : details)  (* src/peer/mod.rs:196-200 *)
| LPeerFailed (s : subject) (p : sockaddr) (d : details) (e : peer_error)  (* src/magnet.rs:94-99 *)
| LPeerError (d : details) (e : peer_error)  (* src/main.rs:371 *)
| LMetadata (s : subject) (p : sockaddr)  (* src/peer/mod.rs:421-425 *)
| LCount (url : bytes) (s : subject) (peers : list sockaddr)  (* src/tracker/mod.rs:79 *)
| LPeers (url : bytes) (s : subject) (peers : list sockaddr)  (* src/tracker/mod.rs:80-83 *)
| LWarning (url : bytes) (s : subject) (msg : bytes)  (* src/tracker/mod.rs:212-217 *)
| LTrackerFailed (url : bytes) (s : subject) (src : foreign) (e : option tracker_error)  (* src/magnet.rs:56-59 *)
| LTrackerError (src : foreign) (e : option tracker_error)  (* src/main.rs:314 *)
| LStopFailed (url : bytes) (s : subject) (src : foreign) (e : option tracker_error)  (* src/tracker/mod.rs:89-92 *)
| LNodeReply (id : option bytes) (a : sockaddr) (peers nodes : nat) (ih : bytes)  (* src/dht/actor.rs:453-458 *)
| LNodeError (id : option bytes) (a : sockaddr) (e : error_response)  (* src/dht/actor.rs:474 *)
| LNodeInvalid (id : option bytes) (a : sockaddr) (src : foreign) (e : response_error)  (* src/dht/actor.rs:476 *)
| LSaving (s : subject) (path : bytes).  (* src/torrent.rs:163-167 *)

Definition subj (s : subject) : bytes := show_subject (s_name s) (s_hash s).
Definition record_text (r : record) : bytes :=
  match r with
  | LShake p h => show_peer p ++ bs " sent " ++ show_shake h
  | LReceived p m => show_peer p ++ bs " sent message: " ++ show_msg m
  | LSending p m => bs "Sending to " ++ show_peer p ++ bs ": " ++ show_msg m
  | LRejecting p i => bs "Rejecting request for metadata info piece " ++ dec i ++ bs " from " ++ show_peer p
  | LSelected p m => show_peer p ++ bs " selected encryption method " ++ method_text m
  | LFallback p d => bs "Encryption handshake with " ++ show_peer p ++ bs " failed: " ++ chain (peer_chain d ECryptoHandshake) ++ bs "; will try unencrypted connection"
  | LPeerFailed s p d e => bs "Failed to fetch info for " ++ subj s ++ bs " from " ++ show_peer p ++ bs ": " ++ chain (peer_chain d e)
  | LPeerError d e => bs "Failed to fetch info from peer: " ++ chain (peer_chain d e)
  | LMetadata s p => bs "Metadata for " ++ subj s ++ bs " received from " ++ show_peer p
  | LCount u s l => show_tracker u ++ bs " returned " ++ dec (N.of_nat (length l)) ++ bs " peers for " ++ subj s
  | LPeers u s l => show_tracker u ++ bs " returned peers for " ++ subj s ++ bs ": " ++ comma_list (map show_peer l)
  | LWarning u s msg => show_tracker u ++ bs " replied with warning in response to " ++ subj s ++ bs " announcement: " ++ debug_str msg
  | LTrackerFailed u s src e => bs "Error communicating with " ++ show_tracker u ++ bs " for " ++ subj s ++ bs ": " ++ chain (tracker_chain src e)
  | LTrackerError src e => bs "Error communicating with tracker: " ++ chain (tracker_chain src e)
  | LStopFailed u s src e => bs "failure sending " ++ dq ++ bs "stopped" ++ dq ++ bs " announcement to " ++ show_tracker u ++ bs " for " ++ subj s ++ bs ": " ++ chain (tracker_chain src e)
  | LNodeReply id a n k ih => show_node id a ++ bs " replied with " ++ dec (N.of_nat n) ++ bs " peer(s) and " ++ dec (N.of_nat k) ++ bs " node(s) for info hash " ++ show_info_hash ih
  | LNodeError id a e => show_node id a ++ bs " replied with error message: " ++ show_rpc_error e
  | LNodeInvalid id a src e => show_node id a ++ bs " sent invalid reply message: " ++ chain (response_chain src e)
  | LSaving s path => bs "Saving torrent for info hash " ++ subj s ++ bs " to file " ++ path
  end.
End Log.
(** bendy's Display for an error with a context, as the test of src/tracker/http.rs:357-370
    shows it *)
Definition bendy_text (msg context : bytes) : bytes := msg ++ [x0a] ++ bs "in context:" ++ [x0a; x09] ++ context.
(** The record of src/torrent.rs:156-168 for metadata that has arrived, unless it is written to
    standard output *)
Definition saving_record (name : option bytes) (info : torrent_info) (template : list M_Template.elem) : outcome (option record) :=
  match save_dest info template with
  | Panic => Panic
  | Ret Stdout => Ret None
  | Ret (Path p) => Ret (Some (LSaving (mkSubject name (ti_hash info)) p))
  end.
