#!/usr/bin/env python3
"""Source of properties.jsonl: edit here, run `python3 tools/props.py`."""
import json, os
P = []
def p(id, title, statement, quantifier, why, *anchors):
    P.append(dict(id=id, title=title, statement=statement, quantifier=quantifier,
                  why_tests_cant=why, anchors=list(anchors)))

# --- metadata download -------------------------------------------------
p("C01", "Downloaded metadata is authentic",
  "Whenever fetching metadata from a peer succeeds, the returned info bytes have SHA-1 digest equal to the requested info hash, have exactly the length the peer declared, and are one well-formed bencoded dictionary with nothing after it.",
  "every info hash, every declared size, every sequence of messages a (possibly malicious) peer can send",
  "the peer chooses the message sequence; a test tries a handful of scripts",
  "src/peer/mod.rs: PeerConnection::get_metadata_info", "src/torrent.rs: TorrentInfoBuilder")
p("C02", "Metadata requests are sequential and bounded",
  "Against any peer the client requests metadata pieces 0,1,2,... in order, each at most once, never piece i+1 before piece i was received intact, and never a piece at or beyond ceil(size/16384); the only other messages it sends are one rejection per metadata request the peer makes.",
  "every declared size and every sequence of incoming messages",
  "holds over all interleavings of peer messages, not over recorded scripts",
  "src/peer/mod.rs: PeerConnection::get_metadata_info", "src/torrent.rs: TorrentInfoBuilder::next_piece")
p("C03", "An honest peer is always enough",
  "If a peer answers each request with the right slice of a bencoded dictionary whose SHA-1 is the requested hash and whose size is 1 byte to 20 MiB, interleaving any number of ignorable messages, unknown metadata messages and metadata requests of its own, the fetch succeeds and returns exactly that dictionary.",
  "every info dictionary up to 20 MiB, every interleaving of ignorable traffic",
  "all sizes (incl. exact multiples of 16 KiB) and all interleavings",
  "src/peer/mod.rs: PeerConnection::get_metadata_info", "src/torrent.rs: TorrentInfoBuilder")
p("C04", "The 20 MiB cap is enforced before anything is requested",
  "A declared metadata size above 20 MiB is refused without any request being sent, and at no point do the buffered metadata bytes exceed the declared size.",
  "every declared u32 size and every message sequence",
  "memory safety against hostile peers over all executions",
  "src/torrent.rs: TorrentInfoBuilder::new", "src/consts.rs: MAX_INFO_LENGTH")
p("C05", "Piece assembly never panics and never yields unverified data",
  "For any sequence of piece deliveries (wrong sizes, too many, after errors), assembly returns a value or an error and never indexes out of bounds, and it only ever yields data that hashes to the requested info hash.",
  "every sequence of builder calls including calls after a failed call",
  "unbounded call histories",
  "src/torrent.rs: TorrentInfoBuilder")
p("C06", "Reading the torrent name never panics",
  "For every successfully assembled info dictionary, asking for its name does not panic; it returns the (lossily decoded) value of the first 'name' key if that is a string, and nothing otherwise.",
  "every info dictionary accepted by assembly, whatever else it contains",
  "the dictionary is peer-controlled; the panic branches must be unreachable for all of them",
  "src/torrent.rs: TorrentInfo::name")
p("C07", "The bencode dictionary check is exact",
  "The check applied to downloaded metadata accepts a byte string exactly when it is the canonical bencoding of a dictionary (keys strictly ascending, minimal integers and lengths, nesting within the limit) with no trailing bytes.",
  "all byte strings",
  "infinitely many inputs; exactness needs both directions",
  "src/torrent.rs: check_bencode_dict")
p("C08", "The .torrent file embeds the metadata verbatim",
  "The bytes written for a torrent are the canonical bencoding of a dictionary with strictly ascending keys whose 'info' value is, byte for byte, the downloaded metadata, so that the SHA-1 of that slice is the magnet's info hash; the file decodes back to exactly the trackers, creator, date and nodes supplied.",
  "every downloaded info dictionary, tracker list, node list and timestamp",
  "all contents of the info dictionary and lists",
  "src/torrent.rs: TorrentFile, From<TorrentFile> for Bytes, put_kv")
p("C09", "Trackers and nodes keep their order",
  "The written file lists the magnet's trackers in the magnet's order, one per tier, omits the list when there are none, and likewise lists the DHT nodes in order and omits them when there are none.",
  "every list of trackers and nodes", "arbitrary list lengths and contents",
  "src/torrent.rs: From<TorrentFile> for Bytes")

# --- output paths --------------------------------------------------------
p("C10", "Path templates mean what the documentation says",
  "A template string parses iff every '{' that is not part of '{{' opens '{name}' or '{hash}'; parsing then expanding replaces '{{' by '{', '}}' by '}', the placeholders by the given values, and leaves every other character alone; otherwise the error names the offending placeholder or the byte offset of the brace.",
  "every template string, every name and hash", "all strings; the parser is index-based and easy to get wrong at edges",
  "src/torrent.rs: PathTemplate::from_str, PathTemplate::format")
p("C11", "Escaping braces is lossless",
  "Doubling every brace of an arbitrary string gives a template that always parses and always expands to the original string.",
  "every string", "all strings", "src/torrent.rs: PathTemplate")
p("C12", "{hash} templates never collide",
  "If a template contains {hash}, two torrents with different info hashes are written to different paths, whatever their names.",
  "every template containing {hash}, every pair of names and hashes", "quantifies over attacker-chosen names",
  "src/torrent.rs: PathTemplate::format, TorrentFile::save")
p("C13", "Torrent names are sanitized",
  "The name inserted into a path contains no path separator, no control character below space and none of < > : | \" ? *; it has as many characters as the original, differs only at those characters (which become '_'), and sanitizing again changes nothing.",
  "every name string", "all strings", "src/torrent.rs: sanitize")
p("C14", "A torrent name cannot redirect the output path",
  "Expanding a template with a sanitized name cannot leave the directory the template points to, nor redirect the output to standard output.",
  "every template and every name", "attacker-chosen names in all template positions",
  "src/torrent.rs: TorrentFile::save, sanitize")
p("C15", "Batch results do not overwrite each other",
  "In a batch, distinct magnets that are reported as saved end up in distinct files.",
  "every batch and every set of torrent names", "depends on peer-provided names",
  "src/main.rs: Command::run (Batch)", "src/torrent.rs: TorrentFile::save")
p("C16", "Saving is crash-atomic",
  "If the process dies at any point while saving, the output path holds either its previous contents or the complete new file.",
  "every crash point during a save", "crash points",
  "src/torrent.rs: TorrentFile::save")

# --- textual inputs ---------------------------------------------------------
p("C17", "Info hashes survive printing and parsing",
  "Printing any info hash and parsing the text gives the same info hash; the text is always 40 lowercase hex digits.",
  "all 2^160 info hashes", "too many values", "src/types.rs: InfoHash Display, FromStr")
p("C18", "Info hash parsing accepts exactly the two documented forms",
  "A string parses as an info hash iff it is 40 hex digits (either case) or 32 characters of the RFC 4648 base32 alphabet; anything else is an error, never a panic or a truncated hash.",
  "all strings", "exactness over all strings, including padding characters and non-ASCII",
  "src/types.rs: InfoHash::from_str, from_hex, from_base32")
p("C19", "Hex and base32 forms denote the same number",
  "The parsed 20 bytes, read as a big-endian number, equal the positional value of the digits in base 16 or base 32.",
  "all accepted strings", "all 2^160 values", "src/types.rs: InfoHash::from_hex, from_base32")
p("C20", "Magnet link fields are extracted exactly",
  "A magnet link is accepted iff its scheme is magnet, exactly one xt parameter occurs and it is urn:btih: plus a valid hash, and every tr parameter is a supported tracker URL; the result then carries that hash, the last dn value and the tr values in order; unknown parameters are irrelevant.",
  "every list of query parameters in every order", "all parameter lists and orders",
  "src/magnet.rs: Magnet::from_str, parse_xt")
p("C21", "Magnet files: every non-comment line counts and errors name the line",
  "Reading a batch file returns the magnets of all lines that are neither blank nor start with '#', in order; if any such line is invalid the whole file is refused with the 1-based number of the first invalid line.",
  "every file contents", "arbitrary numbers and arrangements of lines",
  "src/magnet.rs: parse_magnets_file")
p("C22", "Query-string values round-trip",
  "Any byte string put into an announce URL as a query value is recovered exactly by form-urlencoded decoding, and never alters the neighbouring parameters.",
  "all byte strings (info hashes, peer ids)", "all 256^n values incl. '%', '&', '+', '='",
  "src/types.rs: add_bytes_query_param")

# --- wire formats ---------------------------------------------------------
p("C23", "Fixed-width reads are big-endian and total",
  "Reading an unsigned integer of k bytes from a packet yields its big-endian value and leaves exactly the remaining bytes, or reports a short packet leaving no partial effect on the result; it never panics.",
  "all buffers, all widths", "all buffers", "src/util.rs: TryBytes, TryFromBuf")
p("C24", "Compact socket addresses round-trip",
  "Encoding an IPv4 or IPv6 socket address compactly and decoding gives it back; decoding accepts exactly 6- or 18-byte strings.",
  "all addresses and ports, all byte strings", "2^48 / 2^144 values",
  "src/compact.rs")
p("C25", "Compact peer lists decode completely or not at all",
  "A compact list decodes iff its length is a multiple of the item size, to exactly length/size items in order; no trailing bytes are silently dropped.",
  "all byte strings", "all lengths", "src/compact.rs: impl_vec_fromcompact")
p("C26", "BitTorrent handshake codec is a bijection",
  "Handshake encoding always has 68 bytes, decoding inverts it, and any accepted 68 bytes re-encode to the same bytes; any other length or header is refused.",
  "all info hashes, peer ids, extension sets and all byte strings", "2^(8*48) values",
  "src/peer/messages.rs: Handshake")
p("C27", "Extension negotiation is set intersection",
  "An extension is considered negotiated iff both sides' 64-bit reserved fields have its bit; distinct extensions never share a bit.",
  "all 64-bit reserved fields", "2^128 combinations", "src/peer/extensions.rs: ExtensionSet, Extension")
p("C28", "Peer message codec is a bijection",
  "Decoding the encoding of any peer message yields the message, and every byte string accepted by the decoder is the encoding of the message it yields; other byte strings give an error, never a panic.",
  "all messages and all byte strings", "all payloads and lengths",
  "src/peer/messages.rs: CoreMessage, Message")
p("C29", "Message framing is independent of TCP segmentation",
  "However the byte stream is cut into reads, the sequence of decoded frames is the same, equals the sequence sent, and a length above the limit is refused before its body is buffered.",
  "all byte streams and all segmentations", "exponentially many segmentations",
  "src/peer/mod.rs: MessageChannel (LengthDelimitedCodec, MAX_PEER_MSG_LEN)")
p("C30", "Extended handshake codec",
  "Decoding the extended handshake the client sends (or any handshake encoded by the same rules) yields the same fields; decoding arbitrary bytes never panics and accepts only a canonical bencoded dictionary.",
  "all field values and all byte strings", "all values", "src/peer/messages.rs: ExtendedHandshake")
p("C31", "Metadata message codec splits header and payload exactly",
  "Encoding then decoding a metadata request, rejection or data message gives the same message, for every payload including payloads that look like bencode; a request or rejection with trailing bytes is refused.",
  "all piece numbers, sizes and payloads", "all payload bytes", "src/peer/messages.rs: MetadataMessage")
p("C32", "Extended message ids form a partial bijection",
  "After processing any 'm' dictionary the id-to-extension and extension-to-id maps are inverse to each other, never contain id 0, and unknown extension names are ignored.",
  "all sequences of registrations / all m dictionaries", "arbitrary histories",
  "src/peer/extensions.rs: Bep10Registry")
p("C33", "UDP tracker requests follow BEP 15 / BEP 41",
  "A BEP 15/41 server decoding the connect and announce packets recovers exactly the protocol id, action, transaction id, connection id, hash, peer id, counters, event, key, numwant, port and the complete URL data, for URL data of any length.",
  "all field values and URL data of any length", "URL data length is unbounded (255-byte segments)",
  "src/tracker/udp.rs: UdpConnectionRequest, UdpAnnounceRequest")
p("C34", "UDP tracker responses are parsed exactly",
  "Connect and announce responses are accepted iff they have the expected action and complete fields (peers to the end of the packet), yielding exactly the encoded values; short or ragged packets are errors.",
  "all datagrams", "all datagram contents", "src/tracker/udp.rs: UdpConnectionResponse, UdpAnnounceResponse, Response::from_bytes")
p("C35", "DHT get_peers queries are well-formed KRPC",
  "Every query sent is a canonical bencoded KRPC get_peers query from which transaction id, node id, info hash, want list and read-only flag are recovered exactly.",
  "all transaction ids, node ids, hashes and options", "all values", "src/dht/messages.rs: GetPeersQuery")
p("C36", "DHT responses are interpreted exactly",
  "A get_peers response in canonical form with any values/nodes/nodes6/token is decoded to exactly those peers and nodes, a KRPC error to its code and message; other byte strings are errors and nothing panics.",
  "all datagrams", "all datagrams", "src/dht/messages.rs: GetPeersResponse, ErrorResponse, decode_response, prescan")
p("C37", "HTTP tracker responses are interpreted exactly",
  "An HTTP announce response yields exactly the peers of 'peers' (list or compact) followed by 'peers6', with the i-th crypto flag applied to the i-th IPv4-list peer; a 'failure reason' takes precedence over everything after it; the internal assertion about flag order can never fire.",
  "all response bodies", "all bodies", "src/tracker/http.rs: HttpAnnounceResponse")
p("C38", "HTTP announce URLs carry the announced values",
  "Parsing the query of the announce URL gives the tracker's own parameters followed by event, info_hash, peer_id, crypto, port, uploaded, downloaded, left, numwant, key, compact with exactly the announced values; the rest of the URL is the tracker's, without its fragment.",
  "all announcements and tracker query strings", "all values", "src/tracker/http.rs: HttpTracker::announce")
p("C39", "JSON peer listing is valid JSON",
  "The JSON printed for any peer is printable ASCII and is decoded by a JSON parser to the peer's address, port and (lossily decoded) id.",
  "all addresses, ports and 20-byte peer ids", "all ids incl. control chars, quotes, astral characters, invalid UTF-8",
  "src/peer/mod.rs: DisplayJson, write_json_str")

# --- encryption -----------------------------------------------------------
p("C40", "Peers that require encryption are never contacted in the clear",
  "If a peer is marked as requiring encryption then, under every configuration and command-line choice and whatever the outcome of each attempt, no unencrypted connection to it is attempted.",
  "all preferences, overrides, peers and connection outcomes", "all combinations and failure outcomes",
  "src/peer/mod.rs: InfoGetter::get_crypto_mode, run", "src/config.rs: CryptoPreference")
p("C41", "Encryption preference is honoured",
  "'always' (or --encrypt) never makes an unencrypted connection; 'never' (or --no-encrypt) never makes an encrypted one; 'prefer' makes an unencrypted attempt only after an encryption handshake failure; at most two attempts are made.",
  "all preferences, overrides and outcomes", "all combinations", "src/peer/mod.rs: InfoGetter::run", "src/app.rs: App::get_crypto_mode")
p("C42", "'prefer' falls back whenever encryption does not work out",
  "With 'prefer', a peer that never completes the encryption handshake (for any reason) is eventually tried without encryption.",
  "all ways the handshake can fail or stall", "timing and stalls", "src/peer/mod.rs: InfoGetter::run")
p("C43", "The encryption handshake succeeds against every conforming responder",
  "For all private keys, pads and a responder that follows the message stream encryption specification, the handshake completes with RC4, both sides hold the same keys at the same keystream positions, and bytes after the handshake are delivered intact.",
  "all private keys, all pad lengths and contents, all shared keys", "cryptographic randomness cannot be enumerated",
  "src/peer/msepe.rs: Handshaker, HandshakeBuilder")
p("C44", "The encryption handshake is independent of segmentation",
  "However the responder's final packet is cut into reads, the handshake reaches the same outcome, the same leftover bytes and the same keystream position.",
  "all byte strings and all segmentations", "exponentially many segmentations", "src/peer/msepe.rs: Handshaker::handle_input")
p("C45", "The encrypted stream is transparent",
  "Whatever the sizes of reads, writes and partial socket writes, the plaintext read is the decryption of the ciphertext received (each byte with its own keystream byte, in order) and the ciphertext sent is the encryption of the plaintext written; no byte is lost, duplicated or reordered.",
  "all sequences of read/write/flush operations and partial transfers", "all schedules", "src/peer/msepe.rs: EncryptedStream")
p("C46", "Non-conforming encryption handshakes are refused",
  "A responder whose key packet is shorter than 96 or longer than 608 bytes, whose verification constant is not zero, or who selects anything but exactly RC4 is refused.",
  "all responder byte strings", "all byte strings", "src/peer/msepe.rs: Handshaker")

# --- UDP tracker sessions -----------------------------------------------------
p("C47", "Tracker replies must match the request",
  "A successful UDP announce result always comes from a response carrying the transaction id of the announce request, sent under a connection id obtained from a response carrying the transaction id of the connect request.",
  "all datagram sequences and timings", "all histories", "src/tracker/udp.rs: UdpTrackerSession")
p("C48", "Unrelated datagrams cannot fail an announce",
  "A datagram whose transaction id does not match the outstanding request does not decide the outcome of the announce as a tracker failure.",
  "all datagrams", "all datagrams", "src/tracker/udp.rs: Response::from_bytes, announce")
p("C49", "UDP retransmission follows 15*2^n seconds",
  "An unanswered request is re-sent after 15, 30, 60, ... seconds, doubling up to and never beyond 3840 seconds, without overflow, for ever until an outer limit stops it.",
  "every retransmission count", "unbounded time", "src/tracker/udp.rs: UdpTrackerSession::chat")
p("C50", "Stale UDP connection ids are not used",
  "No announce request is sent under a connection id more than 60 seconds after it was received.",
  "all timings of replies and losses", "all timings", "src/tracker/udp.rs: get_connection, announce")
p("C51", "A started announce is always followed by a stopped announce",
  "Whenever peers are obtained from a tracker, a matching 'stopped' announcement for the same torrent, peer id, key and port is scheduled, on every timing; if none are obtained none is scheduled.",
  "all timings and outcomes", "all schedules", "src/tracker/mod.rs: PeerGetter")

# --- concurrency -------------------------------------------------------------
p("C52", "Concurrency limits hold",
  "A worker pool of size n never runs more than n submitted jobs at once. So of a magnet link no more trackers are queried and no more peers contacted at once than configured, and of a file of links no more are worked on, and no more files being written, at once than configured.",
  "all schedules and numbers of jobs", "all interleavings", "src/asyncutil/worker_nursery.rs", "src/magnet.rs: Magnet::get_torrent_file", "src/main.rs: Command::run")
p("C53", "Every submitted job yields exactly one result",
  "In every execution in which the pool is not dropped, each accepted job runs exactly once and its result is delivered exactly once; jobs are taken up in submission order.",
  "all schedules", "all interleavings", "src/asyncutil/worker_nursery.rs")
p("C54", "The result stream ends exactly when all work is done",
  "The result stream reports its end only after all submitters are gone and every job's result was delivered; and from every reachable state some step is possible until then (no deadlock).",
  "all schedules", "all interleavings", "src/asyncutil/worker_nursery.rs: WorkerNurseryStream")
p("C55", "Closing and shutting down a pool",
  "After close, new submissions are refused while already accepted jobs still complete; after shutdown no further queued job starts.",
  "all schedules", "all interleavings", "src/asyncutil/worker_nursery.rs: close, shutdown")
p("C56", "Peer de-duplication keeps exactly the first of each address",
  "The de-duplicated stream yields, in order, exactly the first item of each key and nothing else.",
  "all finite streams and key functions", "all streams", "src/asyncutil/unique_stream.rs")
p("C57", "Shutdown waits for stop announcements but not for ever",
  "Shutting down waits for all background tasks to finish; if they have not after the configured time they are cancelled, and no task is left running when it returns.",
  "all task durations and schedules", "all timings", "src/asyncutil/shutdown_group.rs")
p("C58", "A magnet is resolved iff some peer delivers",
  "Resolving a magnet succeeds with the metadata of the first peer that delivers; it fails only when every discovered peer failed; trackers are queried iff the magnet has any, otherwise the DHT; each distinct peer address is contacted once.",
  "all tracker/peer outcomes and orders of completion", "all schedules", "src/magnet.rs: Magnet::get_torrent_file")
p("C59", "Resolving a magnet never panics internally",
  "No schedule of the tracker, peer and result tasks makes an internal task panic.",
  "all schedules", "all interleavings", "src/magnet.rs: Magnet::get_torrent_file")
p("C60", "Batch exit status is truthful",
  "A batch run exits successfully iff every magnet in the file was saved.",
  "all batches and outcomes", "all combinations", "src/main.rs: Command::run (Batch)")

# --- DHT ------------------------------------------------------------------------
p("C61", "Unsolicited DHT replies have no effect",
  "A datagram whose source address and transaction id do not match a query in flight changes nothing in any lookup.",
  "all datagrams in all reachable states", "all histories", "src/dht/actor.rs: DhtActor, LookupSession::handle_message")
p("C62", "Every DHT lookup is answered exactly once",
  "In every reachable state each accepted lookup has either been answered exactly once or still has a query in flight with a running timer; hence no lookup hangs once all timers have fired (or it fails once, when the DHT node is shut down). This holds as long as no transaction id has been reused (2^32 queries); never being answered twice holds always.",
  "all schedules of datagrams, timers, send failures and new lookups", "all histories", "src/dht/actor.rs: DhtActor::run, send_query, postprocess_session")
p("C63", "No DHT node is queried twice",
  "Within a lookup each learned address is sent at most one query (besides the initial query to bootstrap addresses).",
  "all histories of replies", "all histories", "src/dht/actor.rs: NodeSpace, LookupSession")
p("C64", "Reported DHT nodes are the closest responsive ones",
  "The nodes reported at the end are at most 8, in order of XOR distance to the info hash, and no node known to be responsive is closer than a reported one unless it too is reported.",
  "all histories", "all histories", "src/dht/actor.rs: NodeSpace::closest_responsive")
p("C65", "Reported DHT nodes did respond",
  "Every node address reported at the end of a lookup is an address that sent a valid reply.",
  "all histories", "adversarial histories with repeated node ids", "src/dht/actor.rs: NodeSpace::mark_responsive")
p("C66", "The lookup only advances towards the target",
  "After each reply only nodes among the 8 closest known to the info hash are queried, each at most once, and all of them are.",
  "all histories", "all histories", "src/dht/actor.rs: NodeSpace::closest_unqueried")
p("C67", "DHT peers are exactly the union of the valid replies",
  "The peers reported by a lookup are, without duplicates, exactly those contained in valid replies to that lookup's own queries.",
  "all histories", "all histories", "src/dht/actor.rs: LookupSession")
p("C68", "DHT transaction ids do not repeat",
  "Any 2^32 consecutive queries carry pairwise different transaction ids of 4 bytes.",
  "all counts", "2^32 queries", "src/dht/actor.rs: TransactionGenerator")
p("C69", "DHT lookups are finite",
  "The number of queries of one lookup is at most the number of bootstrap addresses plus the number of distinct addresses it was told about.",
  "all histories", "all histories", "src/dht/actor.rs: LookupSession")
p("C70", "How long malicious nodes can prolong a lookup",
  "There is a fixed bound on the number of queries of a lookup, independent of what the nodes reply: the bootstrap addresses plus all addresses there are. No bound below 2^32 holds, for any target: malicious nodes can keep a lookup going that long.",
  "all histories", "adversarial histories", "src/dht/actor.rs: LookupSession")

# --- configuration and small things -------------------------------------------------
p("C71", "Local port settings are always usable",
  "Every accepted local-port setting denotes a non-empty range within 0..65535 and the port chosen lies in it, so choosing a port never panics; the accepted values are a port as integer or digit string, or two ports low-high in order with optional white space around the hyphen (a plus sign before a range bound is tolerated); each port of the range can be chosen.",
  "all integers and strings", "all strings", "src/config.rs: LocalPort")
p("C72", "Configuration file selection",
  "An explicitly given configuration file that is missing or invalid is an error; a missing default file means defaults; --no-config reads nothing.",
  "all combinations of flags and file states", "combinations with file system states", "src/main.rs: Arguments::run")
p("C73", "Any accepted timeout setting is safe",
  "No accepted value of the key-exchange timeout makes the program panic.",
  "all u64 settings and clock values", "2^64 values", "src/peer/msepe.rs: EncryptedStream::handshake, Handshaker", "src/config.rs: GeneralConfig")
p("C74", "Generated peer ids",
  "A generated peer id is 20 bytes: the (possibly truncated) prefix followed by alphanumeric characters.",
  "all prefixes and random streams", "random", "src/types.rs: PeerId::generate")
p("C75", "Creation date never fails",
  "The creation date is the number of whole seconds relative to the epoch, also before 1970, saturating instead of failing.",
  "all clock values", "all clock values", "src/torrent.rs: unix_now")
p("C76", "A silent or chatty peer cannot block a download slot for ever",
  "After the handshake, a peer that makes no progress is given up after a bounded number of messages or time.",
  "all message sequences", "unbounded histories", "src/peer/mod.rs: InfoGetter::run, get_metadata_info")
p("C77", "Torrents with different hashes never resolve to one file",
  "If the template contains {hash}, then torrents with different info hashes are written to different files once '.' and '..' components are resolved.",
  "all templates, names and hash pairs", "all names, including '..'", "src/torrent.rs: PathTemplate::format, sanitize")

p("C78", "Arbitrary peer bytes are handled safely",
  "Whatever bytes a peer sends, however they are cut into reads and however the connection ends, the exchange never panics, its outcome does not depend on the segmentation, and if it yields metadata the peer's handshake was for the same torrent and the metadata is authentic.",
  "all byte streams, segmentations and ways to end", "infinitely many byte streams", "src/peer/mod.rs: InfoGetter::connect, MessageChannel, get_metadata_info")
p("C79", "A conforming peer's bytes suffice, and no others do",
  "If the byte stream of a peer is a handshake, an extended handshake offering metadata exchange and the pieces of the metadata in order, with harmless messages in between, and only then, the metadata is obtained: metadata is obtained iff it has the info hash, is a dictionary of at most 20 MiB and the bytes begin with such a stream.",
  "all metadata, all such streams and segmentations", "all streams of a conforming peer", "src/peer/mod.rs: InfoGetter::connect, get_metadata_info")
p("C80", "Only protocol-conforming bytes are sent to peers",
  "The client first sends its handshake, sends nothing more to peers of another torrent or without the extension protocol, then its extended handshake, then 'have none' exactly to peers with the fast extension, then only metadata requests and rejections under the id the peer chose.",
  "all peer byte streams", "infinitely many peer behaviours", "src/peer/mod.rs: InfoGetter::connect, MessageChannel::send")

p("C81", "UDP tracker URLs",
  "A UDP tracker URL is accepted iff its scheme is udp and it has a host and an explicit port; host and port are kept exactly and the URL data sent to the tracker is exactly the path followed, if there is a query, by '?' and the query.",
  "all parsed URLs", "infinitely many URLs", "src/tracker/udp.rs: UdpUrl")

p("C82", "Tracker URLs",
  "A tracker URL is accepted iff it is an http or https URL with a host, or a udp URL with a host and an explicit port; it then becomes a tracker of that kind with exactly that location. A URL of any other scheme is refused, naming the scheme.",
  "all parsed URLs", "infinitely many URLs", "src/tracker/mod.rs: Tracker::from_str", "src/tracker/http.rs: TryFrom<Url> for HttpUrl", "src/tracker/udp.rs: UdpUrl")

p("C83", "Configuration settings",
  "Every documented key of a configuration file takes effect with exactly the value given; an absent key or table means the documented default; unknown keys are ignored; zero jobs, an empty bootstrap list, wrong types and out-of-range values are refused.",
  "all TOML documents", "the space of documents is infinite; tests sample a dozen",
  "src/config.rs: Config::load", "README.md: Configuration")

p("C84", "Encryption does not change the exchange",
  "Over an encrypted connection to a conforming responder the metadata exchange has exactly the outcome it would have over a plain connection delivering the same payload, and everything the client writes reaches the responder's decryption unchanged and in order.",
  "all private keys, pads, payloads, segmentations and interleavings of reads and writes", "random keys and arbitrary segmentation",
  "src/peer/msepe.rs: EncryptedStream", "src/peer/mod.rs: InfoGetter::run")

p("C85", "DHT queries ask for the lookup's info hash",
  "Every query sent to a DHT node belongs to one lookup and carries that lookup's info hash, the client's own node id, the read-only flag (BEP 43), the client version, and asks for IPv6 nodes exactly if IPv6 is available.",
  "all histories", "all histories", "src/dht/actor.rs: LookupSession::get_outgoing")

p("C86", "Trackers are told the encryption setting in force",
  "The started and the stopped announcement of a session both state the encryption support given on the command line or, without one, that of the configuration: required for 'always', none for 'never', supported for 'prefer' and 'if-required'.",
  "all sessions, overrides and preferences", "only through a full run against a tracker", "src/tracker/mod.rs: TrackerSession::start, stop, get_tracker_crypto", "src/config.rs: CryptoPreference::get_tracker_crypto")

p("C87", "UDP trackers: address family of replies",
  "A UDP tracker session talks to the first address the tracker's name resolves to, from a socket of that address's family, and replies are read as lists of addresses of that same family.",
  "all resolver answers and results of the system calls", "needs name resolution and sockets", "src/tracker/udp.rs: ConnectedUdpSocket::connect")

p("C88", "IP addresses as text",
  "An address given as text (by a tracker, in a list of bootstrap nodes) is accepted exactly if it is a dotted IPv4 address without leading zeros or an IPv6 address in one of the forms of RFC 4291, either case, and means the address so written; an address printed by the program reads back as the same address and no other.",
  "all byte strings and all addresses", "2^128 addresses and an infinite grammar", "src/tracker/http.rs: ListPeer", "src/torrent.rs: Node", "std::net::IpAddr")

p("C89", "UDP tracker URLs in the torrent file",
  "The URL written to the torrent file for a UDP tracker has the host, port, path and query of the URL in the magnet link, IPv6 addresses in brackets.",
  "all URLs", "all URLs", "src/tracker/udp.rs: UdpUrl", "src/torrent.rs: TorrentFile")

p("C90", "Text that is not UTF-8",
  "Text received from trackers, peers and DHT nodes (names, failure reasons, error messages, client names) that is not valid UTF-8 never makes reading fail: its valid characters are kept in order and each maximal invalid part (in the sense of the Unicode standard's recommendation) is replaced by one U+FFFD.",
  "all byte strings", "all byte strings, in particular every truncated or overlong sequence", "src/torrent.rs: TorrentInfo", "src/tracker/http.rs", "src/peer/extensions.rs", "String::from_utf8_lossy")

p("C91", "Peer addresses on the command line and in the output",
  "query-peer accepts exactly IP:PORT for IPv4 and [IP]:PORT (with an optional %scope) for IPv6 and contacts that address; a line printed by query-tracker or query-dht without --json denotes the address it was printed for and no other, and is accepted by query-peer, with no expected peer id and without requiring encryption.",
  "all byte strings and all socket addresses", "2^144 addresses and an infinite grammar", "src/peer/mod.rs: Peer::from_str", "src/main.rs: Command::QueryTracker, Command::QueryDht, Command::QueryPeer", "std::net::SocketAddr")

p("C92", "Fetching the metadata from one peer",
  "For every encryption setting and everything a peer may do on the TCP connections made to it, and when: metadata obtained from it has the info hash asked for; nothing panics except on a key-exchange timeout beyond the clock's range; a peer that speaks the protocol the setting calls for and sends its opening within the connection's time limit, followed by the pieces, yields the metadata, however late the pieces and however its bytes are cut, and no other peer does (of a peer's 96 to 608 bytes of key and padding, the first 96 count as its key however they were chosen); with 'prefer' so does a peer that only speaks the unencrypted protocol and fails the encryption handshake in time.",
  "all settings, timings, byte streams, private keys and pads", "timing and segmentation of two successive connections, random keys",
  "src/peer/mod.rs: InfoGetter::run, InfoGetter::connect", "src/peer/msepe.rs: EncryptedStream::handshake")

p("C93", "The command 'get', end to end",
  "Whatever the trackers, the DHT and the peers do and in whatever order the tasks run: if 'get' exits with success, the file at the path the template denotes (or the standard output, for '-') is a canonical torrent file whose info dictionary has the info hash of the magnet link and is what one of the peers to try serves, with all its trackers in order, and no other file has changed; if it exits with failure for want of metadata, nothing has been written and every address reported to it has been tried and has failed; if saving fails, what has been done is a beginning of what success does; it never panics on account of its input, except for a timeout beyond the clock's range.",
  "all magnet links, settings, peers' byte streams with their timing, and interleavings of the tasks", "interleavings of network events, timing and segmentation", "src/main.rs: Command::Get", "src/magnet.rs: Magnet::get_torrent_file, Magnet::download_torrent_file", "src/torrent.rs: TorrentFile::save")

p("C94", "A peer that serves the metadata is enough",
  "If at least one peer among those reported serves the metadata, 'get' succeeds, whatever the other peers do.",
  "all magnet links, settings, sets of peers and interleavings", "unbounded sets of peers and orders of events; 'eventually'", "src/magnet.rs: Magnet::get_torrent_file", "src/peer/mod.rs: InfoGetter::run", "src/asyncutil/worker_nursery.rs")

p("C95", "The query commands",
  "query-tracker and query-dht print exactly the peers reported, in order, one per line, each line the address as query-peer accepts it or (--json) a JSON object with host, port, id and requires_crypto; they exit with success exactly if the tracker replied in time, or peers were found on the DHT, and print nothing otherwise. Trackers are told about encryption what the flags say, or else the configuration. query-peer connects with or without encryption as its flags say whatever the configuration, and on success the file is a torrent file, without trackers, for metadata with the info hash asked for; on failure nothing has been written, or saving has failed on the way.",
  "all flags, configurations, replies, peers' byte streams with their timing", "all combinations of flags, settings and replies; arbitrary ids in the listing", "src/main.rs: Command::QueryTracker, Command::QueryDht, Command::QueryPeer", "src/peer/mod.rs: DisplayJson, InfoGetter", "src/tracker/mod.rs: PeerGetter::run")

p("C96", "One DHT node for all lookups",
  "However many lookups a process makes at once, and whenever calls are made, dropped or shut down: one DHT node is created at most; each lookup returns at most once, with what the node found for that lookup's own info hash in a lookup made for it alone; a lookup fails only if the socket could not be bound for it, no bootstrap node could be resolved, or a shutdown was asked for; no call waits for ever (there is always something to happen, and a bound on how much can happen before it returns); once a shutdown has returned nothing more is sent or found.",
  "all sequences of calls, cancellations, socket and resolver results, datagrams and timers, with the mutex and the channel granted in any order", "interleavings of any number of concurrent calls", "src/app.rs: App::get_peers_from_dht, App::shutdown", "src/dht/actor.rs: DhtActor::run, DhtHandle")

p("C97", "A failure to start the DHT node does not doom later lookups",
  "If a lookup fails because the DHT node could not be started, a later lookup of the same process tries to start it again.",
  "all histories of a process", "histories with a failure at any point", "src/app.rs: App::get_dht_handle", "src/dht/actor.rs: DhtActor::run")

p("C98", "The addresses of the DHT bootstrap nodes",
  "Whatever the order in which the bootstrap nodes' names are resolved and whatever the resolver answers: the lookup starts from exactly one address for each node that has a usable one and from no other address; a node given as an IP address keeps that address and its port, a name becomes the first of its addresses the sockets can reach; without an IPv6 socket every address is an IPv4 address; at most ten resolutions run at a time; and the resolution phase ends as soon as every resolution has been answered, after two steps per node.",
  "all lists of bootstrap nodes, resolver answers and interleavings", "any number of nodes resolved concurrently in any order", "src/dht/mod.rs: resolve", "src/dht/actor.rs: DhtActor::run, UdpSockets::new")

p("C99", "Querying a tracker, end to end",
  "Whatever the network does: a query to a tracker, HTTP or UDP, reports peers exactly if the tracker answers the 'started' announcement, as its protocol says, before announce-timeout is over (over UDP after any number of repeated requests and replaced connections); they are the peers in that answer, in its order, and a 'stopped' announcement is then due; a failure is blamed on the tracker only if it has reported one. The peers 'get' contacts for a magnet link with trackers are exactly the ones in such answers, and 'get' succeeds if one of the trackers answers with a peer that serves the metadata (short of C94's exception).",
  "all trackers, announcements, HTTP responses, sequences of datagrams, timer events and I/O errors with their timing", "all timings and contents of the replies", "src/tracker/mod.rs: PeerGetter::run, PeerGetter::connect, TrackerSession::announce", "src/tracker/http.rs: HttpTracker::connect, HttpTrackerSession::announce", "src/tracker/udp.rs: UdpTracker::connect, UdpTrackerSession::announce", "src/magnet.rs: Magnet::get_torrent_file")

p("C100", "The command 'batch', end to end",
  "However the jobs are interleaved, down to their single requests to the operating system: 'batch' ends; it exits with success exactly if every magnet link listed has been converted; then there is, for every magnet link listed, a torrent file with its info hash and trackers at the path its template says (or on the standard output), and no other file has changed; whatever the exit status, the files of the jobs that succeeded are there.",
  "all files of magnet links, settings, templates, networks, interleavings of any number of jobs", "interleavings of any number of jobs and their file operations", "src/main.rs: Command::Batch", "src/magnet.rs: Magnet::download_torrent_file, parse_magnets_file", "src/torrent.rs: TorrentFile::save, PathTemplate::format")

p("C101", "A magnet link without trackers, end to end",
  "Whatever DHT nodes and peers do, and whatever else the process looks up: for a magnet link without trackers 'get' contacts exactly the peers named in replies to its own lookup's queries for that info hash, each once; when it succeeds the torrent file has no trackers and at most eight nodes, nearest first, of those heard of in such replies; it succeeds if one of the peers named serves the metadata; it fails only if every peer named has failed or the lookup has (no socket, no bootstrap address, a shutdown), and then nothing has been written.",
  "all histories of a process, datagrams, timers, peers' byte streams with their timing, settings, templates and schedules", "histories of arbitrary replies from arbitrary nodes, interleaved with other lookups", "src/magnet.rs: Magnet::get_torrent_file", "src/app.rs: App::get_peers_from_dht", "src/dht/actor.rs: DhtActor::run", "src/main.rs: Command::Get")

p("C102", "The process as a whole",
  "Whatever trackers, DHT nodes and peers do and whatever the command does in between: without a usable configuration the process fails at once; else its exit status is the command's. Every tracker whose answer was reported to the command, and no other, is told 'stopped' once, in the terms of the 'started' announcement, at once, not when the command returns; the process exits when all these announcements are over or, shutdown-timeout after the command has returned, given up. Until then there is always something to do, the shutdown of the DHT node never has to wait for anything outside, and there is a bound on the number of steps.",
  "all configurations, commands, networks and interleavings of the command, the tracker queries, the announcements and the DHT node", "all orders and timings of events in concurrent tasks; a tracker that never answers", "src/main.rs: main, Arguments::run", "src/app.rs: App::new, App::shutdown", "src/asyncutil/shutdown_group.rs: ShutdownGroup::shutdown", "src/tracker/mod.rs: PeerGetter::run")

p("C103", "The reason given for a peer's failure is the true one",
  "When a peer yields no metadata, the error reported names what was wrong, and for one stream of bytes there is only one such error: the TCP connection failed or nothing was decided within the time limit; the encryption handshake failed, and why (length of the key packet, verification constant, number of methods selected, unknown or unoffered method, connection lost); the handshake header or the torrent's hash is another; no extension protocol, no extended handshake, no metadata extension or size; which message could not be read (unknown type, too short, too long); which piece was refused, wrong or of the wrong length; the metadata is too large, has another hash or is not a dictionary; the connection was closed between messages or lost within one.",
  "all byte streams, cuts into reads, timings, endings and encryption settings", "the space of wrong streams is infinite and each must be attributed to one cause", "src/peer/mod.rs: Peer::get_info, Peer::connect, PeerConnection, PeerError", "src/peer/msepe.rs: HandshakeError", "src/peer/messages.rs: MessageError", "src/torrent.rs: PushError, BuildError")

p("C104", "The reason given for a tracker's failure is the true one",
  "When a query to a tracker fails, the error reported names what happened: the name has no address, the socket, a sending or a receiving failed, a packet was too short for its kind, of another kind or for another transaction, the tracker sent an error message (and which), the request got no response, an HTTP error status (and which), no complete body or one that is no tracker response; a timeout is reported at the end of announce-timeout, and only if none of this, nor an answer, has come by then. A query can end in one way only, and whichever comes in time is what is reported, at that time.",
  "all trackers, announcements, time limits, packets, responses and timings", "every possible packet and body, at every time, in every phase of the protocol including retransmissions and expired connections", "src/tracker/mod.rs: PeerGetter::run, TrackerError", "src/tracker/udp.rs: UdpTrackerSession::announce, chat, UdpTrackerError", "src/tracker/http.rs: HttpTrackerSession::announce, HttpTrackerError")

p("C105", "What a peer sends is held only up to a bound",
  "However much a peer sends and however it splits it, the bytes received and not yet dealt with are bounded: by one read and one largest message while messages are read, and by one read and seven bytes during the encryption handshake.",
  "all peers, all sequences of reads of bounded size, at every point of the handshake and of the exchange of messages", "a peer can send any number of bytes split in any way; a test sends a few", "src/peer/msepe.rs: HandshakeBuilder, EncryptedStream::handshake", "src/peer/mod.rs: Peer::connect (LengthDelimitedCodec)", "src/consts.rs: MAX_PEER_MSG_LEN")

p("C106", "A write to a peer that fails or hangs ends the exchange there and nothing else",
  "If a write to a peer fails, everything before it has been sent and nothing after it, and the fetch fails with a send error (with a failed encryption handshake if it is one of that, in which case an unencrypted attempt follows if encryption is only preferred); a write that never ends keeps the exchange waiting, within the time limit until connected; with successful writes nothing changes; whatever the writes do, metadata obtained has the hash asked for; it is obtained exactly if a peer provides it in time over a connection the settings allow and every write needed succeeds; and a failure has the reason it would have otherwise, or a write.",
  "all outcomes of all writes, all peers, byte streams, timings and encryption settings", "which write fails, and at what point of the exchange, cannot be enumerated", "src/peer/mod.rs: InfoGetter::run, InfoGetter::connect, MessageChannel::send, PeerConnection::get_metadata_info, PeerError::Send", "src/peer/msepe.rs: EncryptedStream::handshake, HandshakeError::Send")

p("C107", "Output that cannot be written is not reported as success, and trackers are still told",
  "If standard output does not take the whole list of peers, what query-tracker or query-dht has printed is a prefix of the list and the command does not report success; it succeeds exactly if there is a list and it has been taken; and a tracker that has been told that the client has started is still told that it has stopped before the process is over.",
  "all sizes of what standard output takes before failing, all trackers, answers, DHT lookups, flags and configurations", "the point at which a reader goes away or a disk is full is arbitrary, and the lists are too", "src/main.rs: Command::run, Arguments::run", "src/app.rs: App::shutdown", "src/tracker/mod.rs: PeerGetter::run")

p("C108", "A refused magnet link is refused for the first thing wrong with it",
  "A magnet link is refused for exactly one reason: not a URL; else not a magnet URL; else, reading its parameters in order, the first that is at fault (a second topic, a topic that is not urn:btih: and a hash, a hash of the wrong length or alphabet, a tracker that is not a URL or not a usable one); else the lack of a topic. A file of links is refused for its first line that is neither blank, a comment nor a link, with that line's number and reason.",
  "all texts, all URL parsers, all files", "the order of the parameters and the faults among them are arbitrary", "src/magnet.rs: Magnet::from_str, parse_xt, MagnetError, XtError, parse_magnets_file", "src/types.rs: InfoHash::from_str", "src/tracker/mod.rs: Tracker::from_str")

p("C109", "What a worker pool answers about itself is so",
  "In every interleaving: at most one call closes the pool and is told so, all others are told that it is closed; likewise for shutting down; the numbers of waiting jobs and of results that can be read are those reported; reading without waiting gives the result that waiting would, or \"done\" exactly if waiting would give the end; after \"done\" nothing runs and nothing comes; and, as documented, an empty and closed pool answers \"done\".",
  "all numbers of workers, jobs, handles and all interleavings of their actions", "a test runs one interleaving; the documented claim about \"done\" is commented out in the repository's own test because it fails in some", "src/asyncutil/worker_nursery.rs: WorkerNursery::close, shutdown, is_closed, is_shutdown, len, is_empty, WorkerNurseryStream::try_recv, len, is_empty, TryRecvError")

p("C110", "What peers, trackers and DHT nodes send puts no control character in the log",
  "In the text of every log record that shows something received (handshakes, messages, warnings, failures, errors, names of magnet links, peers) there is no control character (line break, tab, escape, DEL, C1) unless the text of a library error, the tracker's URL or the path of the output file contains one; the path contains none either.",
  "all records, all received contents, all tables of printable characters that contain no control character", "there are unboundedly many contents, and the repository's tests look at the text of ten of them", "src/peer/messages.rs: Display for Handshake, CoreMessage, ExtendedHandshake, MetadataMessage, MessageError", "src/peer/extensions.rs: Display for ExtensionSet, Bep10RegistryError", "src/peer/mod.rs: PeerError, Display for Peer", "src/peer/msepe.rs: HandshakeError", "src/tracker/mod.rs: TrackerError", "src/tracker/udp.rs: UdpTrackerError", "src/tracker/http.rs: HttpTrackerError", "src/dht/messages.rs: Display for ErrorCode, ErrorResponse", "src/magnet.rs: Display for Magnet", "src/types.rs: Display for PeerId", "src/util.rs: comma_list, ErrorChain", "src/torrent.rs: TorrentFile::save, sanitize")
p("C111", "A log record tells what was received",
  "Two records of received messages have the same text exactly if the peer is the same and the messages agree in everything but the pieces of a bitfield (their number is shown), the data of a piece or of metadata (its length is shown), the payload of an extended message and the numbers of the extensions; likewise handshakes (all but the info hash), warnings, failure and error messages, and lists of peers. The record of a peer given up tells the peer, the kind of failure and every number in the reason, that of a tracker likewise. Records of different events never read alike: each tells what happened, with which peer, tracker or DHT node, and for which torrent.",
  "all pairs of messages, handshakes, texts, peers and reasons", "a test compares the text of one message with a literal; it does not show that no other message has that text", "src/peer/messages.rs: Display for Message, Handshake", "src/peer/extensions.rs: Display for ExtensionSet", "src/tracker/mod.rs: TrackerSession::run, peer_list, AnnounceResponse", "src/dht/actor.rs", "src/peer/mod.rs: PeerError, PeerConnection::read_message", "src/util.rs: comma_list, ErrorChain")

p("C112", "What fails is reported, truthfully and once",
  "While 'get' runs, a peer is reported to have failed, or a tracker, only if it has, with the error it failed with, and once; the peer the metadata is from is not reported. If no metadata is obtained, every tracker that failed and every peer there was to try has been reported. A record that the command failed, saying whether the DHT lookup, the download or saving the file did, is written exactly if the exit status says failure, and last. 'batch' reports exactly the links that failed, each once, and then how many of how many succeeded; a file that cannot be read or holds no links is reported as such.",
  "all magnet links, files of links, configurations, worlds and interleavings of the tasks", "the records depend on how the tracker jobs, the peer jobs and the main task interleave, and the absence of a record on every one of those", "src/magnet.rs: Magnet::get_torrent_file, Magnet::download_torrent_file", "src/main.rs: Command::run")

p("C113", "How long resolving a magnet link, or a file of them, takes",
  "If no tracker query takes longer than t and no peer longer than d, then resolving a magnet link (after a DHT lookup, if there is one) is over after at most (what all tracker queries take together) / (tracker jobs) + (what all peers contacted take together) / (peer jobs) + t + d; once a peer has given the metadata, it is over at that moment; and it always comes to an end. If no link of a file takes longer than d, 'batch' is over after at most (what all links take together) / (batch jobs) + d.",
  "all magnet links, files of links, numbers of jobs, durations of tracker queries, peers and links, and interleavings in which a task that can act does so at once", "the time depends on when every job begins, which depends on all the others and on the scheduler", "src/magnet.rs: Magnet::get_torrent_file", "src/main.rs: Command::run", "src/asyncutil/worker_nursery.rs: WorkerNursery::new")

p("C114", "How long a DHT lookup takes",
  "A lookup is answered at the latest when the query timeout has passed since its start or since the last valid reply to it, whichever is later; so with n valid replies it takes at most n + 1 times the query timeout, and with none at most once the timeout; there are no more replies than queries. A node that was queried is given up exactly when the query timeout has passed since.",
  "all lookups running at once, bootstrap nodes, replies, send failures and the times at which they happen, of up to 2^32 queries", "the end of a lookup depends on when every reply arrives and on all queries of the other lookups", "src/dht/actor.rs: DhtActor::run, DhtActor::send_query, LookupSession")

p("C115", "The log on standard error",
  "Of the program's own records those at most as verbose as --log-level says are put on standard error, of the libraries' those at most as verbose as INFO, each as one line with its time, level and text, in order; from what is on standard error the times, levels and texts can be told, so that no text can pass for another record; whatever peers, trackers and DHT nodes send, their records take one line each. A greater level only adds lines. With WARN the records about peers, trackers and nodes are those about failures. With ERROR 'get' writes, of the records of C112, one line if it fails and none if it does not, and 'batch' one line per link that failed; with OFF the program writes none.",
  "all sequences of records, levels, modules, times and texts without line breaks, with and without colours; all runs of 'get' and 'batch'", "that no text looks like another record is a claim about all pairs of outputs, and which records there are depends on the interleaving of the tasks", "src/main.rs: init_logging, Arguments", "src/magnet.rs: Magnet::get_torrent_file", "src/main.rs: Command::run")

p("C116", "Running 'get' again gives the same file",
  "Two runs of 'get' that succeed, for links with the same info hash and trackers and with output templates that mean the same, leave one file each, at the same path, and the files differ at most in the creation date and, without trackers, in the DHT nodes; with equal clocks and nodes they are the same, byte for byte. This holds whatever the settings, display names, peer IDs, trackers, peers, interleavings and sizes of the write calls of either run, unless the peers served two info dictionaries that are a collision of SHA-1.",
  "all pairs of successful runs: links, settings, worlds, interleavings, clocks and write sizes", "it is a claim about pairs of runs, with peers and schedules out of the program's control", "src/main.rs: Command::run", "src/magnet.rs: Magnet::download_torrent_file", "src/torrent.rs: TorrentFile::save, TorrentFileBuilder, PathTemplate")

p("C117", "'batch' does for each link what 'get' does",
  "When 'batch' exits, the directories, files and output it has asked the operating system for on behalf of each link are, in that order, what 'get' asks for when it meets with the same trackers, peers and failures, whether it succeeds or not, and it has asked for nothing else. With a single link it has done the same as 'get', with the same exit status.",
  "all files of links, configurations, worlds and interleavings of the jobs", "the jobs' requests are interleaved in unboundedly many ways", "src/main.rs: Command::run", "src/magnet.rs: Magnet::download_torrent_file", "src/asyncutil/worker_nursery.rs")

p("C118", "The DHT with and without IPv6",
  "The DHT can be used if and only if an IPv4 socket can be bound. Without an IPv6 socket every query sent goes to an IPv4 address, and asks for no IPv6 nodes, whatever nodes the replies name. A query that a lookup is to make is left unsent only if the operating system refuses to send it or it is to go to an IPv6 address and there is no IPv6 socket. A lookup asks the address of each configured node that has a usable one, and then only nodes named in replies.",
  "all outcomes of binding the sockets, lists of bootstrap nodes, replies, timeouts and failures", "depends on the sockets available and on every history of replies", "src/dht/actor.rs: UdpHandle::new, UdpHandle::send, DhtActor::new, DhtActor::send_query")

p("C119", "The log of DHT lookups",
  "The log has exactly one record for each reply a DHT node sends to a query of a lookup, in the order of the replies, and none for any other datagram. The record names the node by its address and, if an earlier reply in that lookup named a node with that address, by its id, and tells how many peers and nodes the reply held and for which info hash, or the error message, or that the reply is invalid. The whole log of the lookups, but for queries that cannot be sent, tells their history in order: each query, reply, timeout and result has exactly one record, with the node, the info hash and the number of distinct peers found.",
  "all histories of lookups, datagrams and timeouts", "depends on every history of replies; a test sees one", "src/dht/actor.rs: LookupSession::handle_message, LookupSession::handle_timeout, LookupSession::get_outgoing, LookupSession::get_result, NodeSpace::addr2display, NodeDisplay")

p("C120", "The log of a query to a tracker",
  "Whatever the network does: the log of a query to a tracker begins with the record that the tracker is asked. If the tracker answers in time, its warning follows, exactly if the answer has one, then the number of the peers in the answer, then these peers, in order, each record naming the tracker and the torrent; these peers are the result of the query. If the query fails there is no further record of it (the failure is reported by the command: C112). UDP trackers are never said to have warned.",
  "all trackers, announcements, HTTP responses, sequences of datagrams, timer events and I/O errors with their timing", "all timings and contents of the replies", "src/tracker/mod.rs: PeerGetter::run, PeerGetter::inner_get_peers, TrackerSession::announce")

p("C121", "The log of an exchange with a peer",
  "Each attempt to connect to a peer has a record, and an attempt without encryption after one with encryption is always preceded by a warning that encryption has failed, which is given in no other case. Whatever a peer sends: all records of an exchange with it name it. From the arrival of the peer's handshake on, there is one record for each message sent, in order, and it tells the message in the bytes written. The messages said to be received are what the first frames of the peer's stream say, in order. They are all that have arrived, as long as the exchange goes on or if it is the peer or the network that ends it. If it is ended because of a message (unexpected, a refusal, the wrong piece or size, not the extended handshake), that message is the last said to be received. The first record tells the peer's handshake, and no other does. A request of the peer for a piece is said to be refused, and refused, right after it is said to be received, unless the exchange is over with it; nothing else is refused. That the metadata was received is said if and only if it was, and then the messages said to be received, after the first, hold every piece of it, in order.",
  "all byte streams from a peer, split into reads in all ways, with all endings; all info hashes, peer IDs and addresses", "all byte streams and ways to split them", "src/peer/mod.rs: InfoGetter::connect, MessageChannel::send, MessageChannel::recv, PeerConnection::get_metadata_info")

if __name__ == "__main__":
    root = os.path.dirname(os.path.dirname(os.path.abspath(__file__)))
    ids = [x["id"] for x in P]
    assert len(ids) == len(set(ids))
    with open(os.path.join(root, "properties.jsonl"), "w") as f:
        for x in P:
            f.write(json.dumps(x, ensure_ascii=False) + "\n")
    print(len(P), "properties")
