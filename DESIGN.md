# Formal model of demagnetize-rs in Rocq (Coq 8.16.1)

What is modelled, how each property of `properties.jsonl` is stated and proved,
and what has to be trusted.  `MANIFEST.json` maps properties to theorem names;
`seeded/LOG.jsonl` records the wrong programs the theorems were tried against; its
`theorems_failed` are the theorems that rest on the first lemma rejected (the
build stops there), `theorems_tightened` those added or strengthened because the
wrong program had been accepted.

## Layout (`rocq/theories`)

* `Base.v`, `BaseFacts.v`: bytes, big-endian integers, decimal text, results.
* `M_*.v`: the model.  Total, computable Gallina functions, and for concurrent
  parts deterministic step functions over a state, an execution being any
  sequence of enabled events.  Each definition cites the file and lines of
  /repo it models, and its simplifications.  No proofs.
* `S_*.v`: specifications.  What the words of a property mean: grammars,
  packet layouts as another party reads them, observations of a history.  They
  use the model's data types (records, message constructors) but not its
  functions, except SHA-1 and RC4, which are the standard algorithms
  (`T_Sha1.v`, `T_Mse.v` check them on published vectors).
* `P_*.v`: lemmas.
* `C_*.v`: the property theorems, nothing else.  Theorem `Cnn_...` belongs to
  property `Cnn`; each is closed by `exact lemma.`, followed by
  `Print Assumptions`; an `Example` shows a concrete case meeting the
  hypotheses.
* `T_*.v`: the repository's own unit tests replayed on the model.  They check
  the model, and are not counted as proofs.

## Conventions of the model

* `Bytes`, `Vec<u8>`, `String`, `&str`: `list byte` (`Coq.Init.Byte`), a string
  being its UTF-8 encoding.
* Unsigned integers: `N`; a range is a hypothesis where the value comes from a
  Rust variable of that type; arithmetic that can wrap or saturate does so
  explicitly.
* `Result`, `Option`: data.  A panic (`expect`, `unwrap`, index, arithmetic) is
  the explicit outcome `Panic`, so that "never panics" is a theorem.
* `&mut self`: the new state is returned.
* Random numbers, clock readings, DNS answers, socket results, and what peers,
  trackers and DHT nodes send are arguments, universally quantified.
* Time is a number carried by events.  A future under `timeout` is `Some (t, r)`
  (finishes at `t` with `r`) or `None` (never finishes).
* Loops whose termination is not structural take fuel; a lemma shows that the
  fuel given suffices.
* A property that is false of the model has a theorem `..._refuted` with a
  concrete witness; the part that does hold is `..._partial`.  These are
  findings about /repo, each listed with its cause in `MANIFEST.json`.

## Properties

### Downloading metadata from one peer
Model: `M_Torrent` (TorrentInfoBuilder, TorrentInfo), `M_Messages`, `M_Peer`
(get_metadata_info as a function from received messages to sent messages and
outcome), `M_Bencode` (bendy's tokeniser and the recursive descent over it),
`M_Sha1`.  Specification: `S_Bencode` (values and their canonical encoding),
`S_Download`.
* C01 invariant of the builder: its buffer is the concatenation of the pieces
  accepted, its hasher state that of the buffer.
* C02 induction on the received messages; `allowed_send` describes what may be
  sent given the history before it.
* C03 induction on the relation `honest`.
* C04 the size check precedes the first request; C05 induction over arbitrary
  sequences of pushes, with the exact verdict of each; C06 the `expect`s on the
  path are explicit panics, unreachable because C01 holds.
* C07 the checker accepts a buffer iff it is the canonical encoding of some
  dictionary of nesting at most 2048: soundness and completeness of the parser.
* C76 refuted by an infinite family of scripts; partial: requests are bounded.

### The exchange as bytes on a connection
Model: `M_Frame` (LengthDelimitedCodec), `M_Session` (connect and the whole
exchange), `M_Connect` (TCP, encryption and time limits).  Specification:
`S_Frame`, `S_Wire`, `S_Session`.
* C29, C78 segmentation: the frame decoder's state is a function of the bytes so
  far; C78 also that every ended stream ends the exchange.
* C79 an honest peer's byte stream (relation `honest_stream`) parses to an
  `honest` script, and conversely (`C79_exactly`); C80 all bytes written, characterised by what the peer sent.
* C40, C41 case analysis over the decision table with arbitrary results and times
  of the attempts; C42 refuted by a peer that sends its key and then nothing;
  partial: failures within the limit.

### Message stream encryption
Model: `M_Rc4`, `M_Mse` (state machine, handshake with the deadline,
EncryptedStream's poll functions).  Specification: `S_Mse` (the responder's
side, written from the protocol description).
* C43, C84 the responder's decryption inverts what is sent, both sides having the
  same secret (exponent laws modulo P).
* C92 (`M_GetInfo`, `S_GetInfo`) composes all of this with the time limits: `run`
  on one peer, from the TCP connection on, over timed reads.  Whatever is obtained
  comes from one `session` over the bytes (C78); a serving peer's opening arrives
  by the deadline, so the attempt succeeds, and conversely (`C92_exactly`).
* C93, C94 (`M_Get`, `S_Get`, `S_Quiet`) compose one peer, the tasks of
  `M_Resolve`, the torrent file and saving into the command `get`.  C93 from C92,
  C56, C08, C10; C94 refuted by a crowd of silent peers, for every number of jobs;
  partial: fewer silent peers than jobs, by counting busy workers in a quiet state.
* C44 `handle_input (a ++ b)` = `handle_input a` then `b`, whatever the state.
* C45 invariant of the stream: keystream positions = bytes processed.
* C46 exact characterisation of established/refused.
* C73 refuted by an accepted timeout that overflows `Instant + Duration`;
  partial: exactly when.

### Torrent file and output path
Model: `M_Torrent` (TorrentFile), `M_IpText` (std's IP address text),
`M_Template`, `M_Save`, `M_Utf8`.  Specification: `S_TorrentFile` (a reader of
torrent documents), `S_Template` (README), `S_Path` (lexical path resolution),
`S_Utf8`, `S_IpText` (address grammar).
* C08, C09 the bytes written = canonical encoding of a document that `says` the
  inputs; C75 saturation.
* C10 parser by indices = left-to-right relation `reads`/`bad`, both directions;
  C11, C12 from it; also the path a torrent is saved to.  C13 by code points.
* C14, C15, C16, C77 refuted with witnesses; partial versions: `{name}` in the
  last component with another character, pairwise different paths under every
  interleaving of writes, states at every crash point, `{hash}` in the last
  component.
* C88 recursive-descent address parser = grammar; C89 what is written for a UDP
  tracker.

### Text forms
Model: `M_Types`, `M_Magnet`, `M_Form` (form_urlencoded), `M_Json`.
Specification: `S_Types`, `S_Magnet`, `S_Form`, `S_Json` (a JSON parser).
* C90 the decoder relates every byte string to the one reading of `S_Lossy`
  (valid characters, one U+FFFD per maximal invalid part).  C91 (`M_SockText`,
  `S_SockText`) parser = grammar, printed text reads back.
* C95 (`M_Commands`, `S_Commands`): the output splits into lines in one way, each
  line read by the specifications of C39, C91; `query-peer` from C92, C103 and saving;
  `query-tracker` over M_Announce and `query-dht` over M_App (`M_Commands2`) from C99, C101.
* C17, C18, C19 positional value; C74 by construction; C20, C21 relations on
  parameters and lines; C22 decoding relation and its uniqueness; C39 the JSON
  parser reads back the peer.

### Wire formats
Model: `M_Util`, `M_Compact`, `M_Extensions`, `M_Messages`, `M_Udp`, `M_DhtMsg`,
`M_Http`.  Specification: `S_Wire`, `S_Udp`, `S_DhtMsg`, `S_Http`.
* C23-C28, C30-C38: encoders against an independent description of the format,
  decoders shown to accept exactly it (iff), with uniqueness where a receiver
  must be able to recover the fields.

### UDP and HTTP trackers
Model: `M_Tracker`, `M_Udp` (session as a machine with clock, timers, expiry),
`M_Http`.  Specification: `S_UdpSession`.
* C47, C49, C50 invariants over all input sequences; `prompt` bounds the lateness
  of timers (`slack`).  C48 refuted (error packets are not matched by
  transaction id; a late duplicate of a connect reply).  C51, C86 decision over outcomes and times.  C81, C82, C87
  exact case analysis.
* C99 (`M_Announce`, `S_Announce`): dispatch, HTTP request and response, UDP socket and
  session composed with the time limit; the UDP part by induction over the inputs against
  an inductive specification of an answered exchange (`connecting`/`announcing`); then
  composed with C94.  Times are in nanoseconds.

### Concurrency
Model: `M_Nursery` (queue, workers, output channel, handles), `M_Async`
(unique_by, shutdown group), `M_Resolve` (get_torrent_file: main task, peer_job,
two pools), `M_Batch`.  Specification: `S_Nursery`, `S_Async`, `S_Resolve`:
projections of the list of observations.
* C52-C57 inductive invariants over reachable states; termination by a measure
  that every internal step decreases; C52 also for the pools of the commands (`P_Limits`).
* C58-C60 invariants relating both pools, the stream in between and the main
  task; C59 refuted (a race on `expect`).

* C100 (`M_BatchCmd`, `S_Disk`, `S_BatchCmd`): the batch task of `M_Batch` with each job
  replaced by the whole command 'get' (`M_Get`), its requests to the operating system
  being separate events.  `S_Disk` says what files hold after a sequence of requests by
  several tasks, each with its own file offset.  Invariant: a job's requests so far are
  a prefix of its own; progress and termination through the projection to `M_Batch`.
  Refuted as stated (two torrents of one name; silent peers); partial: different paths.

### DHT
Model: `M_Dht` (NodeSpace, LookupSession, actor).  Specification: `S_Dht`.
* C96, C97 (`M_App`, `S_App`): calls, mutex, channel of 64 and the actor as one
  transition system over the node model of C61-C70; invariants relating each
  call's state to the mutex, the channel and the node's sessions; progress from
  them and a measure.  C97 refuted for a failed bootstrap.
* C101 (`M_GetDht`, `S_GetDht`): the history of the process's DHT node (C96) joined to
  `get` (C93, C94) by what a lookup returned.  The node's theorems (C61-C67) give the
  peers and nodes; an invariant shows that a lookup is never answered 'stopped'.
* C98 (`M_Boot`, `S_Boot`): the resolution of the bootstrap nodes as a transition
  system (start a resolution, an answer arrives); invariant: every node is waiting,
  being resolved or answered, and the addresses are a permutation of the answered ones'.
* C61-C70, C85 invariants over all histories of lookups, datagrams, send
  failures and timeouts.  C64, C65 refuted for nodes sharing an id; partial:
  distinct ids.
* C102 (`M_Process`, `S_Process`): `Arguments::run`: the configuration, the command, then
  `App::shutdown`.  Composes the tracker query (C99), the DHT node shared by the lookups
  (C96) and the shutdown group (C57), on one clock.  The command is left open: it may query
  any trackers and make any lookups; a query of its may be dropped at any time, but a
  command does not return while a lookup of its is under way.  Proved by invariants over executions
  (`P_Process*`), the bound by a decreasing measure.  `prompt` executions let no time pass
  while something can be done without waiting for anything outside.  The command may
  panic at any time, which ends the process at once (C107).  Not modelled: the Tokio runtime's wait for blocking operations when it is dropped; a
  "started" announcement whose query is dropped before the answer gets no "stopped".

* C103 (`M_Session`, `M_Mse`, `M_GetInfo`; `S_Reason`, `S_Reason2`, `S_Reason3`): a
  declarative account of what can be wrong with a peer's bytes, then of a whole fetch.
  The exchange's verdict is shown equivalent to it by following the stream from one
  message to the next (`P_Reason`); the fetch by the lemmas behind C92 and C93.

* C104 (`M_Announce`; `S_Reason4`): a relation between what the network does and how a
  query ends, shown equivalent to a session's first return, state by state (`P_Reason5`),
  and then to the query as a whole.

* C105 (`M_Frame`, `M_Mse`; `S_Memory`): the states reached by reads of bounded size; the
  bounds are invariants of their steps.  False before the peer's key is dealt with.

* C106 (`M_Write`; `S_Write`): the functions from the TCP connection on once more, with
  an outcome for every write.  An exchange with some outcomes is shown to be the exchange
  without failures cut off at the first unsuccessful write (`P_Write`), for each of the
  functions; the fetch as a whole follows from that (`P_Write2`, `P_Write3`).  C106_exact and
  C106_reason redo C92 and C103 with these outcomes (`S_Write2`, `S_Write3`), and `M_Get`
  and `M_Commands` (C93 - C95, C99 - C101) use this version of the fetch.

* C107 (`M_Stdout`): query-tracker and query-dht with a standard output that takes only so
  many bytes; shown to be the commands of C95 with their output cut short (`P_Stdout`).  That
  the tracker is then still told "stopped" is refuted by an execution of `M_Process`.
* C108 (`S_Magnet2`): the reason a magnet link is refused, as a relation read off the
  parameters in order; equivalence with the model's error, for links and for files of them.
* C109 (`M_Nursery2`): the answers of the calls on a worker pool, in every state reachable in
  `M_Nursery`; the documented meaning of "done" is refuted.
* C110, C111 (`M_Log`): the texts of all Display implementations and errors that a log record can
  contain, Rust's Debug for strings and bytes::Bytes' Debug, and the records that show something
  received.  Which characters above U+007F Rust prints unescaped is a parameter; C110 assumes that
  control characters are not among them.  Texts of library errors are a parameter too.  C110 goes
  through the records; for C111 each kind of text is shown to be self-delimiting (a reader is given
  for escaped text, numbers and addresses), so that concatenations can be taken apart.  `T_Log`
  replays the repository's tests of these texts.
* C112 (`M_Report`): the executions of `M_Resolve`, `M_Get` and `M_Batch` with the warnings and
  errors they log (src/magnet.rs:36-103, src/main.rs:222-282).  Invariants relate the reports to
  the jobs finished and the results delivered; the theorems about `get` and `batch` follow from
  those of C93 and C60.
* C113 (`M_Duration`): the transition system of `M_Resolve` with a clock: a job is over when its
  time (arbitrary, per job) has passed since its worker began it, everything else takes no time,
  and time passes only when no task can act (`prompt`).  Proof: at any such moment all peer
  workers are busy, or all tracker workers, or only the last tracker queries are left, or only the
  last peers; the time spent in each of the four cases is bounded (invariant `tinv`).  Likewise for
  the batch command over `M_Batch`.
* C114 (`M_DhtTime`): the transition system of `M_Dht` with a clock: the sleep task of a query begins
  when it is sent and can end once the timeout has passed; every other event can come at any
  time.  By induction over the execution no timer is overdue, and the timer of each query began when the
  query was observed; a lookup that is unanswered has such a timer (C62).
* C115 (`M_Stderr`): src/main.rs:385-411 as a function from the records written to what is put on
  standard error, with the levels and modules of the records of C110 and C112.  Lines are unique
  (no line break inside of one) and their fixed-width head can be taken apart.
* C116 (on C93): the bytes of the file as a function of the info dictionary, the link's trackers,
  the DHT nodes and the clock, obtained for both runs and compared key by key (`S_Same`: what a
  list of operations leaves behind).
* C117 (on C100): the invariant of `P_BatchCmd` at the exit: every job has ended, has made all its
  requests, and none has panicked.
* C118 (on C62, C85, C98): `M_DhtUp.dht_start` composes the binding of the sockets, the resolution of the
  bootstrap nodes and the start of the actor; an invariant over the actor's events says which sends
  can succeed and which can fail.
* C111, all records: `S_LogAbout.tells_same`; every record's text is taken apart from the left (peers end
  in ">", trackers' URLs have none, hashes have forty digits, names are quoted).
* C119 (on C63, C111): `M_DhtLog.dht_log` gives the records of an execution of `M_Dht`; the invariant of the
  lookup (`P_Dht3.sinv`) relates the table of addresses to the nodes told of so far.
  `M_DhtLog2.full_log` has all records of the lookups but those of failures to send; `S_DhtLog2.logged` goes
  through the history and the log side by side, by induction on the execution.
* C120 (on C99): `M_TrackerLog.query_log`, beside `M_Announce.tracker_query`; that the tracker has answered is
  C99's `answers`/`answered`.  The records written during the "stopped" announcement and the trace records
  of UDP sessions are not modelled.
* C121 (on C78-C80): `M_PeerLog.session_log`, beside `M_Session.session`, branch for branch; the frames sent and
  received are C80's.  For the pieces in the log, the machine of C17 is run again on the logged messages.
  `M_PeerLog.run_log`, beside
  `M_Session.run_connect`, has the records of the attempts to connect.  Left out: those of src/peer/mod.rs:219,
  221 and 237.  Which
  messages are logged as received when this side ends the exchange is claimed only for the errors for which a
  message is to blame (`S_PeerLog.blamed`).

### Configuration
Model: `M_Config` over an abstract TOML document.  Specification: `S_Config`
(README).  C71, C72, C83: exact (iff) characterisations.

## Trusted base

* Coq's kernel (8.16.1).  `Print Assumptions` reports "Closed under the global
  context" for every theorem in `C_*.v`: no axioms, not even the standard
  library's, are used.  Only the standard library is imported.
* Some facts about concrete values are proved by `vm_compute`, so Coq's virtual
  machine is trusted for those; a few heavy ones (published test vectors) are
  `Check (eq_refl <: ...)` in `T_*.v`, which nothing depends on.
* That the model is /repo's code.  It was written by hand, function by
  function; the repository's unit tests are replayed on it (`T_*.v`).
* The behaviour of third-party code, modelled from its documentation and
  sources as known, not verified:
  bendy 0.6 (tokeniser, canonical-form and nesting checks, encoder's depth
  check); tokio_util LengthDelimitedCodec; tokio timeout, sleep, mpsc,
  JoinMap, TaskTracker, abort; async_channel; futures flatten and
  buffer_unordered; sha1, rc4, num_bigint; data-encoding; form_urlencoded; std's
  IP address parser and printer, fern and anstyle (C115), Debug for str (and bytes' for Bytes), from_utf8_lossy, HashMap/HashSet (as finite
  maps with unspecified order), BTreeMap; patharg; `toml`/`serde`.
* Left arbitrary (any function): `Url::parse` (its result is a record of scheme,
  user name and password, host, port, path, query, fragment; `url_host` parsing likewise), the TOML parser, DNS.

## Not modelled

When log records other than those of C112 and C119-C121 are written (their text is modelled, C110 and C111, and what
is put on standard error for them, C115); clap's command-line parsing; HTTP transport and TLS (reqwest): an HTTP
announce is the URL sent and the body received; the operating system's sockets
beyond "delivers these bytes / fails / stays silent"; the time a
successful TCP write takes, and how much of a failing one reaches the peer (writes that
fail or never end are modelled, C106); IPv6 flow labels and
scope ids; permissions and symbolic links of the file system (paths are resolved by
their components, C100; a failing file operation is a parameter); a standard error
that cannot be written (`fern` panics);
texts of library errors and of errors in the configuration or on the command line.

## Build-time notes

`coqchk` has no virtual machine: proofs that need heavy computation are kept out
of `.vo` files (see above).  The whole build takes a few minutes.
