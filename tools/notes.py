NOTES.update({
"C01": "SHA-1 is the real function, implemented in Gallina and checked on test vectors.",
"C14": "False as stated (refuted with witnesses: name '..' under out/{name}/x.torrent, name '-' under {name}); proved when {name} occurs only in a last component that has another character.",
"C15": "False as stated (refuted: default template, same name); proved for pairwise different paths, every interleaving of writes.",
"C16": "False as stated (refuted: crash after truncation); proved: old contents or a prefix of the new, nothing else touched.",
"C76": "False as stated (refuted: any number of keep-alives, then silence, is waited for: src/peer/mod.rs:207 has no timeout around get_metadata_info); proved: at most 1280 requests, data messages bounded.",
"C77": "False as stated (refuted: {hash}/{name}/x with name '..'); proved when {hash} is in the last component.",
"C48": "False as stated (refuted: an error packet, action 3, is accepted whatever its transaction id, src/tracker/udp.rs Response::from_bytes; and the answer to the second copy of a connect request sent twice makes the announcement fail); proved: success-shaped replies with another transaction id are reported as a mismatch naming both ids.",
"C50": "Stated with an explicit bound on the lateness of timers (slack); slack 0 is the ideal timer.",
})
NOTES.update({
"C42": "False as stated (refuted: a peer that sends its public key and then nothing keeps the handshake waiting; the whole attempt times out and no unencrypted attempt is made); proved: a handshake failing within the connection's time limit, in particular a silent peer when the key-exchange timeout fits in it, is followed by an unencrypted attempt.",
"C73": "False as stated (refuted: dh-exchange-timeout = 9223372036854775807 is accepted and the handshake panics on Instant + Duration overflow); proved: it panics exactly if the deadline exceeds the clock's range.",
})
NOTES.update({
"C59": "False as stated (refuted: peer_job's expect() panics if it submits a peer right after the main task got its result and dropped the pool); proved: if no job panics the main task never does, and peer_job only after the result was returned.",
})
NOTES.update({
"C62": "For histories of at most 2^32 queries (no transaction id reused); 'never twice' for all. Time is not modelled: a timer's firing is an event that is always possible.",
"C64": "False as stated (refuted: of two nodes with the same id and different addresses the one that did not respond is reported in place of the one that did; src/dht/actor.rs mark_responsive looks up by id); proved: order, number, distinctness; the set of ids; and the full statement if the known nodes' ids are distinct.",
"C65": "False as stated (refuted by the same history: an address is reported that never sent anything); proved if the known nodes' ids are distinct.",
"C70": "The provable bound is useless in practice: nodes that each report one node with id equal to the target keep a lookup going for 2^32 queries (C70_not_small).",
"C93": "Composition of the models of the tasks, one peer, the torrent file and saving. What trackers and the DHT yield is a parameter (their own behaviour: C47-C51, C60-C72). Panics inside dependencies are not modelled.",
"C94": "False as stated (refuted: peer-jobs-per-magnet peers that complete the handshake and then send nothing keep 'get' waiting for ever, src/peer/mod.rs:207 has no time limit on the exchange); proved if fewer than that many never answer. 'Eventually' = in every state in which nothing more can happen but the end of a fetch that never ends.",
})
NOTES.update({
"C96": "Built on the model of one node (C61-C70, C85), which apply to what the shared node does (C96_histories). Panics and aborts of the actor's task are not modelled.",
"C97": "False as stated (refuted: if none of the bootstrap nodes can be resolved when the node is created, the actor ends, but its handle is kept in App's mutex: no later lookup of the process ever sends a query; src/app.rs:38-49, src/dht/actor.rs:125-132); proved for a failure to bind the socket.",
})
NOTES.update({
"C99": "Full for the query itself; the last clause ('get' succeeds) is C94's and has its exception, hence C99_resolves_partial. reqwest is represented by what becomes of a request (no response, status and body); redirections are reqwest's.",
})
NOTES.update({
"C100": "False as stated. Refuted: under the default template two torrents of the same name overwrite each other and 'batch' still exits with success (C100_lost_refuted: the first one's file is nowhere); saved at the same time they leave a file that is not bencode at all (C100_corrupt_refuted); batch-jobs links whose peers go silent keep all others from being started (C100_starved_refuted, after C94). Proved: the exit status; every succeeding job's file is complete if no other job opens the same file; all files if the paths differ, which a template with {hash} in its last component guarantees for different hashes; it ends if the jobs do.",
})
NOTES.update({
"C101": "False as stated in one clause: 'it succeeds if one of the peers named serves the metadata' has C94's exception (C101_resolves_partial), and no peer is ever named once the bootstrap nodes could not be resolved (C101_doomed_refuted, after C97). The rest is proved in full.",
})
NOTES.update({
"C102": "False as stated in one clause (C102_in_time_refuted): ShutdownGroup::shutdown waits a second time, without a limit and without cancelling; an announcement handed over between the two waits, by a task still running on another thread while it is aborted, is waited for without limit. Proved without such answers (C102_in_time_partial). 'At once' and 'in time' are about executions in which no time passes while the process has something to do (S_Process.prompt). A panic of the command, which ends the process without a shutdown, and the runtime's own wait for blocking operations (name resolution, standard input) when it is dropped are not modelled.",
})

NOTES.update({
"C103": "C103_exchange and C103_handshake say both directions: the error is reported exactly if the reason holds. C103_fetch says that the error reported for a whole fetch is one of the reasons that hold. A stream closed right after the four bytes of a frame's length counts as closed between messages (S_Reason.cut_header), which is what the code reports. Errors of the operating system are one value each (connect, send, receive).",
})

NOTES.update({
"C104": "Both directions: C104_reason (what is reported is how the query ended), C104_reported and C104_timeout (how it ended is reported), C104_one_end. For HTTP the specification does not fix the percent-encoding of the request's URL, so C104_reason is about some URL that puts the announcement and the converse about all such. Errors of the operating system and of reqwest are one value each.",
})

NOTES.update({
"C105": "False as stated for the handshake's first phase (C105_refuted): until dh-exchange-timeout everything the peer sends is appended to the input buffer, whatever its size, and its length is looked at only when the time is over. Proved for the rest of the handshake and for what it hands over (C105_handshake_partial), and for the messages (C105_frames). The metadata collected is bounded by C04_buffer_bounded. Capacities of buffers (allocated and unused) are not modelled; nor is the body of an HTTP response, which reqwest collects without a bound.",
})

NOTES.update({
"C106": "M_Write repeats connect, get_metadata_info, the encryption handshake and run with the outcomes of the writes; C106_successful, C106_exchange and C106_handshake relate them to the model the other properties are about, in which all writes succeed. A successful write takes no time, and what part of an unsuccessful one reaches the peer is not modelled.",
})
NOTES["C93"] += " Writes to a peer may fail or never end, as in C106."
NOTES["C94"] += " Writes to a peer may fail or never end, as in C106."
NOTES["C95"] = (NOTES.get("C95", "") + " In query-peer, writes to the peer may fail or never end, as in C106.").strip()

NOTES.update({
"C107": "The last part is false (C107_stopped_refuted): println! panics when standard output cannot be written (a closed pipe, a full disk), the panic ends the process without App::shutdown, and the announcement that the client has stopped is lost. The rest is proved. Standard output takes a number of bytes and then fails for good; a line may be taken in part.",
"C108": "For every URL parser. Simplification: the base32 decoder may refuse a padded 32-character text for the length of what it decodes to rather than for its alphabet; the model says InvalidBase32.",
"C109": "The last part is false (C109_done_refuted): until the workers have noticed that the input channel is closed the answer is \"empty\", not \"done\". The converse holds (C109_done_partial), and \"done\" is final.",
"C110": "Proved for every record but the one naming the output file, where the name in the metadata is cleaned of C0 controls only: DEL and the C1 controls go through (C110_saving_refuted; C110_saving_partial says what holds). The text of a bendy error has several lines (C110_one_line_refuted), so that a tracker's or peer's malformed answer does break the line, though with fixed text.",
"C111": "The last part is false: a connection lost during the encryption handshake reads like one lost later (C111_reason_kinds_refuted); all other kinds are told apart by their first words (C111_reason_kinds_partial).",
"C112": "Over the concurrent models of C93 and C60. Peers are identified by their addresses where they come from trackers (M_Resolve drops duplicates).",
"C113": "The transition system of C58 with a clock; only jobs take time, and how long each takes is arbitrary. That a tracker query is over within the announce timeout is C51; that a peer may take arbitrarily long is C76.",
"C114": "The transition system of C61 to C70 with a clock; handling an event takes no time, and a timer that is due fires before more time passes. C70 says that there can be very many valid replies.",
"C115": "fern (which module a level is for, one line break after each record) and anstyle (the codes of the styles) as documented; without colours AutoStream also removes escape sequences from texts, so the plain form is for texts without.",
"C116": "Equality of the info dictionaries is a hypothesis of the last part: that equal hashes come from equal dictionaries cannot be proved, there being collisions.",
})
