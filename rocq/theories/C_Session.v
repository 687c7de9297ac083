(** Properties C29, C40, C41, C76, C78-C80: framing, choosing encryption, and the whole
    exchange with a peer as bytes on a stream. *)
From Verif Require Import Base BaseFacts S_Bencode S_Wire S_Download S_Frame S_Session M_Net M_Torrent M_Sha1 M_Extensions
  M_Messages M_Frame M_Peer M_Session P_Frame P_Download P_Session P_Exchange.

(** C29: the frames reported depend only on the bytes, not on how they are cut
    into reads, and are those of the whole stream; the reader's verdict after the
    last one is that of [verdict] (in particular a length above the limit is
    refused even if nothing follows the length). *)
Theorem C29_segmentation_independent : forall reads e,
  (exists r, frames (concat reads) (fst (all_frames reads e)) r /\ snd (all_frames reads e) = verdict r e) /\
  (forall reads', concat reads' = concat reads -> all_frames reads' e = all_frames reads e).
Proof. exact segmentation. Qed.
Print Assumptions C29_segmentation_independent.
Theorem C29_frames_unique : forall s fs r fs' r', frames s fs r -> frames s fs' r' -> fs = fs' /\ r = r'.
Proof. exact (fun s fs r fs' r' H => frames_fun s fs r H fs' r'). Qed.
Print Assumptions C29_frames_unique.
Theorem C29_received_is_sent : forall msgs enc reads e,
  Forall2 (fun m b => frame_encode m = Some b) msgs enc -> concat reads = concat enc ->
  fst (all_frames reads e) = msgs.
Proof. exact sent_received. Qed.
Print Assumptions C29_received_is_sent.
Theorem C29_encoding : forall m b, frame_encode m = Some b <-> framed m b.
Proof. exact frame_encode_framed. Qed.
Print Assumptions C29_encoding.
Example C29_nonvacuous :
  all_frames [[x00]; [x00; x00; x02; x61]; [x62; x00; x00; x00]; [x00; x00; x01]] Closed = ([[x61; x62]; []], FrameError) /\
  all_frames [[x00; x01]; [x00; x00]] Silent = ([], FrameError) /\
  all_frames [[x00; x00]; [xff; xff]] Silent = ([], FramePending) /\
  Forall2 (fun m b => frame_encode m = Some b) [[x61; x62]; []] [[x00; x00; x00; x02; x61; x62]; [x00; x00; x00; x00]].
Proof. repeat split; try reflexivity. repeat constructor. Qed.

(** C40: [l]: the connections made, [true] for an encrypted one. *)
Theorem C40_required_never_plain : forall C override p limit (enc plain : timed (res peer_error C)) l t r,
  run_connect override p true limit enc plain = (l, t, r) -> ~ In false l.
Proof. exact @never_plain. Qed.
Print Assumptions C40_required_never_plain.
Example C40_nonvacuous :
  run_connect (C:=unit) (Some Prefer) CPNever true 60 (Some (1, Err ECryptoHandshake)) (Some (1, Ok tt))
  = ([true], 1, Err ECryptoHandshake) /\
  run_connect (C:=unit) None CPNever true 60 (Some (1, Ok tt)) (Some (1, Ok tt)) = ([], 0, Err CantRequireCrypto).
Proof. split; reflexivity. Qed.

(** C41 *)
Theorem C41_preference_honoured : forall C override p requires limit (enc plain : timed (res peer_error C)) l t r,
  run_connect override p requires limit enc plain = (l, t, r) ->
  let always := override = Some Encrypt \/ (override = None /\ p = CPAlways) in
  let never := override = Some Plain \/ (override = None /\ p = CPNever) in
  let prefer := override = Some Prefer \/ (override = None /\ p = CPPrefer) in
  let if_required := override = None /\ p = CPIfRequired in
  (always -> l = [true]) /\
  (never -> l = if requires then [] else [false]) /\
  (if_required -> l = if requires then [true] else [false]) /\
  (prefer -> l = [true] \/
     (l = [true; false] /\ requires = false /\ exists t0, enc = Some (t0, Err ECryptoHandshake) /\ t0 <= limit)) /\
  (prefer -> requires = false -> forall t0, enc = Some (t0, Err ECryptoHandshake) -> t0 <= limit -> l = [true; false]) /\
  t <= N.of_nat (length l) * limit.
Proof. exact @preference_honoured. Qed.
Print Assumptions C41_preference_honoured.
(** The result is that of the last connection made, each being given [limit]. *)
Theorem C41_result : forall C override p requires limit (enc plain : timed (res peer_error C)) l t r,
  run_connect override p requires limit enc plain = (l, t, r) ->
  let ends (f : timed (res peer_error C)) :=
    (exists t0, f = Some (t0, r) /\ t0 <= limit) \/ ((forall t0 a, f = Some (t0, a) -> limit < t0) /\ r = Err ConnectTimeout) in
  match rev l with
  | [] => r = Err CantRequireCrypto
  | true :: _ => ends enc
  | false :: _ => ends plain
  end.
Proof. exact @connect_result. Qed.
Print Assumptions C41_result.
Example C41_nonvacuous :
  run_connect (C:=unit) None CPPrefer false 60 (Some (30, Err ECryptoHandshake)) (Some (2, Ok tt)) = ([true; false], 32, Ok tt) /\
  run_connect (C:=unit) None CPPrefer false 60 None (Some (2, Ok tt)) = ([true], 60, Err ConnectTimeout).
Proof. split; reflexivity. Qed.

(** C78: whatever bytes arrive, in whatever pieces, and however the stream ends *)
Theorem C78_never_panics_and_authentic : forall ih pid i reads e out s,
  length ih = 20%nat -> length pid = 20%nat -> wf_ip i -> session ih pid i reads e = (out, s) ->
  s <> SPanicked /\
  forall info, s = SDone (Ok info) ->
    sha1 (ti_data info) = ih /\ ti_hash info = ih /\ bencoded_dict (ti_data info) /\
    exists h0 reserved rest, concat reads = h0 ++ rest /\ hello ih reserved h0 /\ advertises reserved Bep10.
Proof. exact session_authentic. Qed.
Print Assumptions C78_never_panics_and_authentic.
Theorem C78_segmentation_independent : forall ih pid i reads reads' e, concat reads = concat reads' ->
  session ih pid i reads e = session ih pid i reads' e.
Proof. exact session_seg. Qed.
Print Assumptions C78_segmentation_independent.
(** If the peer closes the connection, or reading fails, the exchange ends. *)
Theorem C78_ended_stream_ends : forall ih pid i reads e out s,
  length ih = 20%nat -> length pid = 20%nat -> wf_ip i -> e <> Silent -> session ih pid i reads e = (out, s) ->
  exists r, s = SDone r.
Proof. exact session_ends. Qed.
Print Assumptions C78_ended_stream_ends.

Example C78_nonvacuous :
  snd (session (bs "aaaaaaaaaaaaaaaaaaaa") (bs "-DM0070-aaaaaaaaaaaa") (V4 2130706433) ex_stream Closed)
    = SDone (Err (InfoHashMismatch (sha1 ex_data))) /\
  snd (session (sha1 ex_data) (bs "-DM0070-aaaaaaaaaaaa") (V4 2130706433) [ex_hello; ex_frame [x0e]] Closed)
    = SDone (Err NoExtendedHandshake) /\
  snd (session (sha1 ex_data) (bs "-DM0070-aaaaaaaaaaaa") (V4 2130706433) [ex_hello; ex_frame ex_shake; [x00]] Closed)
    = SDone (Err ERecv).
Proof. repeat split; vm_compute; reflexivity. Qed.

(** C79 *)
Theorem C79_honest_bytes_suffice : forall ih pid i data reads e,
  length pid = 20%nat -> wf_ip i -> bencoded_dict data -> sha1 data = ih -> blen data <= 20971520 ->
  honest_stream ih data (concat reads) ->
  snd (session ih pid i reads e) = SDone (Ok (mkTI ih data)).
Proof. exact session_honest. Qed.
Print Assumptions C79_honest_bytes_suffice.
(** And from no other byte streams *)
Theorem C79_exactly : forall ih pid i reads e data,
  length ih = 20%nat -> length pid = 20%nat -> wf_ip i ->
  (snd (session ih pid i reads e) = SDone (Ok (mkTI ih data)) <->
   bencoded_dict data /\ sha1 data = ih /\ blen data <= 20971520 /\ honest_stream ih data (concat reads)).
Proof. exact session_exact. Qed.
Print Assumptions C79_exactly.
Example C79_nonvacuous : bencoded_dict ex_data /\ honest_stream (sha1 ex_data) ex_data (concat ex_stream) /\
  snd (session (sha1 ex_data) (bs "-DM0070-aaaaaaaaaaaa") (V4 2130706433) ex_stream Silent) = SDone (Ok (mkTI (sha1 ex_data) ex_data)).
Proof. exact ex_session. Qed.

(** C80: the first thing sent is the handshake, advertising exactly the extension
    and fast protocols; nothing more is sent unless the peer's handshake is for
    the same torrent and supports the extension protocol; then the extended
    handshake, then at most a "have none" (only to peers with the fast
    extension), then only metadata requests and rejections under the peer's id. *)
Theorem C80_bytes_sent : forall ih pid i reads e out s,
  length ih = 20%nat -> length pid = 20%nat -> wf_ip i -> session ih pid i reads e = (out, s) ->
  exists h0 rest, out = h0 :: rest /\ handshake_wire (mkHS 1048580 ih pid) h0 /\
    (rest = [] \/
     exists ph reserved more w f tail,
       concat reads = ph ++ more /\ hello ih reserved ph /\ advertises reserved Bep10 /\
       rest = w :: tail /\ framed f w /\
       frame_says 42 f (ExtHandshake (mkEH None (Some [(bs "ut_metadata", 42)]) (Some (bs "demagnetize 0.7.0")) None (Some i))) /\
       exists havenone msgs, tail = havenone ++ msgs /\
         (havenone = [] \/ exists w2 f2, havenone = [w2] /\ framed f2 w2 /\ core_wire HaveNone f2 /\ advertises reserved Fast) /\
         (msgs = [] \/
          (havenone <> [] <-> advertises reserved Fast) /\
          exists w0 f0 shake code rest0 ms,
            more = w0 ++ rest0 /\ framed f0 w0 /\ frame_says 42 f0 (ExtHandshake shake) /\ offers shake code /\ 0 < code < 256 /\
            Forall2 (fun m b => (exists p, m = Meta (MRequest p) \/ m = Meta (MReject p)) /\
                                exists f, framed f b /\ frame_says code f m) ms msgs)).
Proof. exact session_sends. Qed.
Print Assumptions C80_bytes_sent.
Example C80_nonvacuous :
  length (fst (session (sha1 ex_data) (bs "-DM0070-aaaaaaaaaaaa") (V4 2130706433) ex_stream Silent)) = 4%nat /\
  advertises (be_bytes 8 1048580) Bep10 /\ advertises (be_bytes 8 1048580) Fast.
Proof. exact ex_session_sends. Qed.

(** C76: false.  After the handshake nothing limits the number of messages (or the
    time): a peer sending [n] keep-alives and then nothing is waited for, for
    every [n]. *)
Theorem C76_no_limit_refuted : forall n,
  exists reads, concat reads = ex_hello ++ ex_frame ex_shake ++ concat (repeat (ex_frame []) n) /\
    snd (session (sha1 ex_data) (bs "-DM0070-aaaaaaaaaaaa") (V4 2130706433) reads Silent) = SWaiting.
Proof. exact lazy_peer_refutes. Qed.
Print Assumptions C76_no_limit_refuted.
(** What does hold: only messages that carry no metadata can prolong the exchange;
    at most 1280 requests are made. *)
Theorem C76_progress_partial : forall ih declared evs size b i tr,
  get_metadata_info ih declared evs = (Waiting size b i, tr) ->
  N.of_nat (length (data_received tr)) < 1280 /\ N.of_nat (length (requests_sent tr)) <= 1280.
Proof. exact progress_bounded. Qed.
Print Assumptions C76_progress_partial.
(** Metadata of two pieces; so far only messages without metadata: one request, and waiting. *)
Example C76_nonvacuous : exists b i tr,
  get_metadata_info (repeat x00 20) (Some 16385) [Ok (Core Keepalive); Ok (Core Unchoke)] = (Waiting 16385 b i, tr) /\
  length (requests_sent tr) = 1%nat.
Proof. do 3 eexists. split; vm_compute; reflexivity. Qed.
