(** Properties C33, C34, C47-C51, C81: UDP trackers.  Packet formats: S_Udp; traces:
    S_UdpSession. *)
From Verif Require Import Base S_Utf8 M_Utf8 M_Net M_Session M_Tracker M_Udp S_Wire S_Udp S_UdpSession P_Udp P_UdpSession.

(** C33: the server reads back what was announced, and nothing else fits. *)
Theorem C33_connect_request :
  (forall txn, txn < 2 ^ 32 -> connect_packet txn (connection_request txn)) /\
  (forall t t' s, connect_packet t s -> connect_packet t' s -> t = t').
Proof. exact (conj connect_request_ok connect_packet_fun). Qed.
Print Assumptions C33_connect_request.
Theorem C33_announce_request :
  (forall cid txn a urldata, cid < 2 ^ 64 -> txn < 2 ^ 32 -> ann_ok a ->
     announce_packet cid txn a urldata (announce_request cid txn a urldata)) /\
  (forall c t a d c' t' a' d' s, an_crypto a = an_crypto a' ->
     announce_packet c t a d s -> announce_packet c' t' a' d' s -> c = c' /\ t = t' /\ a = a' /\ d = d').
Proof. exact (conj announce_request_ok announce_packet_fun). Qed.
Print Assumptions C33_announce_request.
Example C33_nonvacuous :
  let a := mkAnn (bs "aaaaaaaaaaaaaaaaaaaa") (bs "-DM-0070-bbbbbbbbbbb") 0 65535 0 EvStarted 7 50 6881 TCSupported in
  ann_ok a /\ length (announce_request 1 2 a (repeat x41 (N.to_nat 600))) = (98 + 600 + 2 * 3)%nat.
Proof. split; [repeat split|]; vm_compute; reflexivity. Qed.

(** C34 *)
Theorem C34_connect_response : forall s,
  (forall txn cid, response_from_bytes connection_response s = Ok (Success (txn, cid)) <-> connect_reply s txn cid) /\
  (forall m, response_from_bytes connection_response s = Ok (Failure m) <->
     exists raw, error_reply s raw /\ m = from_utf8_lossy raw) /\
  (forall e, response_from_bytes connection_response s = Err e ->
     e = UPacketLen M_Util.Short \/ exists a, first_word s a /\ a <> 0 /\ a <> 3 /\ e = UBadAction 0 a) /\
  (forall a, first_word s a -> a <> 0 -> a <> 3 -> response_from_bytes connection_response s = Err (UBadAction 0 a)).
Proof. exact (fun s => conj (connect_success s) (conj (response_failure connection_response s) (conj (connect_errors s) (connect_bad_action s)))). Qed.
Print Assumptions C34_connect_response.
Theorem C34_announce_response : forall v6 s,
  (forall txn r, response_from_bytes (udp_announce_response v6) s = Ok (Success (txn, r)) <-> announce_reply v6 s txn r) /\
  (forall m, response_from_bytes (udp_announce_response v6) s = Ok (Failure m) <->
     exists raw, error_reply s raw /\ m = from_utf8_lossy raw) /\
  (forall e, response_from_bytes (udp_announce_response v6) s = Err e ->
     e = UPacketLen M_Util.Short \/ exists a, first_word s a /\ a <> 1 /\ a <> 3 /\ e = UBadAction 1 a) /\
  (forall a, first_word s a -> a <> 1 -> a <> 3 -> response_from_bytes (udp_announce_response v6) s = Err (UBadAction 1 a)).
Proof.
  exact (fun v6 s => conj (announce_success v6 s) (conj (response_failure (udp_announce_response v6) s) (conj (announce_errors v6 s) (announce_bad_action v6 s)))).
Qed.
Print Assumptions C34_announce_response.
Example C34_nonvacuous :
  response_from_bytes connection_response (be_bytes 4 0 ++ be_bytes 4 7 ++ be_bytes 8 99 ++ bs "extra") = Ok (Success (7, 99)) /\
  response_from_bytes (udp_announce_response false)
    (be_bytes 4 1 ++ be_bytes 4 7 ++ be_bytes 4 1800 ++ be_bytes 4 3 ++ be_bytes 4 26 ++ [x7f; x00; x00; x01; x1a; xe1])
  = Ok (Success (7, mkResp 1800 [mkPeer (mkSA (V4 2130706433) 6881) None false] None None None None None (Some 3) (Some 26))) /\
  response_from_bytes (udp_announce_response false)
    (be_bytes 4 1 ++ be_bytes 4 7 ++ be_bytes 4 1800 ++ be_bytes 4 3 ++ be_bytes 4 26 ++ [x7f; x00; x00; x01; x1a])
  = Err (UPacketLen M_Util.Short) /\
  response_from_bytes connection_response (be_bytes 4 3 ++ be_bytes 4 7 ++ bs "no") = Ok (Failure (bs "no")).
Proof. vm_compute. auto. Qed.

(** C47 *)
Theorem C47_replies_match : forall urldata v6 is, Forall input_ok is -> forall pre t r post,
  snd (urun urldata v6 us_new is) = pre ++ OReturned t (Ok r) :: post -> justified urldata v6 pre r.
Proof. exact replies_match. Qed.
Print Assumptions C47_replies_match.
(** And a matching reply is accepted: if the last packet sent is an announce request, a
    reply to it is the result; if it is a connect request, a reply to it is followed by
    the announce request of the most recent call. *)
Theorem C47_matching_accepted : forall urldata v6 is st tr, Forall input_ok is -> urun urldata v6 us_new is = (st, tr) -> outstanding st ->
  forall p t1 req i d, tr = p ++ [OSent t1 req] -> ui_what i = InRecv (Some d) ->
  (forall cid txn a r, announce_packet cid txn a urldata req -> announce_reply v6 d txn r ->
     snd (ustep urldata v6 st i) = [OReceived (ui_at i) d; OReturned (ui_at i) (Ok r)]) /\
  (forall cid txn a, connect_packet txn req -> connect_reply d txn cid -> last_call tr a -> ui_txn i < 2 ^ 32 -> ui_send i = true ->
     exists req', snd (ustep urldata v6 st i) = [OReceived (ui_at i) d; OSent (ui_at i) req'] /\
       announce_packet cid (ui_txn i) a urldata req').
Proof. exact reply_accepted. Qed.
Print Assumptions C47_matching_accepted.
(** A complete history: connect, one retransmission, announce, second announce under
    the same connection. *)
Definition ex_ann := mkAnn (bs "aaaaaaaaaaaaaaaaaaaa") (bs "-DM-0070-bbbbbbbbbbb") 0 65535 0 EvStarted 7 50 6881 TCSupported.
Definition ex_reply (txn : N) := be_bytes 4 1 ++ be_bytes 4 txn ++ be_bytes 4 1800 ++ be_bytes 4 3 ++ be_bytes 4 26.
Definition ex_history :=
  [mkIn 0 (InAnnounce ex_ann) 5 true; mkIn (secs 15) InTimer 0 true;
   mkIn (secs 20) (InRecv (Some (be_bytes 4 0 ++ be_bytes 4 5 ++ be_bytes 8 99))) 6 true;
   mkIn (secs 21) (InRecv (Some (ex_reply 6))) 0 true;
   mkIn (secs 79) (InAnnounce ex_ann) 8 true; mkIn (secs 80) InExpiry 9 true].
Example C47_nonvacuous : Forall input_ok ex_history /\ prompt [] false 0 0 us_new ex_history /\
  snd (urun [] false us_new ex_history) =
  [OCalled 0 ex_ann; OSent 0 (connection_request 5); OSent (secs 15) (connection_request 5);
   OReceived (secs 20) (be_bytes 4 0 ++ be_bytes 4 5 ++ be_bytes 8 99);
   OSent (secs 20) (announce_request 99 6 ex_ann []); OReceived (secs 21) (ex_reply 6);
   OReturned (secs 21) (Ok (mkResp 1800 [] None None None None None (Some 3) (Some 26)));
   OCalled (secs 79) ex_ann; OSent (secs 79) (announce_request 99 8 ex_ann []); OSent (secs 80) (connection_request 9)].
Proof.
  split; [|split].
  - repeat constructor.
  - cbn [prompt ex_history]. repeat (split; [vm_compute; (discriminate || (intros D H; tauto) || (intros D H; subst; discriminate) || (intros D [H|H]; subst; discriminate))|]).
    exact I.
  - vm_compute. reflexivity.
Qed.

(** C48 is false: an error packet with any transaction id is reported as the
    tracker's failure. *)
Theorem C48_unrelated_datagrams_refuted : exists is t d m,
  Forall input_ok is /\
  snd (urun [] false us_new is) =
    [OCalled 0 ex_ann; OSent 0 (connection_request 5); OReceived t d; OReturned t (Err (UFailure m))] /\
  integers [(4%nat, 3); (4%nat, 6)] (firstn 8 d).
Proof.
  exists [mkIn 0 (InAnnounce ex_ann) 5 true; mkIn 1 (InRecv (Some (be_bytes 4 3 ++ be_bytes 4 6 ++ bs "go away"))) 0 true].
  exists 1, (be_bytes 4 3 ++ be_bytes 4 6 ++ bs "go away"), (bs "go away"). split; [repeat constructor|].
  split; [vm_compute; reflexivity|].
  apply (integers_bytes [(4%nat, 3); (4%nat, 6)]). repeat constructor.
Qed.
Print Assumptions C48_unrelated_datagrams_refuted.
(** Nor does the tracker have to misbehave: if the connect request has been sent again
    because the reply was late, and both copies are answered, the second answer, read while
    the announcement is under way, makes the announcement fail. *)
Theorem C48_late_duplicate_refuted :
  let d := be_bytes 4 0 ++ be_bytes 4 5 ++ be_bytes 8 99 in
  let is := [mkIn 0 (InAnnounce ex_ann) 5 true; mkIn (secs 15) InTimer 0 true; mkIn (secs 16) (InRecv (Some d)) 6 true; mkIn (secs 17) (InRecv (Some d)) 0 true] in
  Forall input_ok is /\ prompt [] false 0 0 us_new is /\ connect_packet 5 (connection_request 5) /\ connect_reply d 5 99 /\
  snd (urun [] false us_new is) =
    [OCalled 0 ex_ann; OSent 0 (connection_request 5); OSent (secs 15) (connection_request 5); OReceived (secs 16) d;
     OSent (secs 16) (announce_request 99 6 ex_ann []); OReceived (secs 17) d; OReturned (secs 17) (Err (UBadAction 1 0))].
Proof.
  intros d is. split; [repeat constructor|]. split.
  { cbn [prompt is]. repeat (split; [vm_compute; (discriminate || (intros D H; tauto) || (intros D H; subst; discriminate) || (intros D [H|H]; subst; discriminate))|]). exact I. }
  split; [apply connect_request_ok; reflexivity|]. split; [|vm_compute; reflexivity].
  exists d, []. split; [symmetry; apply app_nil_r|]. apply (integers_bytes [(4%nat, 0); (4%nat, 5); (8%nat, 99)]). repeat constructor.
Qed.
Print Assumptions C48_late_duplicate_refuted.
(** What does hold: a well-formed connect or announce reply with another transaction
    id is reported as a mismatch, naming both ids, and not as a tracker failure. *)
Theorem C48_mismatch_named_partial :
  (forall urldata v6 c cx txn m n s a i d y r,
     announce_reply v6 d y r -> y <> txn -> ui_what i = InRecv (Some d) ->
     snd (ustep urldata v6 (mkUS c (UAnnouncing cx txn m n s a)) i)
     = [OReceived (ui_at i) d; OReturned (ui_at i) (Err (UXactionMismatch txn y))]) /\
  (forall urldata v6 c txn m n s a i d y cid,
     connect_reply d y cid -> y <> txn -> ui_what i = InRecv (Some d) ->
     snd (ustep urldata v6 (mkUS c (UConnecting txn m n s a)) i)
     = [OReceived (ui_at i) d; OReturned (ui_at i) (Err (UXactionMismatch txn y))]).
Proof. exact (conj announce_mismatch connect_mismatch). Qed.
Print Assumptions C48_mismatch_named_partial.
Example C48_nonvacuous :
  snd (urun [] false us_new [mkIn 0 (InAnnounce ex_ann) 5 true;
     mkIn (secs 20) (InRecv (Some (be_bytes 4 0 ++ be_bytes 4 6 ++ be_bytes 8 99))) 6 true])
  = [OCalled 0 ex_ann; OSent 0 (connection_request 5); OReceived (secs 20) (be_bytes 4 0 ++ be_bytes 4 6 ++ be_bytes 8 99);
     OReturned (secs 20) (Err (UXactionMismatch 5 6))].
Proof. vm_compute. reflexivity. Qed.

(** C49: whenever a call has not returned, the trace ends with the sendings of the
    current packet, spaced as BEP 15 says, and when the next wait is over the packet
    is sent again and the call still has not returned. *)
Theorem C49_retransmission : forall urldata v6 slack is,
  Forall input_ok is -> prompt urldata v6 slack 0 us_new is ->
  let (st, tr) := urun urldata v6 us_new is in
  outstanding st -> exists p m ts last,
    tr = p ++ sent_at m (ts ++ [last]) /\ ~ (exists q t, p = q ++ [OSent t m]) /\ spaced slack 0 (ts ++ [last]) /\
    forall t txn, last + bep15_wait (length ts) <= t ->
      exists st', ustep urldata v6 st (mkIn t InTimer txn true) = (st', [OSent t m]) /\ outstanding st'.
Proof. exact retransmission. Qed.
Print Assumptions C49_retransmission.
Theorem C49_waits : forall k, bep15_wait k <= 3840 * second /\ bep15_wait (S k) = N.min (2 * bep15_wait k) (3840 * second) /\ bep15_wait 0 = 15 * second.
Proof. exact wait_bound. Qed.
Print Assumptions C49_waits.
Example C49_nonvacuous :
  let is := [mkIn 0 (InAnnounce ex_ann) 5 true; mkIn (secs 15) InTimer 0 true; mkIn (secs 45) InTimer 0 true; mkIn (secs 105) InTimer 0 true] in
  Forall input_ok is /\ prompt [] false 0 0 us_new is /\
  snd (urun [] false us_new is) = OCalled 0 ex_ann :: sent_at (connection_request 5) [0; secs 15; secs 45; secs 105].
Proof.
  split; [|split].
  - repeat constructor.
  - cbn [prompt]. repeat (split; [vm_compute; (discriminate || (intros D H; tauto) || (intros D H; subst; discriminate))|]). exact I.
  - vm_compute. reflexivity.
Qed.

(** C50: every announce packet goes out within 60 seconds (plus the lateness of the
    timers) of obtaining its connection id. *)
Theorem C50_fresh_connection_ids : forall urldata v6 slack is,
  Forall input_ok is -> prompt urldata v6 slack 0 us_new is ->
  forall pre t req cid txn a post,
  snd (urun urldata v6 us_new is) = pre ++ OSent t req :: post -> announce_packet cid txn a urldata req ->
  exists t0, obtained pre cid t0 /\ t0 <= t <= t0 + 60 * second + slack.
Proof. exact connections_fresh. Qed.
Print Assumptions C50_fresh_connection_ids.
(** Until then the connection id is used again: a call begins with the announce request
    if less than 60 seconds have passed since the current id was obtained, and with a
    connect request otherwise; and after a successful call there is a current id. *)
Theorem C50_reused : forall urldata v6 is st tr, Forall input_ok is -> urun urldata v6 us_new is = (st, tr) -> ~ outstanding st ->
  forall i a, ui_what i = InAnnounce a -> ann_ok a -> ui_txn i < 2 ^ 32 -> ui_send i = true ->
  exists req, snd (ustep urldata v6 st i) = [OCalled (ui_at i) a; OSent (ui_at i) req] /\
    match us_conn st with
    | Some cx => exists t0, obtained tr (cx_id cx) t0 /\
        ((ui_at i < t0 + 60 * second /\ announce_packet (cx_id cx) (ui_txn i) a urldata req) \/
         (t0 + 60 * second <= ui_at i /\ connect_packet (ui_txn i) req))
    | None => connect_packet (ui_txn i) req
    end.
Proof. exact connection_reused. Qed.
Print Assumptions C50_reused.
Theorem C50_kept : forall urldata v6 is st tr p t r, urun urldata v6 us_new is = (st, tr) -> tr = p ++ [OReturned t (Ok r)] -> us_conn st <> None.
Proof. exact connection_kept. Qed.
Print Assumptions C50_kept.
Example C50_nonvacuous : exists pre post,
  snd (urun [] false us_new ex_history) = pre ++ OSent (secs 79) (announce_request 99 8 ex_ann []) :: post /\
  announce_packet 99 8 ex_ann [] (announce_request 99 8 ex_ann []).
Proof.
  exists (firstn 8 (snd (urun [] false us_new ex_history))), [OSent (secs 80) (connection_request 9)].
  split; [vm_compute; reflexivity|]. apply announce_request_ok; repeat split.
Qed.

(** C51 *)
Theorem C51_stop_iff_peers : forall E limit s (conn : timed (res E unit)) ann,
  let '(made, scheduled, t, r) := getter_run limit s conn ann in
  t <= limit /\
  (made = [] \/ made = [start_announcement s]) /\
  match r with
  | Ok ps => made = [start_announcement s] /\ scheduled = Some (stop_announcement s) /\
      (exists t1 t2 resp, conn = Some (t1, Ok tt) /\ ann (start_announcement s) = Some (t2, Ok resp) /\
         ps = ar_peers resp /\ t = t1 + t2)
  | Err GTimeout => scheduled = None /\ t = limit /\
      ((forall t1 x, conn = Some (t1, x) -> limit < t1) \/
       exists t1, conn = Some (t1, Ok tt) /\ forall t2 x, ann (start_announcement s) = Some (t2, x) -> limit < t1 + t2)
  | Err (GInner e) => scheduled = None /\
      (conn = Some (t, Err e) \/ exists t1 t2, conn = Some (t1, Ok tt) /\ ann (start_announcement s) = Some (t2, Err e) /\ t = t1 + t2)
  end.
Proof. exact stop_iff_peers. Qed.
Print Assumptions C51_stop_iff_peers.
Theorem C51_same_identity : forall s,
  let a := start_announcement s in let z := stop_announcement s in
  an_event a = EvStarted /\ an_event z = EvStopped /\
  an_hash a = s_hash s /\ an_hash z = s_hash s /\ an_pid a = s_id s /\ an_pid z = s_id s /\
  an_key a = s_key s /\ an_key z = s_key s /\ an_port a = s_port s /\ an_port z = s_port s /\
  an_numwant a = s_numwant s /\ an_numwant z = s_numwant s /\
  an_downloaded a = 0 /\ an_downloaded z = 0 /\ an_uploaded a = 0 /\ an_uploaded z = 0 /\ 0 < an_left a /\ an_left z = an_left a.
Proof. exact same_identity. Qed.
Print Assumptions C51_same_identity.

(** C86: what trackers are told about encryption, in both announcements. *)
Theorem C86_tracker_crypto : forall s,
  an_crypto (stop_announcement s) = an_crypto (start_announcement s) /\
  match s_override s with
  | Some c => an_crypto (start_announcement s) = c
  | None => an_crypto (start_announcement s) =
      match s_pref s with CPAlways => TCRequired | CPNever => TCPlain | CPPrefer | CPIfRequired => TCSupported end
  end.
Proof. exact announced_crypto. Qed.
Print Assumptions C86_tracker_crypto.
Example C86_nonvacuous : an_crypto (stop_announcement (mkTS [] (Some TCPlain) CPAlways [] 0 0 0)) = TCPlain.
Proof. reflexivity. Qed.

(** C87: [lookup]: the addresses the tracker's name resolves to. *)
Theorem C87_socket : forall lookup bind_ok connect_ok bound peer v6,
  udp_socket lookup bind_ok connect_ok = Ok (bound, peer, v6) <->
  bind_ok = true /\ connect_ok = true /\ (exists others, lookup = Some (peer :: others)) /\
  ((is_v4 peer /\ bound = bs "0.0.0.0:0" /\ v6 = false) \/ (~ is_v4 peer /\ bound = bs "[::]:0" /\ v6 = true)).
Proof. exact socket_spec. Qed.
Print Assumptions C87_socket.
Example C87_nonvacuous : udp_socket (Some [mkSA (V6 1) 80; mkSA (V4 1) 80]) true true = Ok (bs "[::]:0", mkSA (V6 1) 80, true).
Proof. reflexivity. Qed.
Example C51_nonvacuous :
  let s := mkTS (bs "aaaaaaaaaaaaaaaaaaaa") None CPAlways (bs "-DM-0070-bbbbbbbbbbb") 7 6881 50 in
  snd (getter_run (E := unit) 30 s (Some (1, Ok tt)) (fun _ => Some (29, Ok (mkResp 1800 [] None None None None None None None)))) = Ok [] /\
  snd (getter_run (E := unit) 30 s (Some (1, Ok tt)) (fun _ => Some (30, Ok (mkResp 1800 [] None None None None None None None)))) = Err GTimeout.
Proof. vm_compute. auto. Qed.

(** C81 *)
Theorem C81_udp_url : forall u, match udp_url_of u with
  | Ok x => u_scheme u = bs "udp" /\ u_port u = Some (uu_port x) /\
      uu_data x = u_path u ++ match u_query u with Some q => bs "?" ++ q | None => [] end /\
      match u_host u with
      | Some (HDomain d) => uu_host x = d
      | Some (HIp i) => uu_host x = show_ip i
      | None => False
      end
  | Err (UnsupportedScheme s) => s = u_scheme u /\ s <> bs "udp"
  | Err NoHost => u_scheme u = bs "udp" /\ u_host u = None
  | Err NoUdpPort => u_scheme u = bs "udp" /\ u_host u <> None /\ u_port u = None
  end.
Proof. exact udp_url_spec. Qed.
Print Assumptions C81_udp_url.
Example C81_nonvacuous :
  udp_url_of (mkUrl (bs "udp") (Some (HDomain (bs "t.example"))) (Some 1337) (bs "/announce") (Some (bs "a=b")))
  = Ok (mkUU (bs "t.example") 1337 (bs "/announce?a=b")).
Proof. vm_compute. reflexivity. Qed.
