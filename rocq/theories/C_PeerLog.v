(** C121 The log of an exchange with a peer. *)
From Verif Require Import Base BaseFacts S_Bencode S_Wire S_Download S_Frame S_Session M_Net M_Torrent M_Sha1 M_Extensions
  M_Messages M_Frame M_Peer M_Session M_Types M_Log M_PeerLog S_PeerLog P_Download P_Session P_PeerLog.

(** All records are of the peer.  After the handshake, the messages said to be sent are those written, one by
    one; those said to be received are what the first frames of the peer's stream say; and that the metadata was
    received is said just when it was. *)
Theorem C121_log : forall p su ih pid i reads e out s,
  length ih = 20%nat -> length pid = 20%nat -> wf_ip i -> session ih pid i reads e = (out, s) ->
  let g := session_log p su ih pid i reads e in
  Forall (of_peer p) g /\
  (exists h0 ws, out = h0 :: ws /\
     Forall2 (fun m w => exists code f, framed f w /\ frame_says code f m) (sent_of g) ws) /\
  (received_of g = [] \/
   exists h0 reserved rest fs1 fs2 rem, concat reads = h0 ++ rest /\ hello ih reserved h0 /\
     frames rest (fs1 ++ fs2) rem /\ Forall2 (frame_says 42) fs1 (received_of g)) /\
  (In (LMetadata su p) g <-> exists info, s = SDone (Ok info)).
Proof. exact session_logged. Qed.
Print Assumptions C121_log.
(** And every message of the peer that has arrived is in the log, as long as we have not ended the exchange: it is
    waiting, or the peer has closed the connection, or it broke. *)
Theorem C121_all_received : forall p su ih pid i reads e h0 reserved rest fs rem,
  length ih = 20%nat -> length pid = 20%nat -> wf_ip i -> left_by_peer (snd (session ih pid i reads e)) ->
  concat reads = h0 ++ rest -> hello ih reserved h0 -> frames rest fs rem ->
  Forall2 (frame_says 42) fs (received_of (session_log p su ih pid i reads e)).
Proof. exact session_all. Qed.
Print Assumptions C121_all_received.
(** And if this side ends it because of a message, that message is the last said to be received. *)
Theorem C121_blame : forall p su ih pid i reads e x,
  length ih = 20%nat -> length pid = 20%nat -> wf_ip i -> has_blame x -> snd (session ih pid i reads e) = SDone (Err x) ->
  exists l m, received_of (session_log p su ih pid i reads e) = l ++ [m] /\ blamed x m.
Proof. exact session_blame. Qed.
Print Assumptions C121_blame.
(** Whoever has the log of a successful exchange has the metadata: after the extended handshake, the messages
    said to be received hold every piece, in order. *)
Theorem C121_metadata_in_log : forall p su ih pid i reads e info,
  length ih = 20%nat -> length pid = 20%nat -> wf_ip i ->
  snd (session ih pid i reads e) = SDone (Ok info) ->
  exists m ms, received_of (session_log p su ih pid i reads e) = m :: ms /\ honest (ti_data info) 0 (map Ok ms).
Proof. exact session_received. Qed.
Print Assumptions C121_metadata_in_log.
(** Every request of the peer for a piece is said to be refused, and then refused, at once, unless the exchange is
    over with it; nothing else is refused. *)
Theorem C121_refusals : forall p su ih pid i reads e, refusing p (session_log p su ih pid i reads e).
Proof. exact session_refusing. Qed.
Print Assumptions C121_refusals.
(** The log begins with the peer's handshake, told once; if there is none there is nothing. *)
Theorem C121_handshake : forall p su ih pid i reads e,
  let g := session_log p su ih pid i reads e in
  (forall h h0 rest, concat reads = h0 ++ rest -> handshake_wire h h0 ->
     exists g', g = LShake p h :: g' /\ forall q h', ~ In (LShake q h') g') /\
  ((forall h h0 rest, concat reads = h0 ++ rest -> ~ handshake_wire h h0) -> g = []).
Proof. exact session_shake. Qed.
Print Assumptions C121_handshake.
(** There is one record for each connection attempted ([l]; true: with encryption), and an attempt without
    encryption after one with encryption is always preceded by the warning that the latter has failed; the
    warning is given in no other case. *)
Theorem C121_fallback : forall C p su d override pref requires limit (enc plain : timed (res peer_error C)) l t r,
  run_connect override pref requires limit enc plain = (l, t, r) ->
  let g := run_log p su d override pref requires limit enc plain in
  match l with
  | [] => g = [DAsking su p]
  | [_] => g = [DAsking su p; DConnecting p]
  | [true; false] => g = [DAsking su p; DConnecting p; DNote (LFallback p d); DConnecting p] /\
      exists t0, enc = Some (t0, Err ECryptoHandshake) /\ t0 <= limit
  | _ => False
  end.
Proof. exact @run_logged. Qed.
Print Assumptions C121_fallback.

Example C121_nonvacuous : forall p su, let g := session_log p su (sha1 ex_data) (bs "-DM0070-aaaaaaaaaaaa") (V4 2130706433) ex_stream Silent in
  map (fun x => match x with LShake _ _ => 0 | LSending _ _ => 1 | LReceived _ _ => 2 | LMetadata _ _ => 3 | _ => 4 end) g = [0; 1; 2; 1; 1; 2; 2; 2; 3] /\
  skipn 1 (sent_of g) = [Core HaveNone; Meta (MRequest 0)] /\
  skipn 1 (received_of g) = [Core Keepalive; Core HaveAll; Meta (MData 0 (blen ex_data) ex_data)].
Proof. vm_compute. repeat split. Qed.
(** A peer that asks for a piece itself, after its extended handshake *)
Example C121_refusals_nonvacuous : forall p su,
  skipn 5 (session_log p su (sha1 ex_data) (bs "-DM0070-aaaaaaaaaaaa") (V4 2130706433)
    [ex_hello; ex_frame ex_shake; ex_frame ([x14; x2a] ++ bs "d8:msg_typei0e5:piecei7ee")] Silent)
  = [LReceived p (Meta (MRequest 7)); LRejecting p 7; LSending p (Meta (MReject 7))].
Proof. vm_compute. reflexivity. Qed.
Example C121_all_received_nonvacuous : left_by_peer (snd (session (sha1 ex_data) (bs "-DM0070-aaaaaaaaaaaa") (V4 2130706433)
    [ex_hello; ex_frame ex_shake; ex_frame ([x14; x2a] ++ bs "d8:msg_typei0e5:piecei7ee")] Closed)).
Proof. vm_compute. exact I. Qed.
Example C121_fallback_nonvacuous : forall p su d,
  fst (fst (run_connect (C:=unit) None CPPrefer false 60 (Some (1, Err ECryptoHandshake)) (Some (1, Ok tt)))) = [true; false] /\
  length (run_log (C:=unit) p su d None CPPrefer false 60 (Some (1, Err ECryptoHandshake)) (Some (1, Ok tt))) = 4%nat.
Proof. intros. split; reflexivity. Qed.
(** A peer that refuses *)
Example C121_blame_nonvacuous : snd (session (sha1 ex_data) (bs "-DM0070-aaaaaaaaaaaa") (V4 2130706433)
    [ex_hello; ex_frame ex_shake; ex_frame ([x14; x2a] ++ bs "d8:msg_typei2e5:piecei0ee")] Silent) = SDone (Err (InfoRequestRejected 0)).
Proof. vm_compute. reflexivity. Qed.
