(** Properties C42-C46, C73, C84: message stream encryption.  Specification: S_Mse (the
    responder's side of the protocol).  [reads]: what successive reads from the
    connection give and when; [before]: those finishing by the key-exchange deadline,
    [now + ns secs]. *)
From Verif Require Import Base BaseFacts M_Sha1 M_Rc4 M_Mse S_Mse P_Mse P_Mse2 M_Net M_Torrent M_Peer M_Frame M_Session P_Session M_Connect M_Config.

(** C43: any key pairs, pads and torrent.  B (private key [xb]) sends its key packet in
    time and, once it has packet 3, its reply and payload under its cipher.  Then packet 3
    is one B accepts, A ends with RC4 at B's keystream positions, and what A has received
    decrypts to B's payload. *)
Theorem C43_conforming_responder : forall skey secs pada padc key now before after xb padb padd payload,
  now / 1000000000 + secs < 2 ^ 63 -> padc <= 512 -> (length padb <= 512)%nat -> blen padd < 65536 ->
  only_data before -> only_data after -> split_at (now + ns secs) before after ->
  data before = public xb ++ padb ->
  let secret := shared (public (be_val key)) xb in
  let cb := cipher (bs "keyB") secret skey in
  data after = fst (rc4_apply cb (packet4 padd ++ payload)) ->
  exists p3 t o rest later,
    handshake skey secs pada padc key now (before ++ after) =
      ([(now, public (be_val key) ++ pada); (now + ns secs, p3)], HDone t (KRc4 o (snd (rc4_apply cb (packet4 padd)))) rest later) /\
    reads_packet3 secret skey p3 2 [] o /\ only_data later /\
    fst (rc4_apply (snd (rc4_apply cb (packet4 padd))) (rest ++ data later)) = payload.
Proof. exact responder. Qed.
Print Assumptions C43_conforming_responder.
(** Both sides compute the same secret. *)
Theorem C43_same_secret : forall xa xb, shared (public xb) xa = shared (public xa) xb.
Proof. exact shared_comm. Qed.
Print Assumptions C43_same_secret.
Example C43_nonvacuous :
  let key := bs "0123456789abcdefghij" in let skey := bs "abcdefghij0123456789" in let xb := 123456789 in
  let cb := cipher (bs "keyB") (shared (public (be_val key)) xb) skey in
  let c := fst (rc4_apply cb (packet4 (bs "padding") ++ bs "payload")) in
  let before := [(ns 1, RData (firstn 50 (public xb ++ bs "PadB"))); (ns 2, RData (skipn 50 (public xb ++ bs "PadB")))] in
  let after := [(ns 31, RData (firstn 3 c)); (ns 32, RData (skipn 3 c))] in
  only_data before /\ only_data after /\ split_at (0 + ns 30) before after /\
  data before = public xb ++ bs "PadB" /\ data after = c.
Proof.
  cbv zeta. repeat match goal with |- _ /\ _ => split end.
  - apply only_data_2.
  - apply only_data_2.
  - apply split_2; vm_compute; [discriminate|discriminate|reflexivity].
  - apply data_2.
  - apply data_2.
Qed.

(** C44 *)
Theorem C44_segmentation_independent : forall skey secs pada padc key now b1 a1 b2 a2, now / 1000000000 + secs < 2 ^ 63 ->
  only_data b1 -> only_data a1 -> only_data b2 -> only_data a2 ->
  split_at (now + ns secs) b1 a1 -> split_at (now + ns secs) b2 a2 -> data b1 = data b2 -> data a1 = data a2 ->
  map snd (fst (handshake skey secs pada padc key now (b1 ++ a1))) = map snd (fst (handshake skey secs pada padc key now (b2 ++ a2))) /\
  same_end (snd (handshake skey secs pada padc key now (b1 ++ a1))) (snd (handshake skey secs pada padc key now (b2 ++ a2))).
Proof. exact segmentation. Qed.
Print Assumptions C44_segmentation_independent.
(** At the level of the state machine, whatever its state. *)
Theorem C44_pieces : forall s a b, handle_input s (a ++ b) = (let? s1 := handle_input s a in handle_input s1 b).
Proof. exact handle_input_app. Qed.
Print Assumptions C44_pieces.
Example C44_nonvacuous :
  let c := fst (rc4_apply (rc4_init (bs "key")) (packet4 (bs "pad") ++ bs "rest")) in
  let s := mkShaker (Packet4 (KRc4 (rc4_init (bs "k")) (rc4_init (bs "key"))) Vc) None 0 [] None [] 2 in
  (exists ks, (let? s1 := handle_input s (firstn 9 c) in let? s2 := handle_input s1 (firstn 4 (skipn 9 c)) in handle_input s2 (skipn 13 c))
     = Ok (mkShaker (Done ks) None 0 [] None (skipn 17 c) 2)) /\ length c = 21%nat.
Proof. cbv zeta. split; [eexists; vm_compute; reflexivity|vm_compute; reflexivity]. Qed.

(** C45: [s]: the stream after the handshake ([e_rbuf]: bytes received but not yet
    decrypted), [l]: any operations with any behaviour of the socket. *)
Theorem C45_transparent : forall l s o0 i0 t s', e_ks s = KRc4 o0 i0 -> perform s l = (t, s') ->
  exists o i, e_ks s' = KRc4 o i /\
    (exists eaten, e_rbuf s ++ received t = eaten ++ e_rbuf s' /\ rc4_apply i0 eaten = (read t, i)) /\
    e_wbuf s ++ fst (rc4_apply o0 (written t)) = sent t ++ e_wbuf s' /\ o = snd (rc4_apply o0 (written t)).
Proof. exact transparent. Qed.
Print Assumptions C45_transparent.
(** A read reports the end of the stream only if the peer closed it. *)
Theorem C45_no_false_end : forall s n sock s', poll_read s n sock = (Some [], s') -> n = 0 \/ (e_rbuf s = [] /\ sock = Some []).
Proof. exact no_false_eof. Qed.
Print Assumptions C45_no_false_end.
(** A flush with a socket that keeps taking bytes sends everything. *)
Theorem C45_flush : forall sock s, Forall (fun n => 0 < n) sock -> (length (e_wbuf s) <= length sock)%nat ->
  e_wbuf (snd (poll_flush s sock)) = [].
Proof. exact flush_empties. Qed.
Print Assumptions C45_flush.
Example C45_nonvacuous :
  let st := rc4_init (bs "key") in
  let c := fst (rc4_apply st (bs "hello world")) in
  let s := mkES (KRc4 (rc4_init (bs "other")) st) (firstn 4 c) [] in
  let l := [OpRead 3 None; OpWrite (bs "ab"); OpFlush [1]; OpRead 9 None; OpWrite (bs "cd"); OpRead 5 None;
            OpRead 5 (Some (firstn 5 (skipn 4 c))); OpFlush [0; 2; 7]; OpRead 5 (Some (skipn 9 c))] in
  let (t, s') := perform s l in
  read t = bs "hello world" /\ received t = skipn 4 c /\ written t = bs "abcd" /\
  sent t = fst (rc4_apply (rc4_init (bs "other")) (bs "abcd")) /\ e_wbuf s' = [] /\ e_rbuf s' = [].
Proof. vm_compute. auto 10. Qed.

(** C46: the handshake is established exactly if the key packet has a proper length and
    the reply, decrypted, is the verification constant, RC4 and padding; it is refused as
    soon as that is impossible.  [p]: the reply decrypted. *)
Theorem C46_established : forall skey secs pada padc key now before after,
  now / 1000000000 + secs < 2 ^ 63 -> only_data before -> only_data after -> split_at (now + ns secs) before after ->
  let secret := shared (firstn 96 (data before)) (be_val key) in
  let p := fst (rc4_apply (cipher (bs "keyB") secret skey) (data after)) in
  (exists o t ks rest later, handshake skey secs pada padc key now (before ++ after) = (o, HDone t ks rest later)) <->
  96 <= blen (data before) <= 608 /\ exists padd payload, conforming_reply p padd payload.
Proof. exact run_established. Qed.
Print Assumptions C46_established.
Theorem C46_refused : forall skey secs pada padc key now before after,
  now / 1000000000 + secs < 2 ^ 63 -> only_data before -> only_data after -> split_at (now + ns secs) before after ->
  let secret := shared (firstn 96 (data before)) (be_val key) in
  let p := fst (rc4_apply (cipher (bs "keyB") secret skey) (data after)) in
  (exists o t e, handshake skey secs pada padc key now (before ++ after) = (o, HFail t e)) <->
  ~ (96 <= blen (data before) <= 608) \/ wrong_reply p.
Proof. exact run_refused. Qed.
Print Assumptions C46_refused.
(** A key packet of the wrong length: nothing beyond packet 1 is ever sent. *)
Theorem C46_key_packet : forall skey secs pada padc key now before after,
  now / 1000000000 + secs < 2 ^ 63 -> only_data before -> split_at (now + ns secs) before after ->
  ~ (96 <= blen (data before) <= 608) ->
  handshake skey secs pada padc key now (before ++ after) =
    ([(now, public (be_val key) ++ pada)], HFail (now + ns secs) (Packet2Len (blen (data before)))).
Proof. exact run_badlen. Qed.
Print Assumptions C46_key_packet.
(** A connection closed or broken before the handshake is complete is a failure. *)
Theorem C46_closed_early : forall skey secs pada padc key now before t r more, now / 1000000000 + secs < 2 ^ 63 -> only_data before ->
  (forall e, In e before -> fst e <= now + ns secs) -> t <= now + ns secs -> (r = REof \/ r = RError) ->
  exists o t' e, handshake skey secs pada padc key now (before ++ (t, r) :: more) = (o, HFail t' e).
Proof. exact closed_early. Qed.
Print Assumptions C46_closed_early.
Theorem C46_closed_late : forall skey secs pada padc key now before after t r more,
  now / 1000000000 + secs < 2 ^ 63 -> only_data before -> only_data after ->
  split_at (now + ns secs) before (after ++ (t, r) :: more) -> (r = REof \/ r = RError) ->
  (exists o t' e, handshake skey secs pada padc key now (before ++ after ++ (t, r) :: more) = (o, HFail t' e)) \/
  (96 <= blen (data before) <= 608 /\ exists padd payload,
    conforming_reply (fst (rc4_apply (cipher (bs "keyB") (shared (firstn 96 (data before)) (be_val key)) skey) (data after))) padd payload).
Proof. exact closed_late. Qed.
Print Assumptions C46_closed_late.
Example C46_nonvacuous :
  conforming_reply (packet4 (bs "pad") ++ bs "x") (bs "pad") (bs "x") /\
  wrong_reply (zeros 8 ++ [x00; x00; x00; x01]) /\ wrong_reply (zeros 8 ++ [x00; x00; x00; x03]) /\ wrong_reply (zeros 7 ++ [x01]) /\
  ~ wrong_reply (zeros 8 ++ [x01]) /\
  snd (handshake (bs "01234567890123456789") 30 [] 0 [x05] 7 []) = HFail (7 + ns 30) (Packet2Len 0) /\
  snd (handshake (bs "01234567890123456789") 30 [] 0 [x05] 7 [(9, RData (zeros 96)); (ns 40, RData (zeros 8))]) = HFail (ns 40) VcNotZero.
Proof.
  repeat match goal with |- _ /\ _ => split end; try (vm_compute; reflexivity).
  - split; vm_compute; reflexivity.
  - right. split; [vm_compute; discriminate|discriminate].
  - right. split; [vm_compute; discriminate|discriminate].
  - left. split; [vm_compute; discriminate|discriminate].
  - intros [(_ & W)|(L & _)]; [apply W; reflexivity|]. vm_compute in L. apply L. reflexivity.
Qed.

(** C42: the claim is false.  A peer that sends its public key and then nothing keeps the
    handshake waiting for ever; with 'prefer' the attempt times out and the peer is not
    tried without encryption.  [plain]: how the unencrypted attempt would have gone. *)
Theorem C42_refuted : ~ forall skey secs pada padc key reads (finish : N -> keystream -> bytes -> script -> timed (res peer_error unit)) limit plain enc,
  (forall t, 0 / 1000000000 + secs < 2 ^ 63 -> forall ks rest later, snd (handshake skey secs pada padc key 0 reads) <> HDone t ks rest later) ->
  connect_encrypted 0 (Some (0, Ok tt)) (fun t => snd (handshake skey secs pada padc key t reads)) finish = Ret enc ->
  exists l t r, run_connect None CPPrefer false limit enc plain = (l, t, r) /\ In false l.
Proof. exact prefer_refuted. Qed.
Print Assumptions C42_refuted.
(** In general: key, then silence. *)
Theorem C42_stall : forall skey secs pada padc key now t0 before (finish : N -> keystream -> bytes -> script -> timed (res peer_error unit)) limit plain enc,
  (now + t0) / 1000000000 + secs < 2 ^ 63 -> only_data before -> (forall e, In e before -> fst e <= now + t0 + ns secs) ->
  96 <= blen (data before) <= 608 ->
  connect_encrypted now (Some (t0, Ok tt)) (fun t => snd (handshake skey secs pada padc key t before)) finish = Ret enc ->
  run_connect None CPPrefer false limit enc plain = ([true], limit, Err ConnectTimeout).
Proof. exact stall. Qed.
Print Assumptions C42_stall.
(** What holds: a handshake that fails within the time limit is followed by an attempt
    without encryption. *)
Theorem C42_failure_partial : forall C (finish : N -> keystream -> bytes -> script -> timed (res peer_error C)) now tcp t0 hs t e limit plain enc,
  tcp = Some (t0, Ok tt) -> hs (now + t0) = HFail t e ->
  connect_encrypted now tcp hs finish = Ret enc -> t <= now + limit ->
  exists t' r, run_connect None CPPrefer false limit enc plain = ([true; false], t', r).
Proof. exact @fallback. Qed.
Print Assumptions C42_failure_partial.
(** In particular a peer that does not answer at all, if the key-exchange timeout ends
    within the connection's time limit. *)
Theorem C42_silent_partial : forall C skey secs pada padc key now t0 (finish : N -> keystream -> bytes -> script -> timed (res peer_error C)) limit plain enc,
  (now + t0) / 1000000000 + secs < 2 ^ 63 -> t0 + ns secs <= limit ->
  connect_encrypted now (Some (t0, Ok tt)) (fun t => snd (handshake skey secs pada padc key t [])) finish = Ret enc ->
  exists t' r, run_connect None CPPrefer false limit enc plain = ([true; false], t', r).
Proof. exact @silent_fallback. Qed.
Print Assumptions C42_silent_partial.
(** A peer that cannot be reached at all is reported as such, and not tried again. *)
Theorem C42_unreachable_partial : forall C (finish : N -> keystream -> bytes -> script -> timed (res peer_error C)) now t0 hs limit plain enc,
  connect_encrypted now (Some (t0, Err EConnect)) hs finish = Ret enc -> t0 <= limit ->
  run_connect None CPPrefer false limit enc plain = ([true], t0, Err EConnect).
Proof. exact @unreachable. Qed.
Print Assumptions C42_unreachable_partial.
(** A peer that sends 96 zero bytes as its key and stops; one that is silent (limit 60 s, key
    exchange 30 s); one that cannot be reached after 5 s.  [ex_finish]: any continuation. *)
Definition ex_finish : N -> keystream -> bytes -> script -> timed (res peer_error unit) := fun t _ _ _ => Some (t, Ok tt).
Example C42_nonvacuous :
  let hs reads t := snd (handshake (bs "01234567890123456789") 30 [] 0 [x05] t reads) in
  connect_encrypted 7 (Some (1, Ok tt)) (hs [(9, RData (zeros 96))]) ex_finish = Ret None /\
  connect_encrypted 7 (Some (1, Ok tt)) (hs []) ex_finish = Ret (Some (1 + ns 30, Err ECryptoHandshake)) /\
  run_connect None CPPrefer false (ns 60) (Some (1 + ns 30, Err ECryptoHandshake)) (Some (3, Ok tt)) = ([true; false], 4 + ns 30, Ok tt) /\
  connect_encrypted 7 (Some (ns 5, Err EConnect)) (hs []) ex_finish = Ret (Some (ns 5, Err EConnect)) /\
  run_connect None CPPrefer false (ns 60) (Some (ns 5, Err EConnect)) (Some (3, Ok tt)) = ([true], ns 5, Err EConnect).
Proof. vm_compute. auto 10. Qed.

(** C73: the claim is false: an accepted setting makes the program panic. *)
Theorem C73_refuted : as_seconds (TInt (2 ^ 63 - 1)) = Some (2 ^ 63 - 1) /\
  forall skey pada padc key now reads, ns 1 <= now -> snd (handshake skey (2 ^ 63 - 1) pada padc key now reads) = HPanic.
Proof. exact huge_timeout. Qed.
Print Assumptions C73_refuted.
(** It panics exactly if the deadline exceeds the clock's range; never for timeouts of less
    than 2^62 seconds on a clock below 2^62 seconds. *)
Theorem C73_exactly_partial : forall skey secs pada padc key now reads,
  snd (handshake skey secs pada padc key now reads) = HPanic <-> 2 ^ 63 <= now / 1000000000 + secs.
Proof. exact panic_iff. Qed.
Print Assumptions C73_exactly_partial.
Example C73_nonvacuous : snd (handshake [] 30 [] 0 [x05] (ns 1000) []) = HFail (ns 1030) (Packet2Len 0).
Proof. vm_compute. reflexivity. Qed.

(** C84: as C43, and then: whatever reads, writes and flushes follow and whatever the socket
    does, once all that B sent has been read the plaintext is B's payload, the exchange on
    top has the outcome it has on a plain connection delivering that payload at once, and
    what was sent, plus what is still to be flushed, decrypts at B to what was written. *)
Theorem C84_same_exchange : forall skey secs pada padc key now before after xb padb padd payload,
  now / 1000000000 + secs < 2 ^ 63 -> padc <= 512 -> (length padb <= 512)%nat -> blen padd < 65536 ->
  only_data before -> only_data after -> split_at (now + ns secs) before after ->
  data before = public xb ++ padb ->
  let secret := shared (public (be_val key)) xb in
  let cb := cipher (bs "keyB") secret skey in
  data after = fst (rc4_apply cb (packet4 padd ++ payload)) ->
  exists p3 t o i rest later,
    handshake skey secs pada padc key now (before ++ after) = ([(now, public (be_val key) ++ pada); (now + ns secs, p3)], HDone t (KRc4 o i) rest later) /\
    reads_packet3 secret skey p3 2 [] o /\
    forall ops tr s, perform (mkES (KRc4 o i) rest []) ops = (tr, s) -> received tr = data later -> e_rbuf s = [] ->
      read tr = payload /\
      fst (rc4_apply o (sent tr ++ e_wbuf s)) = written tr /\
      forall pid peer_ip reads e, concat reads = read tr -> session skey pid peer_ip reads e = session skey pid peer_ip [payload] e.
Proof. exact same_exchange. Qed.
Print Assumptions C84_same_exchange.
(** The hypotheses on the handshake are those of C43 (C43_nonvacuous).  Operations as in the
    last lines: all of the payload has been read, one flush is incomplete. *)
Example C84_nonvacuous :
  let o := rc4_init (bs "keyA") in let i := rc4_init (bs "keyB") in
  let c := fst (rc4_apply i (bs "payload")) in
  let (tr, s) := perform (mkES (KRc4 o i) (firstn 2 c) []) [OpWrite (bs "abc"); OpRead 9 None; OpFlush [2]; OpRead 9 (Some (skipn 2 c))] in
  received tr = skipn 2 c /\ e_rbuf s = [] /\ read tr = bs "payload" /\ length (sent tr) = 2%nat /\ length (e_wbuf s) = 1%nat /\
  fst (rc4_apply o (sent tr ++ e_wbuf s)) = bs "abc".
Proof. vm_compute. auto 10. Qed.
