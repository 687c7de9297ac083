(** C103: when a peer yields no metadata, the reason reported is the true one.
    Specifications: S_Reason, S_Reason2, S_Reason3. *)
From Verif Require Import Base BaseFacts S_Mse S_GetInfo M_Net M_Sha1 M_Torrent M_Extensions M_Messages M_Frame M_Rc4 M_Mse M_Peer M_Session M_GetInfo
  P_Download P_Session S_Reason P_Reason S_Reason2 P_Reason2 S_Reason3 P_Reason3.

(** The exchange ends with the error [x] exactly if [x] is what is wrong with the bytes the
    peer sent, however they were cut into reads. *)
Theorem C103_exchange : forall ih pid i reads e x, length ih = 20%nat -> length pid = 20%nat -> wf_ip i ->
  (snd (session ih pid i reads e) = SDone (Err x) <-> failure ih (concat reads) e x).
Proof. exact session_fails. Qed.
Print Assumptions C103_exchange.
(** No stream has two reasons. *)
Theorem C103_one_reason : forall ih s e x y, length ih = 20%nat -> failure ih s e x -> failure ih s e y -> x = y.
Proof. exact reason_unique. Qed.
Print Assumptions C103_one_reason.
(** The same for the encryption handshake. *)
Theorem C103_handshake : forall skey secs pada padc key now, now / 1000000000 + secs < 2 ^ 63 -> forall reads e,
  (exists o t, handshake skey secs pada padc key now reads = (o, HFail t e)) <-> shake_failed skey secs key now reads e.
Proof. exact handshake_why. Qed.
Print Assumptions C103_handshake.
(** The whole fetch, from the settings and the TCP connection on.  The TCP connection
    itself does not fail with "encryption handshake failed". *)
Theorem C103_fetch : forall ih pid i, length ih = 20%nat -> length pid = 20%nat -> wf_ip i ->
  forall override p requires limit secs now enc plain l x,
  (forall t0, d_tcp enc <> Some (t0, Err ECryptoHandshake)) ->
  get_info ih pid i override p requires limit secs now enc plain = Ret (l, SDone (Err x)) ->
  fetch_failed ih override p requires limit secs now enc plain l x.
Proof. exact get_info_why. Qed.
Print Assumptions C103_fetch.

Definition ex_id : bytes := bs "-DM0070-aaaaaaaaaaaa".
Definition ex_meta (d : bytes) : bytes := ex_frame ([x14; x2a] ++ d).
Example C103_nonvacuous :
  let ih := sha1 ex_data in let i := V4 2130706433 in let start := ex_hello ++ ex_frame ex_shake in
  failure ih (start ++ ex_meta (bs "d8:msg_typei2e5:piecei0ee")) Silent (InfoRequestRejected 0) /\
  failure ih (start ++ ex_meta (bs "d8:msg_typei2e5:piecei7ee")) Silent (WrongPiece 0 7) /\
  failure ih (start ++ ex_meta (bs "d8:msg_typei1e5:piecei0e10:total_sizei41eeabc")) Silent (SizeMismatch 40 41) /\
  failure ih (start ++ ex_frame []) Closed Disconnect /\
  failure ih (start ++ [x00; x00; x00; x09; x14]) Closed ERecv /\
  failure ih (start ++ ex_frame [x63]) Silent (EMessage (MUnknown x63)) /\
  failure ih (ex_hello ++ ex_frame [x0e]) Silent NoExtendedHandshake /\
  (forall x, ~ failure ih (start ++ ex_frame [x0e]) Silent x).
Proof.
  cbv zeta. assert (E : forall b : bytes, concat [b] = b) by (intros b; apply app_nil_r).
  assert (F : forall b e x, snd (session (sha1 ex_data) ex_id (V4 2130706433) [b] e) = SDone (Err x) -> failure (sha1 ex_data) b e x).
  { intros b e x H. rewrite <- (E b). apply (session_fails (sha1 ex_data) ex_id (V4 2130706433)); [reflexivity|reflexivity|vm_compute; reflexivity|exact H]. }
  repeat match goal with |- _ /\ _ => split end; try (apply F; vm_compute; reflexivity).
  intros x H. rewrite <- (E (_ ++ _)) in H. apply (session_fails (sha1 ex_data) ex_id (V4 2130706433)) in H; [|reflexivity|reflexivity|vm_compute; reflexivity].
  vm_compute in H. discriminate H.
Qed.
Example C103_handshake_nonvacuous :
  shake_failed (bs "01234567890123456789") 30 [x05] 7 [] (Packet2Len 0) /\
  shake_failed (bs "01234567890123456789") 30 [x05] 7 [(9, RData (zeros 96)); (10, REof)] HDisconnect /\
  reply_error (zeros 8 ++ [x00; x00; x00; x03]) (SelectNotSingle 2) /\ reply_error (zeros 8 ++ [x00; x00; x00; x04]) (UnknownMethod 4) /\
  reply_error (zeros 8 ++ [x00; x00; x00; x01; x00]) (UnexpectedSelection CPlaintext) /\ reply_error (zeros 7 ++ [x01]) VcNotZero /\
  forall e, ~ reply_error (packet4 (bs "pad")) e.
Proof.
  repeat match goal with |- _ /\ _ => split end.
  - apply (sh_length _ _ _ _ _ [] []); [reflexivity|intros ? ? []|split; [intros ? []|discriminate]|vm_compute; intros [X _]; now elim X].
  - apply (sh_early _ _ _ _ _ [(9, RData (zeros 96))] 10 REof []); [reflexivity| |intros ? [<-|[]]|..]; try (vm_compute; discriminate); [|constructor].
    intros t r [[= <- <-]|[]]. eauto.
  - apply (re_bits (zeros 8 ++ [x00; x00; x00; x03])); vm_compute; try discriminate; reflexivity.
  - apply (re_unknown (zeros 8 ++ [x00; x00; x00; x04])); vm_compute; try discriminate; reflexivity.
  - apply re_plain; vm_compute; try discriminate; reflexivity.
  - apply re_vc; vm_compute; discriminate.
  - intros e H. apply reply_wrong in H. destruct H as [[_ X]|[_ X]]; apply X; reflexivity.
Qed.
