(** C105: how much of what a peer sends is held before it is dealt with. *)
From Verif Require Import Base M_Frame M_Mse S_Memory P_Memory.

(** The reader of messages never holds more than one read and one unfinished message, and while
    it waits for more, less than one largest message. *)
Theorem C105_frames : forall M e st buf reads, reader M e st buf reads ->
  blen buf <= M + 65534 /\
  forall st' buf' reads', framed_next st buf reads e = (FramePending, st', buf', reads') -> blen buf' < 65535.
Proof. exact reader_bound. Qed.
Print Assumptions C105_frames.

(** The encryption handshake, once the peer's key has been dealt with, never holds more than one
    read and seven bytes, and hands no more than that over to the reader of messages.
    Missing: the time before, see C105_refuted. *)
Theorem C105_handshake_partial : forall M skey secs pada padc key,
  (forall s got, shaking M skey secs pada padc key s got -> ~ awaiting_key s -> blen (h_input s) < 8 + M) /\
  forall now reads out t ks rest left, each_at_most M reads ->
    handshake skey secs pada padc key now reads = (out, HDone t ks rest left) -> blen rest < 8 + M.
Proof. exact shaking_partial. Qed.
Print Assumptions C105_handshake_partial.

(** While the peer's key is awaited everything the peer sends is kept: there is no bound, even
    though every read gives at most 65535 bytes. *)
Theorem C105_refuted : forall skey secs pada padc key,
  ~ exists bound, forall s got, shaking 65535 skey secs pada padc key s got -> blen (h_input s) <= bound.
Proof. exact shaking_unbounded. Qed.
Print Assumptions C105_refuted.

(** A reader given two messages in three reads: after the first message 3 bytes of the second
    are held, and the reader then waits holding 2 bytes of a third. *)
Example C105_nonvacuous :
  let reads := [[x00; x00]; [x00; x01; x02; x00; x00; x00]; [x02; x05; x06; x00; x00]] in
  reader 6 Silent Head [x00; x00; x00] [[x02; x05; x06; x00; x00]] /\
  reader 6 Silent Head [x00; x00] [] /\
  framed_next Head [x00; x00] [] Silent = (FramePending, Head, [x00; x00], []) /\
  (forall skey secs pada padc key, shaking 6 skey secs pada padc key (set_input (build skey secs pada padc key) (h_state (build skey secs pada padc key)) [x01; x02]) [x01; x02]).
Proof.
  assert (A : reader 6 Silent Head [x00; x00; x00] [[x02; x05; x06; x00; x00]]).
  { eapply rd_next; [apply (rd_start _ _ [[x00; x00]; [x00; x01; x02; x00; x00; x00]; [x02; x05; x06; x00; x00]]); repeat constructor; discriminate|reflexivity]. }
  split; [exact A|]. split; [eapply rd_next; [exact A|reflexivity]|]. split; [reflexivity|].
  intros skey secs pada padc key. apply (sh_read 6 skey secs pada padc key (build skey secs pada padc key) [] [x01; x02]); [apply sh_start|reflexivity|discriminate|reflexivity].
Qed.
