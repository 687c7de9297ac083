(** Properties C35, C36: DHT (KRPC) messages.  Specification: S_DhtMsg (and S_Bencode for
    the encoding, S_Wire for compact addresses). *)
From Verif Require Import Base S_Bencode S_Utf8 M_Net M_Tracker S_Wire S_Http M_DhtMsg S_DhtMsg P_DhtMsg.

(** C35: what is sent is the encoding of a canonical dictionary that says the query... *)
Theorem C35_query_wire : forall q, exists d, gpq_encode q = Ret (encode (VDict d)) /\
  canonical (VDict d) /\ (depth (VDict d) <= 3)%nat /\ query_says d q.
Proof. exact query_encodes. Qed.
Print Assumptions C35_query_wire.
(** ... and a dictionary says at most one query. *)
Theorem C35_query_recovered : forall d q q', query_says d q -> query_says d q' -> q = q'.
Proof. exact query_unique. Qed.
Print Assumptions C35_query_recovered.
Example C35_nonvacuous :
  gpq_encode (mkGPQ (bs "xx") (Some (bs "TEST")) (bs "abcdefghij0123456789") (bs "mnopqrstuvwxyz123456") (Some true) (Some [N4; N6])) =
  Ret (bs "d1:ad2:id20:abcdefghij01234567899:info_hash20:mnopqrstuvwxyz1234564:wantl2:n42:n6ee1:q9:get_peers2:roi1e1:t2:xx1:v4:TEST1:y1:qe").
Proof. vm_compute. reflexivity. Qed.

(** C36: a packet is decoded to [r] exactly when it is a canonical dictionary (of nesting
    at most 2048) that says [r]; [decode_response] is total, so every other packet is an
    error. *)
Theorem C36_response : forall msg r, decode_response msg = Ok r <->
  exists d, (msg = encode (VDict d) /\ canonical (VDict d) /\ (depth (VDict d) <= 2048)%nat) /\ response_says d r.
Proof. exact response_iff. Qed.
Print Assumptions C36_response.
Theorem C36_error : forall msg e, decode_response msg = Err (RRpc e) <->
  exists d, (msg = encode (VDict d) /\ canonical (VDict d) /\ (depth (VDict d) <= 2048)%nat) /\ error_says d e.
Proof. exact error_iff. Qed.
Print Assumptions C36_error.
Theorem C36_query : forall msg d, msg = encode (VDict d) /\ canonical (VDict d) /\ (depth (VDict d) <= 2048)%nat ->
  (decode_response msg = Err RQuery <-> field text (bs "y") d (Some (bs "q"))).
Proof. exact query_reply_iff. Qed.
Print Assumptions C36_query.
(** The transaction id and kind by which a datagram is assigned to a request. *)
Theorem C36_prescan : forall msg t y, prescan msg = Some (t, y) <->
  exists d rest, msg = encode (VDict d) ++ rest /\ canonical (VDict d) /\ (depth (VDict d) <= 2048)%nat /\ header_says d t y.
Proof. exact prescan_iff. Qed.
Print Assumptions C36_prescan.

Example C36_nonvacuous :
  decode_response (bs "d1:rd2:id20:abcdefghij01234567895:nodes26:mnopqrstuvwxyz123456iiiipp5:token8:aoeusnth6:valuesl6:axje.u18:iiiiiiiiiiiiiiiippee1:t2:aa1:y1:re") =
    Ok (mkGPR (bs "aa") None (bs "abcdefghij0123456789")
          [mkPeer (mkSA (V4 1635281509) 11893) None false;
           mkPeer (mkSA (V6 0x69696969696969696969696969696969) 28784) None false]
          [mkNode (bs "mnopqrstuvwxyz123456") (V4 0x69696969) 28784] [] (Some (bs "aoeusnth")) None) /\
  decode_response (bs "d1:eli201e23:A Generic Error Ocurrede1:t2:aa1:y1:ee") =
    Err (RRpc (mkER (bs "aa") None EGeneric (bs "A Generic Error Ocurred") None)) /\
  decode_response (bs "d1:q9:get_peers1:t2:aa1:y1:qe") = Err RQuery /\
  decode_response (bs "d1:eli201ee1:t2:aa1:y1:ee") = Err RBencode /\
  prescan (bs "d1:t2:aa1:y1:regarbage") = Some (bs "aa", TResponse).
Proof. vm_compute. auto. Qed.
