(** The unit tests of src/dht/messages.rs:411-719, replayed on the model. *)
From Verif Require Import Base M_Net M_IpText M_Tracker M_DhtMsg.

Definition same_peer (p : peer) (ip_text : bytes) (port : N) : bool :=
  match parse_ip ip_text with Some i => sa_eqb (pr_addr p) (mkSA i port) | None => false end.

Example decode_error : decode_bencode er_decode (bs "d1:eli201e23:A Generic Error Ocurrede1:t2:aa1:y1:ee") =
  Some (mkER (bs "aa") None EGeneric (bs "A Generic Error Ocurred") None).
Proof. vm_compute. reflexivity. Qed.
Example decode_values_4 : match decode_bencode gpr_decode (bs "d1:rd2:id20:abcdefghij01234567895:token8:aoeusnth6:valuesl6:axje.u6:idhtnmee1:t2:aa1:y1:re") with
  | Some (mkGPR t None i [a; b] [] [] (Some k) None) =>
      bytes_eqb t (bs "aa") && bytes_eqb i (bs "abcdefghij0123456789") && bytes_eqb k (bs "aoeusnth") &&
      same_peer a (bs "97.120.106.101") 11893 && same_peer b (bs "105.100.104.116") 28269
  | _ => false end = true.
Proof. vm_compute. reflexivity. Qed.
Example decode_values_6 : match decode_bencode gpr_decode (bs "d1:rd2:id20:abcdefghij01234567895:token8:aoeusnth6:valuesl6:axje.u18:iiiiiiiiiiiiiiiippee1:t2:aa1:y1:re") with
  | Some (mkGPR t None i [a; b] [] [] (Some k) None) =>
      bytes_eqb t (bs "aa") && bytes_eqb i (bs "abcdefghij0123456789") && bytes_eqb k (bs "aoeusnth") &&
      same_peer a (bs "97.120.106.101") 11893 && same_peer b (bs "6969:6969:6969:6969:6969:6969:6969:6969") 28784
  | _ => false end = true.
Proof. vm_compute. reflexivity. Qed.
Example decode_nodes : decode_bencode gpr_decode (bs "d1:rd2:id20:abcdefghij01234567895:nodes26:mnopqrstuvwxyz123456iiiipp5:token8:aoeusnthe1:t2:aa1:y1:re") =
  Some (mkGPR (bs "aa") None (bs "abcdefghij0123456789") [] [mkNode (bs "mnopqrstuvwxyz123456") (V4 0x69696969) 28784] [] (Some (bs "aoeusnth")) None).
Proof. vm_compute. reflexivity. Qed.
Example decode_nodes6 : decode_bencode gpr_decode (bs "d1:rd2:id20:abcdefghij01234567896:nodes638:mnopqrstuvwxyz123456iiiiiiiiiiiiiiiipp5:token8:aoeusnthe1:t2:aa1:y1:re") =
  Some (mkGPR (bs "aa") None (bs "abcdefghij0123456789") [] [] [mkNode (bs "mnopqrstuvwxyz123456") (V6 0x69696969696969696969696969696969) 28784] (Some (bs "aoeusnth")) None).
Proof. vm_compute. reflexivity. Qed.

Definition q0 w : get_peers_query := mkGPQ (bs "aa") None (bs "abcdefghij0123456789") (bs "mnopqrstuvwxyz123456") None w.
Example encode_plain : gpq_encode (q0 None) = Ret (bs "d1:ad2:id20:abcdefghij01234567899:info_hash20:mnopqrstuvwxyz123456e1:q9:get_peers1:t2:aa1:y1:qe").
Proof. vm_compute. reflexivity. Qed.
Example encode_n4 : gpq_encode (q0 (Some [N4])) = Ret (bs "d1:ad2:id20:abcdefghij01234567899:info_hash20:mnopqrstuvwxyz1234564:wantl2:n4ee1:q9:get_peers1:t2:aa1:y1:qe").
Proof. vm_compute. reflexivity. Qed.
Example encode_n6 : gpq_encode (q0 (Some [N6])) = Ret (bs "d1:ad2:id20:abcdefghij01234567899:info_hash20:mnopqrstuvwxyz1234564:wantl2:n6ee1:q9:get_peers1:t2:aa1:y1:qe").
Proof. vm_compute. reflexivity. Qed.
Example encode_n4_n6 : gpq_encode (q0 (Some [N4; N6])) = Ret (bs "d1:ad2:id20:abcdefghij01234567899:info_hash20:mnopqrstuvwxyz1234564:wantl2:n42:n6ee1:q9:get_peers1:t2:aa1:y1:qe").
Proof. vm_compute. reflexivity. Qed.
Example encode_all : gpq_encode (mkGPQ (bs "xx") (Some (bs "TEST")) (bs "abcdefghij0123456789") (bs "mnopqrstuvwxyz123456") (Some true) (Some [N4; N6])) =
  Ret (bs "d1:ad2:id20:abcdefghij01234567899:info_hash20:mnopqrstuvwxyz1234564:wantl2:n42:n6ee1:q9:get_peers2:roi1e1:t2:xx1:v4:TEST1:y1:qe").
Proof. vm_compute. reflexivity. Qed.

Example prescan_tests :
  prescan (bs "d1:rd2:id20:mnopqrstuvwxyz123456e1:t2:aa1:y1:qe") = Some (bs "aa", TQuery) /\
  prescan (bs "d1:rd2:id20:mnopqrstuvwxyz123456e1:t2:aa1:y1:re") = Some (bs "aa", TResponse) /\
  prescan (bs "d1:rd2:id20:mnopqrstuvwxyz123456e1:t2:aa1:y1:ee") = Some (bs "aa", TError) /\
  prescan [] = None /\
  prescan (bs "d1:eli201e5:Ouch.e1:y1:ee") = None /\
  prescan (bs "li201e5:Ouch.e") = None /\
  prescan (bs "d1:rd2:id20:mnopqrstuvwxyz123456e1:t2:aae") = None /\
  prescan (bs "d1:rd2:id20:mnopqrstuvwxyz123456e1:t2:aa1:y1:xe") = None.
Proof. vm_compute. auto 10. Qed.
Example response_tests :
  decode_response (bs "d1:eli201e23:A Generic Error Ocurrede1:t2:aa1:y1:ee") =
    Err (RRpc (mkER (bs "aa") None EGeneric (bs "A Generic Error Ocurred") None)) /\
  decode_response (bs "d1:ad2:id20:abcdefghij01234567899:info_hash20:mnopqrstuvwxyz123456e1:q9:get_peers1:t2:aa1:y1:qe") = Err RQuery.
Proof. vm_compute. auto. Qed.
