(** Property C91: addresses of peers as text, as given to and printed by the query
    commands.  Specification: S_IpText, S_SockText.  The second component of a result is
    the scope id, always 0 for IPv4. *)
From Verif Require Import Base S_IpText S_SockText M_Net M_Tracker M_SockText P_SockText.

Theorem C91_accepted : forall s a z, parse_sockaddr s = Some (a, z) <-> sockaddr_text s a z.
Proof. exact parse_sockaddr_iff. Qed.
Print Assumptions C91_accepted.
Theorem C91_shown_is_accepted : forall a, wf_sa a -> sockaddr_text (show_sockaddr a) a 0.
Proof. exact show_sockaddr_text. Qed.
Print Assumptions C91_shown_is_accepted.
Theorem C91_one_reading : forall s a a' z z', sockaddr_text s a z -> sockaddr_text s a' z' -> a' = a /\ z' = z.
Proof. exact sockaddr_text_inj. Qed.
Print Assumptions C91_one_reading.
(** What [query-tracker] and [query-dht] print can be given to [query-peer]; a peer given
    by its address alone has no known id and does not ask for encryption. *)
Theorem C91_peer : forall s p z, parse_peer s = Some (p, z) <->
  sockaddr_text s (pr_addr p) z /\ pr_id p = None /\ pr_crypto p = false.
Proof. exact parse_peer_iff. Qed.
Print Assumptions C91_peer.

Example C91_nonvacuous :
  parse_peer (bs "1.2.3.4:0080") = Some (mkPeer (mkSA (V4 16909060) 80) None false, 0) /\
  parse_peer (bs "[fe80::1%7]:6881") = Some (mkPeer (mkSA (V6 (65152 * 2 ^ 112 + 1)) 6881) None false, 7) /\
  show_sockaddr (mkSA (V6 (65152 * 2 ^ 112 + 1)) 6881) = bs "[fe80::1]:6881" /\
  parse_peer (bs "fe80::1:6881") = None /\ parse_peer (bs "1.2.3.4") = None /\
  parse_peer (bs "1.2.3.4:65536") = None /\ parse_peer (bs "01.2.3.4:1") = None /\
  parse_peer (bs "localhost:1") = None /\ parse_peer (bs "[1.2.3.4]:1") = None.
Proof. vm_compute. repeat split. Qed.
