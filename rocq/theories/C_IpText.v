(** Properties C88, C89: IP addresses as text, and the URLs of UDP trackers.
    Specification: S_IpText. *)
From Verif Require Import Base M_Net M_IpText M_Tracker M_Udp S_IpText P_IpText P_IpGrammar.

(** Exactly the addresses in text form are accepted. *)
Theorem C88_accepted : forall s i, parse_ip s = Some i <-> address_text s i.
Proof. exact parse_ip_grammar. Qed.
Print Assumptions C88_accepted.
(** An address is printed in a form that is read back as the same address, and as no other. *)
Theorem C88_printed : forall i, wf_ip i -> address_text (show_ip i) i /\ forall i', address_text (show_ip i) i' -> i' = i.
Proof.
  exact (fun i H => conj (show_address i H) (fun i' H' => f_equal (fun o => match o with Some x => x | None => i' end)
    (eq_trans (eq_sym (proj2 (parse_ip_grammar _ _) H')) (parse_show_ip i H)))).
Qed.
Print Assumptions C88_printed.
Example C88_nonvacuous :
  parse_ip (bs "1.2.3.4") = Some (V4 0x01020304) /\ parse_ip (bs "1.2.3.04") = None /\ parse_ip (bs "1.2.3.256") = None /\
  parse_ip (bs "2001:DB8::fF") = Some (V6 0x20010db80000000000000000000000ff) /\ parse_ip (bs "::") = Some (V6 0) /\
  parse_ip (bs "::ffff:1.2.3.4") = Some (V6 0xffff01020304) /\ parse_ip (bs "1.2.3.4::") = None /\
  parse_ip (bs "1:2:3:4:5:6:7::") = Some (V6 0x00010002000300040005000600070000) /\
  parse_ip (bs "1:2:3:4:5:6:7:8::") = None /\ parse_ip (bs "1::2::3") = None /\ parse_ip (bs "12345::") = None.
Proof. vm_compute. repeat (split; try reflexivity). Qed.

(** C89: [show_udp_url x] is what is written to the torrent file for the tracker made from
    the URL [u].  Domain names have no colon (crate url). *)
Theorem C89_udp_url_written : forall u x, udp_url_of u = Ok x ->
  match u_host u with Some (HDomain d) => ~ In ":"%byte d | Some (HIp i) => wf_ip i | None => True end ->
  exists host port, url_host_text (u_host u) host /\ u_port u = Some port /\
    show_udp_url x = bs "udp://" ++ host ++ ":"%byte :: dec port ++ u_path u ++ match u_query u with Some q => bs "?" ++ q | None => [] end.
Proof. exact udp_url_shown. Qed.
Print Assumptions C89_udp_url_written.
Example C89_nonvacuous :
  (exists x, udp_url_of (mkUrl (bs "udp") (Some (HIp (V6 0x3fff000000000000000000000000abcd))) (Some 1337) (bs "/announce") (Some (bs "a=b"))) = Ok x /\ show_udp_url x = bs "udp://[3fff::abcd]:1337/announce?a=b") /\
  (exists x, udp_url_of (mkUrl (bs "udp") (Some (HDomain (bs "tracker.opentrackr.org"))) (Some 1337) [] None) = Ok x /\ show_udp_url x = bs "udp://tracker.opentrackr.org:1337").
Proof. split; eexists; (split; [reflexivity|vm_compute; reflexivity]). Qed.
