(** Property C39: the JSON listing of a peer.  Specification: the JSON parser of S_Json;
    the text of IP addresses: S_IpText. *)
From Verif Require Import Base S_Utf8 M_Utf8 P_Utf8 M_Net S_IpText M_IpText P_IpText P_IpGrammar M_Tracker M_Json S_Json P_Json.

Theorem C39_ascii : forall p, printable (display_json p).
Proof. exact display_printable. Qed.
Print Assumptions C39_ascii.

(** The host is a text form of the peer's address; the id is the id's
    lossy decoding; printable ASCII bytes are their own code points. *)
Theorem C39_parses : forall p, wf_sa (pr_addr p) -> exists host,
  json_parse (map b2n (display_json p)) =
    Some (JObj [(code "host", JStr (map b2n host));
                (code "port", JNum (sa_port (pr_addr p)));
                (code "id", match pr_id p with Some i => JStr (lossy_chars i) | None => JNull end);
                (code "requires_crypto", JBool (pr_crypto p))]) /\
  address_text host (sa_ip (pr_addr p)).
Proof. intros p H. exists (show_ip (sa_ip (pr_addr p))). split; [exact (display_parses p)|apply parse_ip_grammar; exact (parse_show_ip _ (proj1 H))]. Qed.
Print Assumptions C39_parses.

(** For an id that is UTF-8 text, the lossy decoding is that text. *)
Theorem C39_text_id : forall cs, Forall scalar cs -> lossy_chars (utf8 cs) = cs.
Proof. exact lossy_chars_utf8. Qed.
Print Assumptions C39_text_id.

(** Any text is written so that a JSON parser reads it back, up to the closing quote. *)
Theorem C39_strings : forall cs rest, Forall scalar cs ->
  string_body (map b2n (write_json_str cs) ++ 34 :: rest) = Some (cs, rest).
Proof. exact string_body_str. Qed.
Print Assumptions C39_strings.

Example C39_nonvacuous :
  let p := mkPeer (mkSA (V6 0x20010db8000000000000000000000001) 6881)
             (Some (bs "-q" ++ [n2b 34; x5c; x0a; x7f; xf0; x9f; x90; x90; xff; xc3] ++ bs "abcdefgh")) true in
  wf_sa (pr_addr p) /\
  json_parse (map b2n (display_json p)) =
    Some (JObj [(code "host", JStr (code "2001:db8::1")); (code "port", JNum 6881);
      (code "id", JStr (code "-q" ++ [34; 92; 10; 127; 128016; 65533; 65533] ++ code "abcdefgh"));
      (code "requires_crypto", JBool true)]).
Proof. split; [split; reflexivity|vm_compute; reflexivity]. Qed.
