(** The unit tests of src/peer/mod.rs:604-684, replayed on the model. *)
From Verif Require Import Base S_Utf8 M_Utf8 M_Net M_IpText M_Tracker M_Json.

Definition q (s : bytes) : bytes := map (fun b => if Byte.eqb b "'" then n2b 34 else b) s.
Definition p0 id crypto := mkPeer (mkSA (V4 0x7f000001) 8080) id crypto.
Example display_tests :
  display_json (p0 None false) = q (bs "{'host': '127.0.0.1', 'port': 8080, 'id': null, 'requires_crypto': false}") /\
  display_json (p0 (Some (bs "-PRE-123-abcdefghijk")) false) = q (bs "{'host': '127.0.0.1', 'port': 8080, 'id': '-PRE-123-abcdefghijk', 'requires_crypto': false}") /\
  display_json (p0 (Some (bs "-PRE-123-abcdefgh" ++ [xc3; xae] ++ bs "j")) false) = q (bs "{'host': '127.0.0.1', 'port': 8080, 'id': '-PRE-123-abcdefgh\u00eej', 'requires_crypto': false}") /\
  display_json (p0 (Some (bs "-PRE-123-abcdefgh" ++ [xee] ++ bs "jk")) false) = q (bs "{'host': '127.0.0.1', 'port': 8080, 'id': '-PRE-123-abcdefgh\ufffdjk', 'requires_crypto': false}") /\
  display_json (p0 None true) = q (bs "{'host': '127.0.0.1', 'port': 8080, 'id': null, 'requires_crypto': true}").
Proof. vm_compute. auto 10. Qed.
Definition wr (s : bytes) : bytes := write_json_str (lossy_chars s).
Example write_json_str_tests :
  wr (bs "foobar") = bs "foobar" /\ wr (bs "foo / bar") = bs "foo / bar" /\
  wr (q (bs "foo'bar")) = q (bs "foo\'bar") /\ wr (bs "foo\bar") = bs "foo\\bar" /\
  wr (bs "foo" ++ [x08; x0c; x0a; x0d; x09] ++ bs "bar") = bs "foo\b\f\n\r\tbar" /\
  wr (bs "foo" ++ [x0b; x1b; x7f] ++ bs "bar") = bs "foo\u000b\u001b\u007fbar" /\
  wr (bs "foo" ++ [xe2; x80; x94] ++ bs "bar") = bs "foo\u2014bar" /\
  wr (bs "foo" ++ [xf0; x9f; x90; x90] ++ bs "bar") = bs "foo\ud83d\udc10bar".
Proof. vm_compute. auto 10. Qed.
