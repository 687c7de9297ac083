(** The JSON listing of a peer: src/peer/mod.rs:480-536. *)
From Verif Require Import Base M_Utf8 M_Net M_Tracker.

(** char::encode_utf16 *)
Definition encode_utf16 (c : N) : list N :=
  if c <? 65536 then [c] else [55296 + (c - 65536) / 1024; 56320 + (c - 65536) mod 1024].
(** format {:04x} *)
Definition hex04 (n : N) : bytes := let h := hex n in repeat "0"%byte (4 - length h) ++ h.

(** src/peer/mod.rs:516-536 write_json_str, one character *)
Definition json_char (c : N) : bytes :=
  if c =? 34 then bs "\" ++ [n2b 34]
  else if c =? 92 then bs "\\"
  else if c =? 8 then bs "\b"
  else if c =? 12 then bs "\f"
  else if c =? 10 then bs "\n"
  else if c =? 13 then bs "\r"
  else if c =? 9 then bs "\t"
  else if (32 <=? c) && (c <=? 126) then [n2b c]
  else concat (map (fun u => bs "\u" ++ hex04 u) (encode_utf16 c)).
Definition write_json_str (cs : list N) : bytes := concat (map json_char cs).

(** src/peer/mod.rs:491-500: the chunks of the id; each invalid sequence is one escaped U+FFFD *)
Definition json_item (i : option N) : bytes :=
  match i with Some c => json_char c | None => bs "\ufffd" end.
Definition json_id (id : bytes) : bytes := concat (map json_item (utf8_decode id)).

Definition quote : bytes := [n2b 34].
(** src/peer/mod.rs:483-514 Display for DisplayJson *)
Definition display_json (p : peer) : bytes :=
  bs "{" ++ quote ++ bs "host" ++ quote ++ bs ": " ++ quote ++ show_ip (sa_ip (pr_addr p)) ++ quote
  ++ bs ", " ++ quote ++ bs "port" ++ quote ++ bs ": " ++ dec (sa_port (pr_addr p))
  ++ bs ", " ++ quote ++ bs "id" ++ quote ++ bs ": "
  ++ (match pr_id p with Some id => quote ++ json_id id ++ quote | None => bs "null" end)
  ++ bs ", " ++ quote ++ bs "requires_crypto" ++ quote ++ bs ": "
  ++ (if pr_crypto p then bs "true" else bs "false") ++ bs "}".
