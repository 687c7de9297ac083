(** Properties C20, C21, C82 and C108: magnet links and files of them.  Specification:
    S_Magnet, S_Magnet2 (and S_Form for the query grammar, S_Types for info hashes). *)
From Verif Require Import Base S_Utf8 M_Utf8 S_Types M_Tracker M_Udp M_Form S_Form P_Form M_Http M_Types M_Magnet S_Magnet P_Magnet S_Magnet2 P_Magnet2.

(** C20: [parse_url] is crate url's parser, left arbitrary; [raw] are the parameters
    of the link's query. *)
Theorem C20_magnet_fields : forall parse_url s u raw, parse_url s = Some u ->
  form (query_text (u_query u)) raw ->
  forall m, magnet_from_str parse_url s = Ok m <->
    u_scheme u = bs "magnet" /\ magnet_says (is_tracker parse_url) (map (lossy_pair from_utf8_lossy) raw) m.
Proof. exact magnet_fields. Qed.
Print Assumptions C20_magnet_fields.
Theorem C20_accepted : forall parse_url s m, magnet_from_str parse_url s = Ok m <->
  exists u raw, parse_url s = Some u /\ form (query_text (u_query u)) raw /\
    u_scheme u = bs "magnet" /\ magnet_says (is_tracker parse_url) (map (lossy_pair from_utf8_lossy) raw) m.
Proof. exact magnet_accepted. Qed.
Print Assumptions C20_accepted.
Example C20_nonvacuous :
  let u := mkUrl (bs "magnet") None None [] (Some (bs "tr=t&xt=urn:btih:28c55196f57753c40aceb6fb58617e6995a7eddb&dn=a&x=y&dn=b+c")) in
  let t := mkUrl (bs "http") (Some (HDomain (bs "h"))) None (bs "/a") None in
  let parse_url s := if bytes_eqb s (bs "t") then Some t else if bytes_eqb s (bs "m") then Some u else None in
  magnet_from_str parse_url (bs "m") =
    Ok (mkMagnet [x28; xc5; x51; x96; xf5; x77; x53; xc4; x0a; xce; xb6; xfb; x58; x61; x7e; x69; x95; xa7; xed; xdb]
          (Some (bs "b c")) [THttp t]).
Proof. vm_compute. reflexivity. Qed.

(** C21: every file has exactly one split into lines, and the result is what
    [file_result] says of it: the links of the lines in order, or an error about the
    first bad line with its 1-based number. *)
Theorem C21_magnets_file : forall parse_url content ls r, lines content ls ->
  (parse_magnets_file parse_url content = r <-> file_result parse_url ls 0 [] r).
Proof. exact file_iff. Qed.
Print Assumptions C21_magnets_file.
Theorem C21_lines_exist : forall content, exists ls, lines content ls /\ forall ls', lines content ls' -> ls' = ls.
Proof. exact file_lines. Qed.
Print Assumptions C21_lines_exist.
Example C21_nonvacuous :
  let u := mkUrl (bs "magnet") None None [] (Some (bs "xt=urn:btih:28c55196f57753c40aceb6fb58617e6995a7eddb")) in
  let parse_url s := if bytes_eqb s (bs "m") then Some u else None in
  let h := [x28; xc5; x51; x96; xf5; x77; x53; xc4; x0a; xce; xb6; xfb; x58; x61; x7e; x69; x95; xa7; xed; xdb] in
  parse_magnets_file parse_url (bs " # c" ++ [x0a; x0a] ++ bs "  m " ++ [x0d; x0a] ++ bs "m") = Ok [mkMagnet h None []; mkMagnet h None []] /\
  parse_magnets_file parse_url (bs "m" ++ [x0a; x0a] ++ bs "n" ++ [x0a]) = Err (MFParse 3 MgUrl) /\
  parse_magnets_file parse_url (bs "m" ++ [x0a; xff]) = Err MFRead.
Proof. vm_compute. auto. Qed.

(** C82: which URLs are trackers, and which *)
Theorem C82_supported : forall u t, tracker_of u = Ok t <-> supported u t.
Proof. exact supported_iff. Qed.
Print Assumptions C82_supported.
Example C82_supported_nonvacuous :
  supported (mkUrl (bs "udp") (Some (HDomain (bs "t"))) (Some 80) (bs "/a") (Some (bs "k=v"))) (TUdp (mkUU (bs "t") 80 (bs "/a?k=v"))).
Proof. right. split; [reflexivity|]. exists (bs "t"), 80. split; [left; reflexivity|]. split; reflexivity. Qed.

(** C108: the reason for which a link is refused *)
Theorem C108_link : forall parse_url s e, magnet_from_str parse_url s = Err e <-> magnet_refused parse_url s e.
Proof. exact magnet_reason. Qed.
Print Assumptions C108_link.
(** ... and a file: its first bad line, with the reason *)
Theorem C108_file : forall parse_url content ls n e, lines content ls ->
  (parse_magnets_file parse_url content = Err (MFParse n e) <->
   exists pre l post, ls = pre ++ l :: post /\ n = (length pre + 1)%nat /\
     Forall (fun l => exists t, trimmed l t /\ (ignored t \/ exists m, magnet_from_str parse_url t = Ok m)) pre /\
     exists t, trimmed l t /\ ~ ignored t /\ magnet_refused parse_url t e).
Proof. exact file_reason. Qed.
Print Assumptions C108_file.
(** An info hash that is too short comes before a tracker that is not supported, and a second
    "xt" after it. *)
Example C108_nonvacuous :
  let t := mkUrl (bs "ws") (Some (HDomain (bs "h"))) None (bs "/a") None in
  let link q := mkUrl (bs "magnet") None None [] (Some q) in
  let parse_url s := if bytes_eqb s (bs "t") then Some t else Some (link (if bytes_eqb s (bs "1") then bs "dn=a&xt=urn:btih:28c55196&tr=t"
    else if bytes_eqb s (bs "2") then bs "xt=urn:btih:28c55196f57753c40aceb6fb58617e6995a7eddb&tr=t&xt=u" else bs "dn=x")) in
  magnet_from_str parse_url (bs "1") = Err (InvalidXt (XInfoHash (InvalidLength 4))) /\
  magnet_from_str parse_url (bs "2") = Err (InvalidTracker (TSInner (UnsupportedScheme (bs "ws")))) /\
  magnet_from_str parse_url (bs "3") = Err NoXt /\
  parse_magnets_file parse_url (bs "# 1" ++ [x0a] ++ bs " 3 " ++ [x0a] ++ bs "1") = Err (MFParse 2 NoXt).
Proof. vm_compute. auto. Qed.
