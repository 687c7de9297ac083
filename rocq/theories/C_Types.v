(** Properties C17-C19 and C74: info hashes and peer ids. *)
From Verif Require Import Base S_Types M_Types P_Types.

(** C17 *)
Theorem C17_print_then_parse : forall h, length h = 20%nat ->
  parse_info_hash (show_info_hash h) = Ok h /\
  length (show_info_hash h) = 40%nat /\ Forall lower_hex_digit (show_info_hash h).
Proof. exact show_parse. Qed.
Print Assumptions C17_print_then_parse.
Example C17_nonvacuous :
  let h := repeat xab 20 in
  length h = 20%nat /\ show_info_hash h = bs "abababababababababababababababababababab".
Proof. vm_compute. auto. Qed.

(** C18 *)
Theorem C18_accepts_exactly : forall s,
  (exists h, parse_info_hash s = Ok h) <->
  (length s = 40%nat /\ is_numeral hex_value s) \/ (length s = 32%nat /\ is_numeral base32_value s).
Proof. exact parse_accepts. Qed.
Print Assumptions C18_accepts_exactly.
Example C18_nonvacuous :
  is_ok (parse_info_hash (bs "28C55196F57753C40ACEB6FB58617E6995a7eddb")) = true /\
  is_ok (parse_info_hash (bs "XBIUOS3U6ZONDH4YDRZDLEHD4UQCIK4X")) = true /\
  is_ok (parse_info_hash (bs "xbiuos3u6zondh4ydrzdlehd4uqcik4x")) = false /\
  is_ok (parse_info_hash (bs "28C55196F57753C40ACEB6FB58617E6995A7EDD")) = false.
Proof. vm_compute. auto. Qed.

(** C19 *)
Theorem C19_same_number : forall s h, parse_info_hash s = Ok h ->
  length h = 20%nat /\
  ((length s = 40%nat /\ number 16 hex_value s = Some (be_val h)) \/
   (length s = 32%nat /\ number 32 base32_value s = Some (be_val h))).
Proof. exact parse_numeric. Qed.
Print Assumptions C19_same_number.
Example C19_nonvacuous :
  parse_info_hash (bs "XBIUOS3U6ZONDH4YDRZDLEHD4UQCIK4X") =
  parse_info_hash (bs "b851474b74f65cd19f981c723590e3e520242b97") /\
  is_ok (parse_info_hash (bs "XBIUOS3U6ZONDH4YDRZDLEHD4UQCIK4X")) = true.
Proof. vm_compute. auto. Qed.

(** C74: [rng i] is the i-th random character, always alphanumeric. *)
Theorem C74_generated_peer_ids : forall prefix rng,
  (forall i, is_alnum (rng i) = true) ->
  length (generate_peer_id prefix rng) = 20%nat /\
  exists tail, generate_peer_id prefix rng = firstn 20 prefix ++ tail /\
               Forall (fun b => is_alnum b = true) tail.
Proof. exact generate_ok. Qed.
Print Assumptions C74_generated_peer_ids.
Example C74_nonvacuous :
  generate_peer_id PEER_ID_PREFIX (fun _ => "q"%byte) = bs "-DM-0070-qqqqqqqqqqq" /\
  generate_peer_id (bs "-PRE-123-abcdefghijklmnop") (fun _ => "q"%byte) = bs "-PRE-123-abcdefghijk".
Proof. vm_compute. auto. Qed.
