(** Properties C08-C09: the .torrent file. *)
From Verif Require Import Base S_Bencode M_Bencode S_Download M_Sha1 M_Net M_Torrent M_Messages M_Peer P_Download
  S_TorrentFile P_TorrentFile.

(** C08 *)
Theorem C08_file_embeds_metadata : forall ih declared evs info tr trackers nodes now,
  get_metadata_info ih declared evs = (Finished (Ok info), tr) ->
  Forall wf_sa nodes ->
  exists doc v,
    tf_bytes (tf_new info trackers nodes now) = encode (VDict doc) /\ canonical (VDict doc) /\
    says doc trackers nodes (bs "demagnetize 0.7.0") now v /\
    encode v = ti_data info /\ sha1 (ti_data info) = ih.
Proof. exact file_ok. Qed.
Print Assumptions C08_file_embeds_metadata.
Theorem C08_metadata_verbatim : forall info trackers nodes now,
  exists pre post, tf_bytes (tf_new info trackers nodes now) = pre ++ bs "4:info" ++ ti_data info ++ post.
Proof. exact file_contains. Qed.
Print Assumptions C08_metadata_verbatim.
(** Read back with the same decoder (nesting limit 2048). *)
Theorem C08_file_readable : forall ih declared evs info tr trackers nodes now doc v,
  get_metadata_info ih declared evs = (Finished (Ok info), tr) ->
  tf_bytes (tf_new info trackers nodes now) = encode (VDict doc) -> canonical (VDict doc) ->
  lookup (bs "info") doc = Some v -> (depth v < 2048)%nat ->
  decode_tree 2048 (tf_bytes (tf_new info trackers nodes now)) = Ok (VDict doc).
Proof. exact (fun ih d e i tr t n now doc v H => file_readable ih d e i tr t n now H doc v). Qed.
Print Assumptions C08_file_readable.
Example C08_nonvacuous :
  (exists tr, get_metadata_info (sha1 ex_data) (Some (blen ex_data)) ex_script
             = (Finished (Ok (mkTI (sha1 ex_data) ex_data)), tr)) /\
  Forall wf_sa [mkSA (V4 2130706433) 6881; mkSA (V6 1) 80] /\
  tf_bytes ex_file =
    bs "d13:announce-listll8:udp://b/el9:http://a/ee10:created by17:demagnetize 0.7.013:creation datei1700000000e4:info"
    ++ ex_data ++ bs "5:nodesll9:127.0.0.1i6881eel3:::1i80eeee".
Proof. exact (conj ex_fetch (conj ex_nodes_wf ex_file_bytes)). Qed.

(** C09 *)
Theorem C09_order_kept : forall ih declared evs info tr trackers nodes now doc,
  get_metadata_info ih declared evs = (Finished (Ok info), tr) ->
  tf_bytes (tf_new info trackers nodes now) = encode (VDict doc) -> canonical (VDict doc) ->
  lookup (bs "announce-list") doc =
    (match trackers with [] => None | _ => Some (VList (map (fun u => VList [VBytes u]) trackers)) end) /\
  lookup (bs "nodes") doc =
    (match nodes with
     | [] => None
     | _ => Some (VList (map (fun a => VList [VBytes (show_ip (sa_ip a)); VInt (Z.of_N (sa_port a))]) nodes))
     end).
Proof. exact (fun ih d e i tr t n now doc H => file_order ih d e i tr t n now H doc). Qed.
Print Assumptions C09_order_kept.
Example C09_nonvacuous :
  exists doc, tf_bytes ex_file = encode (VDict doc) /\ canonical (VDict doc) /\
    lookup (bs "announce-list") doc = Some (VList [VList [VBytes (bs "udp://b/")]; VList [VBytes (bs "http://a/")]]).
Proof. exact ex_file_order. Qed.

(** C75: [ns] is the clock in nanoseconds relative to the epoch. *)
Theorem C75_creation_date_total : forall ns,
  let s := Z.quot ns 1000000000 in
  ((Z.abs s < 2 ^ 63)%Z -> unix_now ns = s) /\
  ((2 ^ 63 <= s)%Z -> unix_now ns = (2 ^ 63 - 1)%Z) /\
  ((s <= - 2 ^ 63)%Z -> unix_now ns = (- 2 ^ 63)%Z) /\
  (- 2 ^ 63 <= unix_now ns < 2 ^ 63)%Z.
Proof. exact unix_now_spec. Qed.
Print Assumptions C75_creation_date_total.
Example C75_nonvacuous : unix_now 1686939764000000001 = 1686939764%Z /\ unix_now (-1500000000) = (-1)%Z.
Proof. split; reflexivity. Qed.
