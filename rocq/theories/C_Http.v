(** Properties C22, C37, C38, C82: query strings and HTTP trackers.  Grammar of query
    strings: S_Form; responses: S_Http. *)
From Verif Require Import Base S_Bencode M_Bencode M_Net M_Tracker M_Udp M_Form S_Form P_Form M_Http S_Wire S_Http P_Http.

(** C22: [q] is the query so far (with parameters [kvs]); [k] is any name but the
    internal marker. *)
Theorem C22_query_values_round_trip : forall q kvs k v, form (query_text q) kvs -> k <> SENTINEL ->
  exists q', add_bytes_query_param q k v = Some (query_text q ++ q') /\
    form (query_text (add_bytes_query_param q k v)) (kvs ++ [(k, v)]) /\
    (forall kvs', form (query_text (add_bytes_query_param q k v)) kvs' -> kvs' = kvs ++ [(k, v)]).
Proof. exact query_values_round_trip. Qed.
Print Assumptions C22_query_values_round_trip.
Theorem C22_every_query_has_one_reading : forall s, exists kvs, form s kvs /\ forall kvs', form s kvs' -> kvs' = kvs.
Proof. exact form_total. Qed.
Print Assumptions C22_every_query_has_one_reading.
Theorem C22_values_encoded_safely : forall v, decoded (byte_serialize v) v /\
  Forall (fun b => is_alnum b = true \/ In b ["*"%byte; "-"%byte; "."%byte; "_"%byte; "+"%byte; "%"%byte]) (byte_serialize v).
Proof. exact values_safe. Qed.
Print Assumptions C22_values_encoded_safely.
Example C22_nonvacuous :
  add_bytes_query_param (Some (bs "here=there")) (bs "info_hash")
    [x28; xc5; x51; x96; xf5; x77; x53; xc4; x0a; xce; xb6; xfb; x58; x61; x7e; x69; x95; xa7; xed; xdb]
  = Some (bs "here=there&info_hash=%28%C5Q%96%F5wS%C4%0A%CE%B6%FBXa%7Ei%95%A7%ED%DB") /\
  form (bs "here=there") [(bs "here", bs "there")].
Proof. split; [vm_compute; reflexivity|apply form_iff; vm_compute; reflexivity]. Qed.

(** C37: [None] stands for any decoding error. *)
Theorem C37_responses_exact : forall s,
  http_decode s <> Panic /\
  (forall r, http_decode s = Ret (Some (HSuccess r)) <->
     exists d, s = encode (VDict d) /\ canonical (VDict d) /\ (depth (VDict d) <= 2048)%nat /\ http_success d r) /\
  (forall m, http_decode s = Ret (Some (HFailure m)) <->
     exists d, s = encode (VDict d) /\ canonical (VDict d) /\ (depth (VDict d) <= 2048)%nat /\ http_failure d m).
Proof. exact http_decode_spec. Qed.
Print Assumptions C37_responses_exact.
Example C37_nonvacuous :
  http_decode (bs "d12:crypto_flags1:x8:intervali1800e5:peers12:iiiippjjjjpp6:peers618:iiiiiiiiiiiiiiiippe")
  = Ret (Some (HSuccess (mkResp 1800
      [mkPeer (mkSA (V4 1768515945) 28784) None true; mkPeer (mkSA (V4 1785358954) 28784) None false;
       mkPeer (mkSA (V6 140116268732151132014330720707198675305) 28784) None false] None None None None None None None))) /\
  http_decode (bs "d14:failure reason2:no8:intervali-1ee") = Ret (Some (HFailure (bs "no"))) /\
  http_decode (bs "d8:intervali1e5:peersld2:ip9:127.0.0.17:peer id20:aaaaaaaaaaaaaaaaaaaa4:porti80eeee")
  = Ret (Some (HSuccess (mkResp 1 [mkPeer (mkSA (V4 2130706433) 80) (Some (bs "aaaaaaaaaaaaaaaaaaaa")) false] None None None None None None None))) /\
  http_decode (bs "d8:intervali1e5:peers7:iiiippje") = Ret None.
Proof. vm_compute. auto. Qed.

(** C38 *)
Theorem C38_announce_url : forall u a own, form (query_text (u_query u)) own ->
  let v := announce_url u a in
  u_scheme v = u_scheme u /\ u_user v = u_user u /\ u_host v = u_host u /\ u_port v = u_port u /\ u_path v = u_path u /\ u_fragment v = None /\
  exists q, u_query v = Some q /\ form q (own ++ announced a) /\ (forall kvs, form q kvs -> kvs = own ++ announced a).
Proof. exact announce_url_spec. Qed.
Print Assumptions C38_announce_url.
Theorem C38_distinct_announcements : forall a b,
  announced a = announced b -> a = b.
Proof. exact announced_inj. Qed.
Print Assumptions C38_distinct_announcements.
Example C38_nonvacuous :
  let a := mkAnn (bs "aaaaaaaaaaaaaaa aa&=") (bs "-DM-0070-bbbbbbbbbbb") 0 65535 0 EvStarted 7 50 6881 TCSupported in
  announce_url (mkUrlFull (bs "http") (bs "me:secret") (Some (HDomain (bs "t"))) None (bs "/a") (Some (bs "k=v")) (Some (bs "f"))) a
  = mkUrlFull (bs "http") (bs "me:secret") (Some (HDomain (bs "t"))) None (bs "/a")
      (Some (bs "k=v&event=started&info_hash=aaaaaaaaaaaaaaa+aa%26%3D&peer_id=-DM-0070-bbbbbbbbbbb&supportcrypto=1&port=6881&uploaded=0&downloaded=0&left=65535&numwant=50&key=7&compact=1")) None.
Proof. vm_compute. reflexivity. Qed.

(** C82 *)
Theorem C82_tracker_urls : forall u, match tracker_of u with
  | Ok (THttp v) => v = u /\ (u_scheme u = bs "http" \/ u_scheme u = bs "https") /\ u_host u <> None
  | Ok (TUdp x) => u_scheme u = bs "udp" /\ udp_url_of u = Ok x
  | Err (UnsupportedScheme s) => s = u_scheme u /\ s <> bs "http" /\ s <> bs "https" /\ s <> bs "udp"
  | Err NoHost => (u_scheme u = bs "http" \/ u_scheme u = bs "https" \/ u_scheme u = bs "udp") /\ u_host u = None
  | Err NoUdpPort => u_scheme u = bs "udp" /\ u_host u <> None /\ u_port u = None
  end.
Proof. exact tracker_dispatch. Qed.
Print Assumptions C82_tracker_urls.
Example C82_nonvacuous :
  tracker_of (mkUrl (bs "ws") (Some (HDomain (bs "t"))) None (bs "/a") None) = Err (UnsupportedScheme (bs "ws")) /\
  is_ok (tracker_of (mkUrl (bs "https") (Some (HDomain (bs "t"))) None (bs "/a") None)) = true.
Proof. vm_compute. auto. Qed.
