(** Specification: KRPC messages (BEP 5, 32, 42, 43). *)
From Verif Require Import Base S_Bencode S_Utf8 M_Net M_Tracker S_Wire S_Http M_DhtMsg.

Definition string20 (v : value) (s : bytes) : Prop := v = VBytes s /\ length s = 20%nat.
Definition dict_value (v : value) (d : list (bytes * value)) : Prop := v = VDict d.
Definition address (v : value) (a : sockaddr) : Prop := exists s, v = VBytes s /\ compact a s.
(** 20 bytes of id, then the compact address; all of one address family. *)
Definition node_wire (v6 : bool) (s : bytes) (n : node) : Prop :=
  exists w, s = nd_id n ++ w /\ length (nd_id n) = 20%nat /\ compact (mkSA (nd_ip n) (nd_port n)) w /\
    (if v6 then ~ is_v4 (mkSA (nd_ip n) (nd_port n)) else is_v4 (mkSA (nd_ip n) (nd_port n))).
Definition compact_nodes (v6 : bool) (v : value) (ns : list node) : Prop :=
  exists parts, v = VBytes (concat parts) /\ Forall2 (node_wire v6) parts ns.
Definition peer_values (v : value) (ps : list peer) : Prop :=
  exists vs, v = VList vs /\
    Forall2 (fun v p => address v (pr_addr p) /\ pr_id p = None /\ pr_crypto p = false) vs ps.

(** The node's reply to get_peers. *)
Definition response_says (d : list (bytes * value)) (r : get_peers_response) : Prop :=
  field text (bs "y") d (Some (bs "r")) /\
  field byte_string (bs "t") d (Some (gr_txn r)) /\
  field byte_string (bs "v") d (gr_client r) /\
  field address (bs "ip") d (gr_your_addr r) /\
  exists rd values nodes nodes6,
    field dict_value (bs "r") d (Some rd) /\
    field string20 (bs "id") rd (Some (gr_node_id r)) /\
    field byte_string (bs "token") rd (gr_token r) /\
    field peer_values (bs "values") rd values /\ gr_values r = of_option values /\
    field (compact_nodes false) (bs "nodes") rd nodes /\ gr_nodes r = of_option nodes /\
    field (compact_nodes true) (bs "nodes6") rd nodes6 /\ gr_nodes6 r = of_option nodes6.

Definition code_number (c : error_code) (n : N) : Prop :=
  match c with
  | EGeneric => n = 201
  | EServer => n = 202
  | EProtocol => n = 203
  | EMethodUnknown => n = 204
  | EOther m => n = m /\ n <> 201 /\ n <> 202 /\ n <> 203 /\ n <> 204
  end.
Definition error_list (v : value) (cm : error_code * bytes) : Prop :=
  exists c m rest n, v = VList (c :: m :: rest) /\ uint 32 c n /\ code_number (fst cm) n /\ message m (snd cm).
Definition error_says (d : list (bytes * value)) (e : error_response) : Prop :=
  field text (bs "y") d (Some (bs "e")) /\
  field byte_string (bs "t") d (Some (er_txn e)) /\
  field byte_string (bs "v") d (er_client e) /\
  field address (bs "ip") d (er_addr e) /\
  field error_list (bs "e") d (Some (er_code e, er_message e)).

Definition type_text (t : message_type) : bytes :=
  match t with TQuery => bs "q" | TResponse => bs "r" | TError => bs "e" end.
Definition header_says (d : list (bytes * value)) (t : bytes) (y : message_type) : Prop :=
  field byte_string (bs "t") d (Some t) /\ field text (bs "y") d (Some (type_text y)).

Definition want_text (w : want) : bytes := match w with N4 => bs "n4" | N6 => bs "n6" end.
Definition want_list (v : value) (ws : list want) : Prop :=
  exists vs, v = VList vs /\ Forall2 (fun v w => text v (want_text w)) vs ws.
(** What a KRPC node reads in a get_peers query. *)
Definition query_says (d : list (bytes * value)) (q : get_peers_query) : Prop :=
  field text (bs "y") d (Some (bs "q")) /\
  field text (bs "q") d (Some (bs "get_peers")) /\
  field byte_string (bs "t") d (Some (gq_txn q)) /\
  field byte_string (bs "v") d (gq_client q) /\
  field flag (bs "ro") d (gq_ro q) /\
  exists a, field dict_value (bs "a") d (Some a) /\
    field byte_string (bs "id") a (Some (gq_node_id q)) /\
    field byte_string (bs "info_hash") a (Some (gq_hash q)) /\
    field want_list (bs "want") a (gq_want q).
