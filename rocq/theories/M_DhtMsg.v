(** Model of src/dht/messages.rs and the node types of src/dht/mod.rs. *)
From Verif Require Import Base S_Bencode M_Bencode M_Utf8 M_Net M_Util M_Compact M_Messages M_Tracker.

(** src/dht/mod.rs:18-19, 84-89 Node with its NodeId ([V4]/[V6] tell Node<Ipv4Addr> from
    Node<Ipv6Addr>; Node<IpAddr> is the same record) *)
Record node := mkNode { nd_id : bytes; nd_ip : ip; nd_port : N }.
(** src/dht/mod.rs:91-95 Node::address *)
Definition node_address (n : node) : sockaddr := mkSA (nd_ip n) (nd_port n).

(** src/dht/mod.rs:123-155 FromCompact for Node<Ipv4Addr> ([w] = 4) and Node<Ipv6Addr>
    ([w] = 16); src/dht/mod.rs:46-56 NodeId from a buffer *)
Definition node_from_compact (w : nat) (mk : N -> ip) (s : bytes) : res compact_error node :=
  let e := BadLength (length s) in
  let? (id, r) := res_map_err (fun _ => e) (try_get_bytes 20 s) in
  let? (i, r) := res_map_err (fun _ => e) (try_get_uint w r) in
  let? (p, r) := res_map_err (fun _ => e) (try_get_uint 2 r) in
  let? _ := res_map_err (fun _ => e) (eof r) in
  Ok (mkNode id (mk i) p).
(** src/dht/mod.rs:157-158 *)
Definition nodes4_from_compact (s : bytes) := vec_from_compact_go (node_from_compact 4 V4) 26 (length s) s.
Definition nodes6_from_compact (s : bytes) := vec_from_compact_go (node_from_compact 16 V6) 38 (length s) s.

(** src/dht/mod.rs:58-71 FromBencode for NodeId *)
Definition as_node_id (v : value) : option bytes :=
  leto s := as_bytes v in if Nat.eqb (length s) 20 then Some s else None.

(** src/dht/messages.rs:273-286 Want *)
Inductive want := N4 | N6.
Definition want_str (w : want) : bytes := match w with N4 => bs "n4" | N6 => bs "n6" end.

(** src/dht/messages.rs:13-21 GetPeersQuery *)
Record get_peers_query := mkGPQ {
  gq_txn : bytes; gq_client : option bytes; gq_node_id : bytes; gq_hash : bytes;
  gq_ro : option bool; gq_want : option (list want) }.
(** src/dht/messages.rs:23-57 ToBencode for GetPeersQuery *)
Definition gpq_value (q : get_peers_query) : value :=
  VDict (
    [(bs "a", VDict (
        [(bs "id", VBytes (gq_node_id q)); (bs "info_hash", VBytes (gq_hash q))]
        ++ opt_pair (bs "want") (option_map (fun ws => VList (map (fun w => VBytes (want_str w)) ws)) (gq_want q))));
     (bs "q", VBytes (bs "get_peers"))]
    ++ opt_pair (bs "ro") (option_map (fun b : bool => vnat (if b then 1 else 0)) (gq_ro q))
    ++ [(bs "t", VBytes (gq_txn q))]
    ++ opt_pair (bs "v") (option_map VBytes (gq_client q))
    ++ [(bs "y", VBytes (bs "q"))]).
(** MAX_DEPTH = 3; [Panic] here stands for the encoder's error, which the only caller
    (src/dht/actor.rs:202-215) handles as a send failure *)
Definition gpq_encode (q : get_peers_query) : outcome bytes := to_bencode 3 (gpq_value q).

(** src/dht/messages.rs:288-303 gen_client *)
Definition gen_client : bytes := bs "DM" ++ [x00; x07].

(** src/dht/messages.rs:59-69 GetPeersResponse; peers from src/peer/mod.rs From<SocketAddr> *)
Record get_peers_response := mkGPR {
  gr_txn : bytes; gr_client : option bytes; gr_node_id : bytes; gr_values : list peer;
  gr_nodes : list node; gr_nodes6 : list node; gr_token : option bytes; gr_your_addr : option sockaddr }.
Definition peer_of_addr (a : sockaddr) : peer := mkPeer a None false.

(** AsCompact::<SocketAddr>::decode_bencode_object (src/compact.rs) *)
Definition as_compact_addr (v : value) : option sockaddr :=
  leto s := as_bytes v in res_ok (from_compact s).
Fixpoint decode_values (l : list value) : option (list peer) :=
  match l with
  | [] => Some []
  | v :: r =>
      leto a := as_compact_addr v in
      leto ps := decode_values r in
      Some (peer_of_addr a :: ps)
  end.

(** src/dht/messages.rs:102-137: the loop over the "r" dictionary *)
Record r_acc := mkRA {
  ra_id : option bytes; ra_values : list peer; ra_nodes : list node; ra_nodes6 : list node; ra_token : option bytes }.
Fixpoint r_fields (d : list (bytes * value)) (a : r_acc) : option r_acc :=
  match d with
  | [] => Some a
  | (k, v) :: r =>
      if bytes_eqb k (bs "id") then
        leto x := as_node_id v in
        r_fields r (mkRA (Some x) (ra_values a) (ra_nodes a) (ra_nodes6 a) (ra_token a))
      else if bytes_eqb k (bs "nodes") then
        leto x := (leto s := as_bytes v in res_ok (nodes4_from_compact s)) in
        r_fields r (mkRA (ra_id a) (ra_values a) (ra_nodes a ++ x) (ra_nodes6 a) (ra_token a))
      else if bytes_eqb k (bs "nodes6") then
        leto x := (leto s := as_bytes v in res_ok (nodes6_from_compact s)) in
        r_fields r (mkRA (ra_id a) (ra_values a) (ra_nodes a) (ra_nodes6 a ++ x) (ra_token a))
      else if bytes_eqb k (bs "values") then
        leto x := (leto l := as_list v in decode_values l) in
        r_fields r (mkRA (ra_id a) (ra_values a ++ x) (ra_nodes a) (ra_nodes6 a) (ra_token a))
      else if bytes_eqb k (bs "token") then
        leto x := as_bytes v in
        r_fields r (mkRA (ra_id a) (ra_values a) (ra_nodes a) (ra_nodes6 a) (Some x))
      else r_fields r a
  end.

(** src/dht/messages.rs:82-145: the outer loop *)
Record gpr_acc := mkGA { ga_txn : option bytes; ga_client : option bytes; ga_r : r_acc; ga_addr : option sockaddr }.
Fixpoint gpr_fields (d : list (bytes * value)) (a : gpr_acc) : option gpr_acc :=
  match d with
  | [] => Some a
  | (k, v) :: r =>
      if bytes_eqb k (bs "t") then
        leto x := as_bytes v in gpr_fields r (mkGA (Some x) (ga_client a) (ga_r a) (ga_addr a))
      else if bytes_eqb k (bs "v") then
        leto x := as_bytes v in gpr_fields r (mkGA (ga_txn a) (Some x) (ga_r a) (ga_addr a))
      else if bytes_eqb k (bs "y") then
        leto x := as_string v in
        if bytes_eqb x (bs "r") then gpr_fields r a else None
      else if bytes_eqb k (bs "r") then
        leto d' := as_dict v in
        leto x := r_fields d' (ga_r a) in
        gpr_fields r (mkGA (ga_txn a) (ga_client a) x (ga_addr a))
      else if bytes_eqb k (bs "ip") then
        leto x := as_compact_addr v in gpr_fields r (mkGA (ga_txn a) (ga_client a) (ga_r a) (Some x))
      else gpr_fields r a
  end.
Definition ra_new : r_acc := mkRA None [] [] [] None.
(** src/dht/messages.rs:71-159 FromBencode for GetPeersResponse ([None]: any bendy error) *)
Definition gpr_decode (v : value) : option get_peers_response :=
  leto d := as_dict v in
  leto a := gpr_fields d (mkGA None None ra_new None) in
  leto txn := ga_txn a in
  leto id := ra_id (ga_r a) in
  Some (mkGPR txn (ga_client a) id (ra_values (ga_r a)) (ra_nodes (ga_r a)) (ra_nodes6 (ga_r a))
          (ra_token (ga_r a)) (ga_addr a)).

(** src/dht/messages.rs:240-271 ErrorCode *)
Inductive error_code := EGeneric | EServer | EProtocol | EMethodUnknown | EOther (n : N).
Definition as_error_code (v : value) : option error_code :=
  leto n := as_uint 32 v in
  Some (if n =? 201 then EGeneric else if n =? 202 then EServer else if n =? 203 then EProtocol
        else if n =? 204 then EMethodUnknown else EOther n).

(** src/dht/messages.rs:161-168 ErrorResponse *)
Record error_response := mkER {
  er_txn : bytes; er_client : option bytes; er_code : error_code; er_message : bytes; er_addr : option sockaddr }.
Record er_acc := mkEA {
  ea_txn : option bytes; ea_client : option bytes; ea_code : option error_code; ea_message : option bytes;
  ea_addr : option sockaddr }.
(** src/dht/messages.rs:186-226: the loop; lines 188-201: the "e" list *)
Fixpoint er_fields (d : list (bytes * value)) (a : er_acc) : option er_acc :=
  match d with
  | [] => Some a
  | (k, v) :: r =>
      if bytes_eqb k (bs "e") then
        leto l := as_list v in
        leto (code, l) := match l with
                          | [] => Some (ea_code a, [])
                          | x :: l' => leto c := as_error_code x in Some (Some c, l')
                          end in
        leto msg := match code, l with
                    | Some _, x :: _ => leto s := as_bytes x in Some (Some (from_utf8_lossy s))
                    | _, _ => Some (ea_message a)
                    end in
        er_fields r (mkEA (ea_txn a) (ea_client a) code msg (ea_addr a))
      else if bytes_eqb k (bs "t") then
        leto x := as_bytes v in er_fields r (mkEA (Some x) (ea_client a) (ea_code a) (ea_message a) (ea_addr a))
      else if bytes_eqb k (bs "v") then
        leto x := as_bytes v in er_fields r (mkEA (ea_txn a) (Some x) (ea_code a) (ea_message a) (ea_addr a))
      else if bytes_eqb k (bs "y") then
        leto x := as_string v in
        if bytes_eqb x (bs "e") then er_fields r a else None
      else if bytes_eqb k (bs "ip") then
        leto x := as_compact_addr v in er_fields r (mkEA (ea_txn a) (ea_client a) (ea_code a) (ea_message a) (Some x))
      else er_fields r a
  end.
(** src/dht/messages.rs:178-238 FromBencode for ErrorResponse *)
Definition er_decode (v : value) : option error_response :=
  leto d := as_dict v in
  leto a := er_fields d (mkEA None None None None None) in
  leto txn := ea_txn a in
  leto code := ea_code a in
  leto msg := ea_message a in
  Some (mkER txn (ea_client a) code msg (ea_addr a)).

(** src/dht/messages.rs:338-358 MessageType *)
Inductive message_type := TQuery | TResponse | TError.
Definition as_message_type (v : value) : option message_type :=
  leto s := as_string v in
  if bytes_eqb s (bs "q") then Some TQuery
  else if bytes_eqb s (bs "r") then Some TResponse
  else if bytes_eqb s (bs "e") then Some TError
  else None.

(** src/dht/messages.rs:305-336 prescan: the dictionary at the front of the packet; what
    follows it is not looked at *)
Fixpoint prescan_fields (d : list (bytes * value)) (a : option bytes * option message_type)
  : option (option bytes * option message_type) :=
  match d with
  | [] => Some a
  | (k, v) :: r =>
      if bytes_eqb k (bs "t") then leto x := as_bytes v in prescan_fields r (Some x, snd a)
      else if bytes_eqb k (bs "y") then leto x := as_message_type v in prescan_fields r (fst a, Some x)
      else prescan_fields r a
  end.
Definition prescan (msg : bytes) : option (bytes * message_type) :=
  leto (v, _) := parse DEFAULT_MAX_DEPTH msg in
  leto d := as_dict v in
  leto (t, y) := prescan_fields d (None, None) in
  leto t := t in
  leto y := y in
  Some (t, y).

(** src/dht/messages.rs:382-390 ResponseError *)
Inductive response_error := RBencode | RRpc (e : error_response) | RQuery.
(** src/dht/messages.rs:365-370: the pairs are read one by one up to "y" *)
Fixpoint find_y (fuel : nat) (prev : option bytes) (inp : bytes) : option value :=
  match fuel with
  | O => None
  | S f =>
      match inp with
      | [] => None
      | c :: _ =>
          if Byte.eqb c "e" then None
          else
            leto (k, r1) := take_string inp in
            if prev_lt prev k then
              leto (v, r2) := parse_value (fuel_for r1) (Nat.pred DEFAULT_MAX_DEPTH) r1 in
              if bytes_eqb k (bs "y") then Some v else find_y f (Some k) r2
            else None
      end
  end.
Definition scan_y (msg : bytes) : option message_type :=
  match msg with
  | c :: r => if Byte.eqb c "d" then leto v := find_y (S (length r)) None r in as_message_type v else None
  | [] => None
  end.
(** src/util.rs:136-146 decode_bencode for a type decoded by [dec] *)
Definition decode_bencode {A} (dec : value -> option A) (buf : bytes) : option A :=
  match decode_tree DEFAULT_MAX_DEPTH buf with Ok v => dec v | Err _ => None end.
(** src/dht/messages.rs:360-380 decode_response::<GetPeersResponse> *)
Definition decode_response (msg : bytes) : res response_error get_peers_response :=
  match scan_y msg with
  | None => Err RBencode
  | Some TResponse => ok_or (decode_bencode gpr_decode msg) RBencode
  | Some TError =>
      match decode_bencode er_decode msg with
      | Some e => Err (RRpc e)
      | None => Err RBencode
      end
  | Some TQuery => Err RQuery
  end.
