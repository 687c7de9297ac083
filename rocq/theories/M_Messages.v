(** Model of src/peer/messages.rs. *)
From Verif Require Import Base S_Bencode M_Bencode M_Utf8 M_Net M_Util M_Extensions.

(** src/peer/messages.rs:15 *)
Definition HANDSHAKE_HEADER : bytes := x13 :: bs "BitTorrent protocol".

(** src/peer/messages.rs:17-21 Handshake *)
Record handshake := mkHS { hs_ext : N; hs_hash : bytes; hs_pid : bytes }.

(** src/peer/messages.rs:48-57 *)
Definition handshake_bytes (h : handshake) : bytes :=
  HANDSHAKE_HEADER ++ be_bytes 8 (hs_ext h) ++ hs_hash h ++ hs_pid h.

Inductive handshake_error := InvalidHeader | HSLength (e : packet_error).

(** src/peer/messages.rs:59-78 (InfoHash / PeerId::try_from_buf:
    src/types.rs:89-99, 183-193) *)
Definition handshake_decode (buf : bytes) : res handshake_error handshake :=
  let? (header, buf) := res_map_err HSLength (try_get_bytes 20 buf) in
  if negb (bytes_eqb header HANDSHAKE_HEADER) then Err InvalidHeader
  else
    let? (ext, buf) := res_map_err HSLength (try_get_uint 8 buf) in
    let? (ih, buf) := res_map_err HSLength (try_get_bytes 20 buf) in
    let? (pid, buf) := res_map_err HSLength (try_get_bytes 20 buf) in
    let? _ := res_map_err HSLength (eof buf) in
    Ok (mkHS ext ih pid).

(** src/peer/messages.rs:144-166 CoreMessage *)
Inductive core_msg :=
| Keepalive | Choke | Unchoke | Interested | NotInterested
| Have (piece : N)
| Bitfield (b : bytes)
| Request (index begin length : N)
| Piece (index begin : N) (data : bytes)
| Cancel (index begin length : N)
| Port (port : N)
| Suggest (index : N)
| HaveAll | HaveNone
| Reject (index begin length : N)
| AllowedFast (index : N)
| Extended (msg_id : N) (payload : bytes).

(** src/peer/messages.rs:169-186 CoreMessage::can_be_ignored *)
Definition core_ignorable (m : core_msg) : bool :=
  match m with
  | Keepalive | Choke | Unchoke | Interested | NotInterested | Have _ | Bitfield _
  | Piece _ _ _ | HaveAll | HaveNone | AllowedFast _ | Suggest _ => true
  | _ => false
  end.

Definition u32 := be_bytes 4.
Definition u16 := be_bytes 2.

(** src/peer/messages.rs:234-329 From<CoreMessage> for Bytes *)
Definition core_encode (m : core_msg) : bytes :=
  match m with
  | Keepalive => []
  | Choke => [x00]
  | Unchoke => [x01]
  | Interested => [x02]
  | NotInterested => [x03]
  | Have p => x04 :: u32 p
  | Bitfield b => x05 :: b
  | Request i b l => x06 :: u32 i ++ u32 b ++ u32 l
  | Piece i b d => x07 :: u32 i ++ u32 b ++ d
  | Cancel i b l => x08 :: u32 i ++ u32 b ++ u32 l
  | Port p => x09 :: u16 p
  | Suggest i => x0d :: u32 i
  | HaveAll => [x0e]
  | HaveNone => [x0f]
  | Reject i b l => x10 :: u32 i ++ u32 b ++ u32 l
  | AllowedFast i => x11 :: u32 i
  | Extended id p => x14 :: be_bytes 1 id ++ p
  end.

(** src/peer/messages.rs:806-817 MessageError (bencode error details dropped) *)
Inductive message_error :=
| MUnknown (t : byte)
| MLength (t : byte) (e : packet_error)
| MUnknownExtended (id : N)
| MExtHandshake
| MMetadata.

Definition get_eof (t : byte) (buf : bytes) (m : core_msg) : res message_error core_msg :=
  let? _ := res_map_err (MLength t) (eof buf) in Ok m.
Definition get_u32_eof (t : byte) (buf : bytes) (k : N -> core_msg) : res message_error core_msg :=
  let? (x, buf) := res_map_err (MLength t) (try_get_uint 4 buf) in get_eof t buf (k x).
Definition get_3u32_eof (t : byte) (buf : bytes) (k : N -> N -> N -> core_msg) : res message_error core_msg :=
  let? (i, buf) := res_map_err (MLength t) (try_get_uint 4 buf) in
  let? (b, buf) := res_map_err (MLength t) (try_get_uint 4 buf) in
  let? (l, buf) := res_map_err (MLength t) (try_get_uint 4 buf) in
  get_eof t buf (k i b l).

(** src/peer/messages.rs:331-435 TryFrom<Bytes> for CoreMessage *)
Definition core_decode (buf : bytes) : res message_error core_msg :=
  match buf with
  | [] => Ok Keepalive
  | t :: buf =>
      match t with
      | x00 => get_eof t buf Choke
      | x01 => get_eof t buf Unchoke
      | x02 => get_eof t buf Interested
      | x03 => get_eof t buf NotInterested
      | x04 => get_u32_eof t buf Have
      | x05 => Ok (Bitfield buf)
      | x06 => get_3u32_eof t buf Request
      | x07 =>
          let? (i, buf) := res_map_err (MLength t) (try_get_uint 4 buf) in
          let? (b, buf) := res_map_err (MLength t) (try_get_uint 4 buf) in
          Ok (Piece i b buf)
      | x08 => get_3u32_eof t buf Cancel
      | x09 =>
          let? (p, buf) := res_map_err (MLength t) (try_get_uint 2 buf) in get_eof t buf (Port p)
      | x0d => get_u32_eof t buf Suggest
      | x0e => get_eof t buf HaveAll
      | x0f => get_eof t buf HaveNone
      | x10 => get_3u32_eof t buf Reject
      | x11 => get_u32_eof t buf AllowedFast
      | x14 =>
          let? (id, buf) := res_map_err (MLength t) (try_get_uint 1 buf) in
          Ok (Extended id buf)
      | _ => Err (MUnknown t)
      end
  end.

(** bendy to_bencode: refuses unsorted dictionary keys or too deep nesting; the
    callers [expect] success, so refusal is [Panic]. *)
Fixpoint ascendingb (ks : list bytes) : bool :=
  match ks with
  | k1 :: ((k2 :: _) as r) => bytes_ltb k1 k2 && ascendingb r
  | _ => true
  end.
Fixpoint sortedb (v : value) : bool :=
  match v with
  | VInt _ | VBytes _ => true
  | VList l => forallb sortedb l
  | VDict d => ascendingb (map fst d) && forallb (fun kv => sortedb (snd kv)) d
  end.
Definition to_bencode (max_depth : nat) (v : value) : outcome bytes :=
  if sortedb v && Nat.leb (depth v) max_depth then Ret (encode v) else Panic.

(** src/peer/messages.rs:498-504 ExtendedHandshake *)
Record ext_handshake := mkEH {
  eh_e : option bool; eh_m : option (list (bytes * N)); eh_v : option bytes;
  eh_size : option N; eh_yourip : option ip }.

Definition opt_pair (k : bytes) (o : option value) : list (bytes * value) :=
  match o with Some v => [(k, v)] | None => [] end.
Definition vnat (n : N) : value := VInt (Z.of_N n).

(** src/peer/messages.rs:567-590 ToBencode for ExtendedHandshake *)
Definition eh_value (h : ext_handshake) : value :=
  VDict (
    opt_pair (bs "e") (option_map (fun b : bool => vnat (if b then 1 else 0)) (eh_e h))
    ++ opt_pair (bs "m") (option_map (fun m => VDict (map (fun kc => (fst kc, vnat (snd kc))) m)) (eh_m h))
    ++ opt_pair (bs "metadata_size") (option_map vnat (eh_size h))
    ++ opt_pair (bs "v") (option_map VBytes (eh_v h))
    ++ opt_pair (bs "yourip") (option_map (fun i => VBytes (octets i)) (eh_yourip h))).

(** src/peer/messages.rs:553-557 From<ExtendedHandshake> for Bytes (MAX_DEPTH = 3) *)
Definition eh_encode (h : ext_handshake) : outcome bytes := to_bencode 3 (eh_value h).

(** src/peer/messages.rs:829-837 from_compact_ip *)
Definition from_compact_ip (s : bytes) : option ip :=
  if Nat.eqb (length s) 4 then Some (V4 (be_val s))
  else if Nat.eqb (length s) 16 then Some (V6 (be_val s))
  else None.

(** String::decode_bencode_object *)
Definition as_string (v : value) : option bytes :=
  match v with VBytes s => if utf8_valid s then Some s else None | _ => None end.

(** BTreeMap<String, u8>::decode_bencode_object (keys arrive sorted) *)
Fixpoint decode_m (d : list (bytes * value)) : option (list (bytes * N)) :=
  match d with
  | [] => Some []
  | (k, v) :: r =>
      if utf8_valid k then
        leto n := as_uint 8 v in
        leto r' := decode_m r in
        Some ((k, n) :: r')
      else None
  end.

(** src/peer/messages.rs:592-634 FromBencode for ExtendedHandshake *)
Fixpoint eh_fields (d : list (bytes * value)) (h : ext_handshake) : option ext_handshake :=
  match d with
  | [] => Some h
  | (k, v) :: r =>
      if bytes_eqb k (bs "e") then
        leto x := as_uint 8 v in
        eh_fields r (mkEH (Some (negb (x =? 0))) (eh_m h) (eh_v h) (eh_size h) (eh_yourip h))
      else if bytes_eqb k (bs "m") then
        leto d' := as_dict v in
        leto m := decode_m d' in
        eh_fields r (mkEH (eh_e h) (Some m) (eh_v h) (eh_size h) (eh_yourip h))
      else if bytes_eqb k (bs "v") then
        leto s := as_string v in
        eh_fields r (mkEH (eh_e h) (eh_m h) (Some s) (eh_size h) (eh_yourip h))
      else if bytes_eqb k (bs "metadata_size") then
        leto n := as_uint 32 v in
        eh_fields r (mkEH (eh_e h) (eh_m h) (eh_v h) (Some n) (eh_yourip h))
      else if bytes_eqb k (bs "yourip") then
        leto s := as_bytes v in
        leto i := from_compact_ip s in
        eh_fields r (mkEH (eh_e h) (eh_m h) (eh_v h) (eh_size h) (Some i))
      else eh_fields r h
  end.
(** src/peer/messages.rs:559-565 TryFrom<Bytes> for ExtendedHandshake *)
Definition eh_decode (buf : bytes) : res message_error ext_handshake :=
  match decode_tree DEFAULT_MAX_DEPTH buf with
  | Ok (VDict d) => ok_or (eh_fields d (mkEH None None None None None)) MExtHandshake
  | _ => Err MExtHandshake
  end.

(** src/peer/messages.rs:506-513 into_bep10_registry *)
Definition eh_registry (h : ext_handshake) : res registry_error registry :=
  match eh_m h with Some m => reg_from_m m | None => Ok reg_new end.

(** src/peer/messages.rs:637-653 MetadataMessage *)
Inductive metadata_msg :=
| MRequest (piece : N)
| MData (piece total_size : N) (payload : bytes)
| MReject (piece : N)
| MUnknownType (msg_type : N).

(** src/peer/messages.rs:682-716 From<MetadataMessage> for Bytes *)
Definition mm_header (m : metadata_msg) : value :=
  VDict match m with
        | MRequest p => [(bs "msg_type", vnat 0); (bs "piece", vnat p)]
        | MData p t _ => [(bs "msg_type", vnat 1); (bs "piece", vnat p); (bs "total_size", vnat t)]
        | MReject p => [(bs "msg_type", vnat 2); (bs "piece", vnat p)]
        | MUnknownType t => [(bs "msg_type", vnat t)]
        end.
Definition mm_encode (m : metadata_msg) : outcome bytes :=
  match to_bencode 3 (mm_header m) with
  | Ret h => Ret (h ++ match m with MData _ _ p => p | _ => [] end)
  | Panic => Panic
  end.

(** src/peer/messages.rs:731-759 *)
Fixpoint mm_fields (d : list (bytes * value)) (acc : option N * option N * option N)
  : option (option N * option N * option N) :=
  match d with
  | [] => Some acc
  | (k, v) :: r =>
      let '(ty, pc, ts) := acc in
      if bytes_eqb k (bs "msg_type") then leto n := as_uint 8 v in mm_fields r (Some n, pc, ts)
      else if bytes_eqb k (bs "piece") then leto n := as_uint 32 v in mm_fields r (ty, Some n, ts)
      else if bytes_eqb k (bs "total_size") then leto n := as_uint 32 v in mm_fields r (ty, pc, Some n)
      else mm_fields r acc
  end.

(** src/peer/messages.rs:718-803 TryFrom<Bytes> for MetadataMessage *)
Definition mm_decode (buf : bytes) : res message_error metadata_msg :=
  match parse 2 buf with
  | Some (VDict d, rest) =>
      match mm_fields d (None, None, None) with
      | Some (Some ty, Some piece, ts) =>
          if ty =? 0 then match rest with [] => Ok (MRequest piece) | _ => Err MMetadata end
          else if ty =? 1 then
            match ts with
            | Some t => Ok (MData piece t rest)
            | None => Err MMetadata
            end
          else if ty =? 2 then match rest with [] => Ok (MReject piece) | _ => Err MMetadata end
          else Ok (MUnknownType ty)
      | _ => Err MMetadata
      end
  | _ => Err MMetadata
  end.

(** src/peer/messages.rs:88-92, 437-441 Message and ExtendedMessage *)
Inductive message :=
| Core (m : core_msg)
| ExtHandshake (h : ext_handshake)
| Meta (m : metadata_msg).

(** src/peer/messages.rs:95-102, 443-462 Message::decode *)
Definition msg_decode (buf : bytes) (r : registry) : res message_error message :=
  let? m := core_decode buf in
  match m with
  | Extended id payload =>
      if id =? 0 then let? h := eh_decode payload in Ok (ExtHandshake h)
      else match reg_for_message_id r id with
           | None => Err (MUnknownExtended id)
           | Some Metadata => let? mm := mm_decode payload in Ok (Meta mm)
           end
  | m => Ok (Core m)
  end.

(** src/peer/messages.rs:104-112, 464-475 Message::encode; [Err tt] is
    MessageEncodeError *)
Definition msg_encode (m : message) (r : registry) : outcome (res unit bytes) :=
  match m with
  | Core m => Ret (Ok (core_encode m))
  | ExtHandshake h =>
      match eh_encode h with Ret p => Ret (Ok (core_encode (Extended 0 p))) | Panic => Panic end
  | Meta mm =>
      match reg_get_message_id r Metadata with
      | None => Ret (Err tt)
      | Some id =>
          match mm_encode mm with Ret p => Ret (Ok (core_encode (Extended id p))) | Panic => Panic end
      end
  end.

(** src/peer/messages.rs:114-119, 477-485, 656-658 can_be_ignored *)
Definition msg_ignorable (m : message) : bool :=
  match m with
  | Core m => core_ignorable m
  | ExtHandshake _ => true
  | Meta (MUnknownType _) => true
  | Meta _ => false
  end.
