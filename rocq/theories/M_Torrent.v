(** Model of src/torrent.rs: TorrentInfo, TorrentInfoBuilder, TorrentFile. *)
From Verif Require Import Base S_Bencode M_Bencode M_Sha1 M_Utf8 M_Net.

(** src/consts.rs:15 *)
Definition MAX_INFO_LENGTH : N := 20971520.
(** src/torrent.rs:61 *)
Definition PIECE_LENGTH : N := 16384.

(** src/torrent.rs:22-25 TorrentInfo *)
Record torrent_info := mkTI { ti_hash : bytes; ti_data : bytes }.

(** src/torrent.rs:28-42 TorrentInfo::name.  [unreachable!()] and [expect] are
    [Panic]. The pairs are walked in order; the first "name" key decides. *)
Fixpoint find_name (d : list (bytes * value)) : option bytes :=
  match d with
  | [] => None
  | (k, v) :: r =>
      if bytes_eqb k (bs "name") then
        match v with VBytes s => Some (from_utf8_lossy s) | _ => None end
      else find_name r
  end.
Definition ti_name (info : torrent_info) : outcome (option bytes) :=
  match parse DEFAULT_MAX_DEPTH (ti_data info) with
  | None => Panic
  | Some (VDict d, _) => Ret (find_name d)
  | Some (_, _) => Panic
  end.

(** src/torrent.rs:52-58 TorrentInfoBuilder: [b_fed] is what the hasher was fed,
    [b_next..b_qty] is what is left of index_iter. *)
Record builder := mkB {
  b_hash : bytes; b_fed : bytes; b_data : bytes; b_sizes : list N; b_next : N; b_qty : N }.

Inductive construct_error := TooLarge (n : N).
Inductive push_error := TooManyPieces | PushLength (index expected got : N).
Inductive build_error := BBencode (e : dict_error) | NotFinished (left : N) | Digest.

(** src/torrent.rs:63-86 TorrentInfoBuilder::new *)
Definition builder_new (ih : bytes) (len : N) : outcome (res construct_error builder) :=
  if MAX_INFO_LENGTH <? len then Ret (Err (TooLarge len))
  else
    let full := repeat PIECE_LENGTH (N.to_nat (len / PIECE_LENGTH)) in
    let over := len mod PIECE_LENGTH in
    let sizes := if 0 <? over then full ++ [over] else full in
    let qty := N.of_nat (length sizes) in
    if qty <=? MAX_U32 then Ret (Ok (mkB ih [] [] sizes 0 qty)) else Panic.

(** src/torrent.rs:88-103 TorrentInfoBuilder::push; indexing [sizes] out of
    bounds is [Panic]. *)
Definition builder_push (b : builder) (piece : bytes) : outcome (res push_error unit * builder) :=
  if b_next b <? b_qty b then
    let index := b_next b in
    let b' := mkB (b_hash b) (b_fed b) (b_data b) (b_sizes b) (b_next b + 1) (b_qty b) in
    match nth_error (b_sizes b) (N.to_nat index) with
    | None => Panic
    | Some sz =>
        if negb (blen piece =? sz) then Ret (Err (PushLength index sz (blen piece)), b')
        else Ret (Ok tt, mkB (b_hash b) (b_fed b ++ piece) (b_data b ++ piece) (b_sizes b)
                             (b_next b + 1) (b_qty b))
    end
  else Ret (Err TooManyPieces, b).

(** src/torrent.rs:105-107 next_piece *)
Definition builder_next (b : builder) : option N :=
  if b_next b <? b_qty b then Some (b_next b) else None.

(** src/torrent.rs:109-127 build *)
Definition builder_build (b : builder) : res build_error torrent_info :=
  let left := b_qty b - b_next b in
  if 0 <? left then Err (NotFinished left)
  else if negb (bytes_eqb (sha1 (b_fed b)) (b_hash b)) then Err Digest
  else match check_bencode_dict (b_data b) with
       | Err e => Err (BBencode e)
       | Ok _ => Ok (mkTI (b_hash b) (b_data b))
       end.

(** src/torrent.rs:131-137 TorrentFile; a tracker is represented by its
    url_string() *)
Record torrent_file := mkTF {
  tf_info : torrent_info; tf_trackers : list bytes; tf_nodes : list sockaddr;
  tf_date : Z; tf_created_by : bytes }.

(** src/consts.rs:27 CLIENT (Cargo.toml:2-3) *)
Definition CLIENT : bytes := bs "demagnetize 0.7.0".

(** src/torrent.rs:140-152 TorrentFile::new, given the clock *)
Definition tf_new (info : torrent_info) (trackers : list bytes) (nodes : list sockaddr) (now : Z)
  : torrent_file := mkTF info trackers nodes now CLIENT.

(** src/torrent.rs:179-193 put_kv (to_bencode of a literal key and a value) *)
Definition put_kv (key : bytes) (v : value) : bytes := encode (VBytes key) ++ encode v.

(** src/torrent.rs:315-328 NodeAddr *)
Definition node_value (a : sockaddr) : value :=
  VList [VBytes (show_ip (sa_ip a)); VInt (Z.of_N (sa_port a))].

(** src/torrent.rs:195-229 From<TorrentFile> for Bytes *)
Definition tf_bytes (t : torrent_file) : bytes :=
  ["d"%byte]
  ++ (match tf_trackers t with
      | [] => []
      | trs => put_kv (bs "announce-list") (VList (map (fun u => VList [VBytes u]) trs))
      end)
  ++ put_kv (bs "created by") (VBytes (tf_created_by t))
  ++ put_kv (bs "creation date") (VInt (tf_date t))
  ++ encode (VBytes (bs "info")) ++ ti_data (tf_info t)
  ++ (match tf_nodes t with
      | [] => []
      | ns => put_kv (bs "nodes") (VList (map node_value ns))
      end)
  ++ ["e"%byte].

(** src/torrent.rs:348-353 unix_now: [ns] is the clock in nanoseconds relative
    to the epoch (negative before it); [as_secs] truncates a duration. *)
Definition I64_MAX : Z := 9223372036854775807.
Definition I64_MIN : Z := -9223372036854775808.
Definition unix_now (ns : Z) : Z :=
  if (0 <=? ns)%Z then
    let s := (ns / 1000000000)%Z in
    if (s <=? I64_MAX)%Z then s else I64_MAX
  else
    let s := ((- ns) / 1000000000)%Z in
    if (s <=? I64_MAX)%Z then (- s)%Z else I64_MIN.
