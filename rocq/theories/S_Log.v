(** Specification: text without control characters, and what a log record shows of a message. *)
From Verif Require Import Base S_Utf8 S_Magnet M_Net M_Messages M_Mse M_Peer M_Session M_Log.

(** Unicode's control characters (category Cc): C0, DEL and C1. *)
Definition control (c : N) : Prop := c < 32 \/ (127 <= c /\ c < 160).
Definition clean (t : bytes) : Prop := exists cs, Forall scalar cs /\ t = utf8 cs /\ forall c, In c cs -> ~ control c.
(** Text without C0 controls (line breaks, tabs, escape sequences). *)
Definition one_line (t : bytes) : Prop := Forall (fun b => 32 <= b2n b) t.

(** The parts of a record that neither a peer, a tracker nor a DHT node has sent: texts of
    library errors, the URL of the tracker, the path of the file. *)
Definition local_parts (r : record) : list bytes :=
  match r with
  | LFallback _ d => d_src d
  | LPeerFailed _ _ d _ => d_src d
  | LPeerError d _ => d_src d
  | LCount u _ _ | LPeers u _ _ | LWarning u _ _ => [u]
  | LTrackerFailed u _ src _ | LStopFailed u _ src _ => u :: src
  | LTrackerError src _ => src
  | LNodeInvalid _ _ src _ => src
  | LSaving _ p => [p]
  | _ => []
  end.

(** The number of bits set. *)
Definition bits_set (s : bytes) : nat := length (filter (fun b : bool => b) (flat_map (fun b => map (N.testbit (b2n b)) [0; 1; 2; 3; 4; 5; 6; 7]) s)).
(** Messages that differ at most in what is not shown: the pieces of a bitfield, the data of a
    piece, the payload of an extended message, the numbers of the extensions. *)
Definition same_core (a b : core_msg) : Prop :=
  match a, b with
  | Bitfield x, Bitfield y => bits_set x = bits_set y
  | Piece i o x, Piece i' o' y => i = i' /\ o = o' /\ length x = length y
  | Extended i _, Extended j _ => i = j
  | _, _ => a = b
  end.
Definition same_eh (a b : ext_handshake) : Prop :=
  option_map (map fst) (eh_m a) = option_map (map fst) (eh_m b) /\ eh_e a = eh_e b /\ eh_v a = eh_v b /\ eh_size a = eh_size b /\ eh_yourip a = eh_yourip b.
Definition same_meta (a b : metadata_msg) : Prop :=
  match a, b with MData i t x, MData j u y => i = j /\ t = u /\ length x = length y | _, _ => a = b end.
Definition same_msg (a b : message) : Prop :=
  match a, b with
  | Core x, Core y => same_core x y
  | ExtHandshake x, ExtHandshake y => same_eh x y
  | Meta x, Meta y => same_meta x y
  | _, _ => False
  end.
(** The names and the client of an extended handshake are Unicode text, the address is one. *)
Definition readable (m : message) : Prop :=
  match m with
  | ExtHandshake h =>
      (forall l k n, eh_m h = Some l -> In (k, n) l -> is_text k) /\ (forall v, eh_v h = Some v -> is_text v) /\ (forall i, eh_yourip h = Some i -> wf_ip i)
  | _ => True
  end.

(** The kinds of failure with a peer. *)
Definition kind (e : peer_error) : nat :=
  match e with
  | CantRequireCrypto => 0 | EConnect => 1 | ConnectTimeout => 2 | ESend => 3 | ERecv => 4 | InfoHashMismatch _ => 5 | NoBep10 => 6 | NoExtendedHandshake => 7
  | NoMetadataExt => 8 | Disconnect => 9 | EHandshake _ => 10 | ECryptoHandshake => 11 | EMessage _ => 12 | ERegistry _ => 13 | NoMetadataSize => 14
  | InfoConstruct _ => 15 | InfoPush _ => 16 | InfoBuild _ => 17 | SizeMismatch _ _ => 18 | WrongPiece _ _ => 19 | InfoRequestRejected _ => 20 | Unexpected _ => 21
  end%nat.
(** A failure of the connection during the encryption handshake. *)
Definition connection_lost (e : hs_error) : Prop := e = HSend \/ e = HRecv \/ e = HDisconnect.
