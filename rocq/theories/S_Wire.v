(** Specification: wire formats of BEP 3, 4, 6, 9, 10, independent of the model's
    functions (only its message types are used). *)
From Verif Require Import Base S_Bencode S_Utf8 M_Net M_Extensions M_Messages.

(** Positional value, most significant byte first. *)
Fixpoint be (l : bytes) : N :=
  match l with [] => 0 | b :: r => b2n b * 256 ^ N.of_nat (length r) + be r end.
(** Two's complement value of an [n]-bit pattern. *)
Definition signed (bits u : N) (z : Z) : Prop :=
  (- 2 ^ (Z.of_N bits - 1) <= z < 2 ^ (Z.of_N bits - 1) /\ z mod 2 ^ Z.of_N bits = Z.of_N u)%Z.

(** BEP 23 / BEP 7: an address is 4 or 16 bytes, the port 2. *)
Definition address_bytes (i : ip) (s : bytes) : Prop :=
  match i with
  | V4 n => length s = 4%nat /\ be s = n
  | V6 n => length s = 16%nat /\ be s = n
  end.
Definition compact (a : sockaddr) (s : bytes) : Prop :=
  exists h p, s = h ++ p /\ address_bytes (sa_ip a) h /\ length p = 2%nat /\ be p = sa_port a.
Definition is_v4 (a : sockaddr) : Prop := match sa_ip a with V4 _ => True | V6 _ => False end.

(** BEP 3 handshake: 19, "BitTorrent protocol", 8 reserved bytes, info hash,
    peer id. *)
Definition handshake_wire (h : handshake) (s : bytes) : Prop :=
  exists reserved, s = n2b 19 :: bs "BitTorrent protocol" ++ reserved ++ hs_hash h ++ hs_pid h /\
    length reserved = 8%nat /\ be reserved = hs_ext h /\
    length (hs_hash h) = 20%nat /\ length (hs_pid h) = 20%nat.

(** BEP 4: reserved byte and mask of each extension. *)
Definition reserved_bit (e : extension) : nat * N :=
  match e with
  | AzureusMessaging => (0%nat, 128)
  | LocationAware => (2%nat, 8)
  | Bep10 => (5%nat, 16)
  | Dht => (7%nat, 1)
  | XbtPex => (7%nat, 2)
  | Fast => (7%nat, 4)
  | NatTraversal => (7%nat, 8)
  | HybridV2 => (7%nat, 16)
  end.
Definition advertises (reserved : bytes) (e : extension) : Prop :=
  let (i, mask) := reserved_bit e in N.land (b2n (nth i reserved x00)) mask <> 0.

(** BEP 3/5/6/10 messages: id, fixed-width integers, rest. *)
Definition layout (m : core_msg) : option (N * list (nat * N) * bytes) :=
  match m with
  | Keepalive => None
  | Choke => Some (0, [], [])
  | Unchoke => Some (1, [], [])
  | Interested => Some (2, [], [])
  | NotInterested => Some (3, [], [])
  | Have i => Some (4, [(4%nat, i)], [])
  | Bitfield b => Some (5, [], b)
  | Request i b l => Some (6, [(4%nat, i); (4%nat, b); (4%nat, l)], [])
  | Piece i b d => Some (7, [(4%nat, i); (4%nat, b)], d)
  | Cancel i b l => Some (8, [(4%nat, i); (4%nat, b); (4%nat, l)], [])
  | Port p => Some (9, [(2%nat, p)], [])
  | Suggest i => Some (13, [(4%nat, i)], [])
  | HaveAll => Some (14, [], [])
  | HaveNone => Some (15, [], [])
  | Reject i b l => Some (16, [(4%nat, i); (4%nat, b); (4%nat, l)], [])
  | AllowedFast i => Some (17, [(4%nat, i)], [])
  | Extended id p => Some (20, [(1%nat, id)], p)
  end.
Inductive integers : list (nat * N) -> bytes -> Prop :=
| ints_nil : integers [] []
| ints_cons k n l b r : length b = k -> be b = n -> integers l r -> integers ((k, n) :: l) (b ++ r).
Definition core_wire (m : core_msg) (s : bytes) : Prop :=
  match layout m with
  | None => s = []
  | Some (id, ints, tail) => exists b, integers ints b /\ s = n2b id :: b ++ tail
  end.
(** All integers are in range for their width. *)
Definition core_ok (m : core_msg) : Prop :=
  match layout m with
  | None => True
  | Some (_, ints, _) => Forall (fun kn => snd kn < 256 ^ N.of_nat (fst kn)) ints
  end.

(** ** Dictionaries: fields that may be absent *)
Definition field {A} (R : value -> A -> Prop) (k : bytes) (d : list (bytes * value)) (o : option A) : Prop :=
  match lookup k d, o with
  | None, None => True
  | Some v, Some a => R v a
  | _, _ => False
  end.
Definition uint (bits : N) (v : value) (n : N) : Prop := v = VInt (Z.of_N n) /\ n < 2 ^ bits.
Definition text (v : value) (s : bytes) : Prop :=
  v = VBytes s /\ exists cs, Forall scalar cs /\ s = utf8 cs.
Definition flag (v : value) (b : bool) : Prop := exists n, uint 8 v n /\ (b = true <-> n <> 0).
Definition code_map (v : value) (m : list (bytes * N)) : Prop :=
  exists d, v = VDict d /\
    Forall2 (fun kv kn => fst kv = fst kn /\ text (VBytes (fst kv)) (fst kn) /\ uint 8 (snd kv) (snd kn)) d m.
Definition ip_field (v : value) (i : ip) : Prop := exists s, v = VBytes s /\ address_bytes i s.

(** BEP 9/10: the name under which an extension is registered *)
Definition bep10_name (e : bep10_ext) : bytes := match e with Metadata => bs "ut_metadata" end.
(** BEP 10: the extended handshake dictionary *)
Definition ext_handshake_says (d : list (bytes * value)) (h : ext_handshake) : Prop :=
  field flag (bs "e") d (eh_e h) /\
  field code_map (bs "m") d (eh_m h) /\
  field text (bs "v") d (eh_v h) /\
  field (uint 32) (bs "metadata_size") d (eh_size h) /\
  field ip_field (bs "yourip") d (eh_yourip h).
(** Field values that can occur. *)
Definition ext_handshake_ok (h : ext_handshake) : Prop :=
  (forall m, eh_m h = Some m -> ascending (map fst m) /\
     Forall (fun kn => snd kn < 256 /\ exists cs, Forall scalar cs /\ fst kn = utf8 cs) m) /\
  (forall s, eh_v h = Some s -> exists cs, Forall scalar cs /\ s = utf8 cs) /\
  (forall n, eh_size h = Some n -> n < 2 ^ 32) /\
  (forall i, eh_yourip h = Some i -> wf_ip i).

(** BEP 9: a header dictionary followed by the piece *)
Definition metadata_says (d : list (bytes * value)) (rest : bytes) (m : metadata_msg) : Prop :=
  exists ty piece total,
    field (uint 8) (bs "msg_type") d (Some ty) /\
    field (uint 32) (bs "piece") d (Some piece) /\
    field (uint 32) (bs "total_size") d total /\
    match m with
    | MRequest p => ty = 0 /\ p = piece /\ rest = []
    | MData p t data => ty = 1 /\ p = piece /\ total = Some t /\ rest = data
    | MReject p => ty = 2 /\ p = piece /\ rest = []
    | MUnknownType t => 2 < ty /\ t = ty
    end.
Definition metadata_ok (m : metadata_msg) : Prop :=
  match m with
  | MRequest p | MReject p => p < 2 ^ 32
  | MData p t _ => p < 2 ^ 32 /\ t < 2 ^ 32
  | MUnknownType _ => False (* never sent *)
  end.
