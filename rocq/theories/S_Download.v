(** Specification vocabulary for downloading metadata from one peer: what was
    sent and received on the wire, and what an honest peer does.  Uses only the
    message types of the model, none of its functions. *)
From Verif Require Import Base S_Bencode M_Torrent M_Messages M_Peer.

(** Metadata piece requests the client sent, in order. *)
Fixpoint requests_sent (tr : list wire) : list N :=
  match tr with
  | [] => []
  | Sent (Meta (MRequest i)) :: r => i :: requests_sent r
  | _ :: r => requests_sent r
  end.

(** Metadata rejections the client sent. *)
Fixpoint rejects_sent (tr : list wire) : list N :=
  match tr with
  | [] => []
  | Sent (Meta (MReject i)) :: r => i :: rejects_sent r
  | _ :: r => rejects_sent r
  end.

(** Metadata requests the peer made. *)
Fixpoint requests_received (tr : list wire) : list N :=
  match tr with
  | [] => []
  | Recv (Ok (Meta (MRequest i))) :: r => i :: requests_received r
  | _ :: r => requests_received r
  end.

(** Data messages received: piece index, declared total, payload length. *)
Fixpoint data_received (tr : list wire) : list (N * N * N) :=
  match tr with
  | [] => []
  | Recv (Ok (Meta (MData i t p))) :: r => (i, t, blen p) :: data_received r
  | _ :: r => data_received r
  end.

(** [0; 1; ...; n-1] *)
Definition upto (n : N) : list N := map N.of_nat (seq 0 (N.to_nat n)).

(** The only messages the client may send at a point where [before] is the
    history so far: the next piece in order, below the end, all earlier pieces
    having been received at full size; or a rejection answering the message
    just received. *)
Definition allowed_send (size : N) (before : list wire) (m : message) : Prop :=
  (exists i, m = Meta (MRequest i) /\ 16384 * i < size /\
             requests_sent before = upto i /\
             data_received before = map (fun j => (j, size, 16384)) (upto i))
  \/ (exists p earlier, m = Meta (MReject p) /\ before = earlier ++ [Recv (Ok (Meta (MRequest p)))]).

(** Messages a well-behaved peer may send at any time. *)
Inductive harmless : message -> Prop :=
| h_keepalive : harmless (Core Keepalive)
| h_choke : harmless (Core Choke)
| h_unchoke : harmless (Core Unchoke)
| h_interested : harmless (Core Interested)
| h_notinterested : harmless (Core NotInterested)
| h_have n : harmless (Core (Have n))
| h_bitfield b : harmless (Core (Bitfield b))
| h_piece i b d : harmless (Core (Piece i b d))
| h_haveall : harmless (Core HaveAll)
| h_havenone : harmless (Core HaveNone)
| h_fast i : harmless (Core (AllowedFast i))
| h_suggest i : harmless (Core (Suggest i))
| h_handshake h : harmless (ExtHandshake h)
| h_unknown t : harmless (Meta (MUnknownType t))
| h_request p : harmless (Meta (MRequest p)).

(** The [i]-th 16 KiB slice of the metadata. *)
Definition slice (data : bytes) (i : N) : bytes := takeN 16384 (dropN (16384 * i) data).

(** What a peer serving [data] sends while the client asks for piece [i], [i+1],
    ...: the right pieces in order, with harmless messages anywhere. *)
Inductive honest (data : bytes) : N -> list event -> Prop :=
| honest_done i evs : blen data <= 16384 * i -> honest data i evs
| honest_other i m evs : harmless m -> honest data i evs -> honest data i (Ok m :: evs)
| honest_piece i evs :
    16384 * i < blen data -> honest data (i + 1) evs ->
    honest data i (Ok (Meta (MData i (blen data) (slice data i))) :: evs).

(** A byte string that is one bencoded dictionary (within the nesting limit). *)
Definition bencoded_dict (data : bytes) : Prop :=
  exists d, data = encode (VDict d) /\ canonical (VDict d) /\ (depth (VDict d) <= 2048)%nat.

(** Delivering [p] as the [k]-th piece (from 0) of [len] bytes of metadata, which are cut
    into 16 KiB pieces and a shorter last one if necessary. *)
Definition delivery (len k : N) (p : bytes) (r : res push_error unit) : Prop :=
  let size := N.min 16384 (len - 16384 * k) in
  (16384 * k < len /\ blen p = size /\ r = Ok tt) \/
  (16384 * k < len /\ blen p <> size /\ r = Err (PushLength k size (blen p))) \/
  (len <= 16384 * k /\ r = Err TooManyPieces).
(** Delivering pieces one after the other, whatever each delivery returned. *)
Fixpoint push_all (b : builder) (ps : list bytes) : outcome (list (res push_error unit) * builder) :=
  match ps with
  | [] => Ret ([], b)
  | p :: ps' =>
      match builder_push b p with
      | Panic => Panic
      | Ret (r, b') => match push_all b' ps' with
                       | Panic => Panic
                       | Ret (rs, b'') => Ret (r :: rs, b'')
                       end
      end
  end.

(** The payloads whose push was accepted. *)
Fixpoint accepted (ps : list bytes) (rs : list (res push_error unit)) : list bytes :=
  match ps, rs with
  | p :: ps', Ok _ :: rs' => p :: accepted ps' rs'
  | _ :: ps', _ :: rs' => accepted ps' rs'
  | _, _ => []
  end.
