(** Specification: what travels on a connection to a peer, in bytes. *)
From Verif Require Import Base S_Bencode S_Wire S_Download M_Net M_Extensions M_Messages M_Peer.

(** A length-prefixed frame. *)
Definition framed (f s : bytes) : Prop :=
  exists h, s = h ++ f /\ length h = 4%nat /\ be h = blen f /\ blen f <= 65535.

(** The frame [f] is the message [m], metadata messages travelling under the
    extension id [id]. *)
Definition frame_says (id : N) (f : bytes) (m : message) : Prop :=
  match m with
  | Core (Extended _ _) => False
  | Core m => core_wire m f
  | ExtHandshake h =>
      exists d, f = n2b 20 :: n2b 0 :: encode (VDict d) /\ canonical (VDict d) /\
        (depth (VDict d) <= 2048)%nat /\ ext_handshake_says d h
  | Meta m =>
      exists d rest, f = n2b 20 :: n2b id :: encode (VDict d) ++ rest /\ canonical (VDict d) /\
        (depth (VDict d) <= 2)%nat /\ metadata_says d rest m
  end.

(** A handshake for [ih] from a peer speaking the extension protocol. *)
Definition hello (ih reserved : bytes) (s : bytes) : Prop :=
  exists pid, s = n2b 19 :: bs "BitTorrent protocol" ++ reserved ++ ih ++ pid /\
    length reserved = 8%nat /\ length ih = 20%nat /\ length pid = 20%nat.

(** The extended handshake registers metadata exchange under [c]. *)
Definition offers (h : ext_handshake) (c : N) : Prop :=
  exists m, eh_m h = Some m /\ In (bs "ut_metadata", c) m.

(** Everything a peer serving [data] sends: its handshake; an extended handshake
    offering metadata exchange and stating the size; then, framed, the pieces in
    order with harmless messages anywhere (the client's own id for metadata
    messages is 42); then anything. *)
Definition honest_stream (ih data s : bytes) : Prop :=
  exists h0 reserved w0 f0 shake c fs ws ms rest,
    s = h0 ++ w0 ++ concat ws ++ rest /\
    hello ih reserved h0 /\ advertises reserved Bep10 /\
    framed f0 w0 /\ frame_says 42 f0 (ExtHandshake shake) /\
    eh_size shake = Some (blen data) /\ offers shake c /\ 0 < c /\
    Forall2 framed fs ws /\ Forall2 (frame_says 42) fs ms /\ honest data 0 (map Ok ms).
