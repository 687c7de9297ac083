(** Specification: why an exchange with a peer failed, as a statement about the bytes the
    peer sent and how its stream ended.  Uses only the types of the model, none of its
    functions except the hash. *)
From Verif Require Import Base S_Bencode S_Wire S_Download S_Frame S_Session M_Net M_Sha1 M_Util M_Bencode M_Torrent M_Extensions M_Messages M_Frame M_Peer.

(** [t] is the type of some message. *)
Definition known_type (t : byte) : Prop := exists m ints tail, layout m = Some (b2n t, ints, tail).
(** No message, and what is wrong with it. *)
Inductive garbled (f : bytes) : message_error -> Prop :=
| ga_type t r : f = t :: r -> ~ known_type t -> garbled f (MUnknown t)
| ga_short t r m x : f = t :: r -> (forall m', ~ core_wire m' f) -> core_wire m (f ++ x) -> garbled f (MLength t Short)
| ga_long t r m r1 x : f = t :: r -> (forall m', ~ core_wire m' f) -> r = r1 ++ x -> core_wire m (t :: r1) -> garbled f (MLength t Long)
| ga_ext i p : f = n2b 20 :: i :: p -> b2n i <> 0 -> b2n i <> 42 -> garbled f (MUnknownExtended (b2n i))
| ga_shake p : f = n2b 20 :: n2b 0 :: p -> (forall h, ~ frame_says 42 f (ExtHandshake h)) -> garbled f MExtHandshake
| ga_meta p : f = n2b 20 :: n2b 42 :: p -> (forall m, ~ frame_says 42 f (Meta m)) -> garbled f MMetadata.

(** The stream goes on with no further frame. *)
Inductive cut (t : bytes) : ending -> peer_error -> Prop :=
| cut_closed : t = [] -> cut t Closed Disconnect
| cut_header : length t = 4%nat -> 0 < be t <= 65535 -> cut t Closed Disconnect
| cut_within : unfinished t -> t <> [] -> length t <> 4%nat -> cut t Closed ERecv
| cut_broken : unfinished t -> cut t Broken ERecv
| cut_long e h r : t = h ++ r -> length h = 4%nat -> 65535 < be h -> cut t e ERecv.
(** There is a next frame, [f]. *)
Definition next_frame (t f rest : bytes) : Prop := exists w, t = w ++ rest /\ framed f w.
(** No message can be read next, for the reason [x]. *)
Inductive no_message (t : bytes) (e : ending) : peer_error -> Prop :=
| nm_cut x : cut t e x -> no_message t e x
| nm_garbled f rest y : next_frame t f rest -> garbled f y -> no_message t e (EMessage y).
Definition next_message (t : bytes) (m : message) (rest : bytes) : Prop :=
  exists f, next_frame t f rest /\ frame_says 42 f m.

(** The messages [ms] deliver the first [k] pieces, [d], of metadata of [n] bytes. *)
Inductive delivered (n : N) : N -> bytes -> list message -> Prop :=
| de_nil : delivered n 0 [] []
| de_other k d ms m : delivered n k d ms -> 16384 * k < n -> harmless m -> delivered n k d (ms ++ [m])
| de_piece k d ms p : delivered n k d ms -> 16384 * k < n -> blen p = N.min 16384 (n - 16384 * k) ->
    delivered n (k + 1) (d ++ p) (ms ++ [Meta (MData k n p)]).
(** Receiving [m] while piece [k] is asked for is an error. *)
Inductive refused (n k : N) : message -> peer_error -> Prop :=
| rf_size p t pl : t <> n -> refused n k (Meta (MData p t pl)) (SizeMismatch n t)
| rf_index p pl : p <> k -> refused n k (Meta (MData p n pl)) (WrongPiece k p)
| rf_length pl : blen pl <> N.min 16384 (n - 16384 * k) ->
    refused n k (Meta (MData k n pl)) (InfoPush (PushLength k (N.min 16384 (n - 16384 * k)) (blen pl)))
| rf_wrong p : p <> k -> refused n k (Meta (MReject p)) (WrongPiece k p)
| rf_reject : refused n k (Meta (MReject k)) (InfoRequestRejected k)
| rf_message m : ~ harmless m -> (forall p t pl, m <> Meta (MData p t pl)) -> (forall p, m <> Meta (MReject p)) -> refused n k m (Unexpected m).
(** The bytes [d] are not one dictionary. *)
Inductive not_dict (d : bytes) : dict_error -> Prop :=
| nd_empty : d = [] -> not_dict d DEmpty
| nd_trailing l x : d = encode (VDict l) ++ x -> x <> [] -> canonical (VDict l) -> (depth (VDict l) <= 2048)%nat -> not_dict d DTrailing
| nd_list r : d = "l"%byte :: r -> not_dict d DNotADict
| nd_int z x : d = encode (VInt z) ++ x -> not_dict d DNotADict
| nd_string s x : d = encode (VBytes s) ++ x -> not_dict d DNotADict
| nd_syntax : d <> [] ->
    (forall l x, d = encode (VDict l) ++ x -> canonical (VDict l) -> ~ (depth (VDict l) <= 2048)%nat) ->
    (forall r, d <> "l"%byte :: r) -> (forall z x, d <> encode (VInt z) ++ x) ->
    (forall s x, d <> encode (VBytes s) ++ x) -> not_dict d DSyntax.
(** Metadata that arrived whole is refused. *)
Inductive bad_metadata (ih d : bytes) : build_error -> Prop :=
| bm_digest : sha1 d <> ih -> bad_metadata ih d Digest
| bm_dict y : sha1 d = ih -> not_dict d y -> bad_metadata ih d (BBencode y).

(** The reason [x] why there is no connection with a peer that sends [s]. *)
Inductive no_connection (ih s : bytes) (e : ending) : peer_error -> Prop :=
| nc_short : (length s < 68)%nat -> e <> Silent -> no_connection ih s e ERecv
| nc_header h t : s = h ++ t -> length h = 68%nat -> (forall ih' r, ~ hello ih' r h) -> no_connection ih s e (EHandshake InvalidHeader)
| nc_hash ih' r h t : s = h ++ t -> hello ih' r h -> ih' <> ih -> no_connection ih s e (InfoHashMismatch ih')
| nc_bep10 r h t : s = h ++ t -> hello ih r h -> ~ advertises r Bep10 -> no_connection ih s e NoBep10
| nc_message r h t x : s = h ++ t -> hello ih r h -> advertises r Bep10 -> no_message t e x -> no_connection ih s e x
| nc_other r h t m rest : s = h ++ t -> hello ih r h -> advertises r Bep10 -> next_message t m rest ->
    (forall h', m <> ExtHandshake h') -> no_connection ih s e NoExtendedHandshake
| nc_zero r h t k rest : s = h ++ t -> hello ih r h -> advertises r Bep10 -> next_message t (ExtHandshake k) rest ->
    offers k 0 -> no_connection ih s e (ERegistry RHandshake)
| nc_none r h t k rest : s = h ++ t -> hello ih r h -> advertises r Bep10 -> next_message t (ExtHandshake k) rest ->
    (forall c, ~ offers k c) -> no_connection ih s e NoMetadataExt.
(** A peer that sends [s] offers metadata of the size [size]; [t] is what it sends after its two handshakes. *)
Definition connection (ih s : bytes) (size : option N) (t : bytes) : Prop :=
  exists h t0 r k c, s = h ++ t0 /\ hello ih r h /\ advertises r Bep10 /\ next_message t0 (ExtHandshake k) t /\
    offers k c /\ 0 < c /\ size = eh_size k.

(** The bytes [t] hold the messages [ms], then [rest]. *)
Inductive messages : bytes -> list message -> bytes -> Prop :=
| ms_nil t : messages t [] t
| ms_cons t m u ms rest : next_message t m u -> messages u ms rest -> messages t (m :: ms) rest.

(** The reason [x] why a peer that sends [s] yields no metadata. *)
Inductive failure (ih s : bytes) (e : ending) : peer_error -> Prop :=
| fa_connect x : no_connection ih s e x -> failure ih s e x
| fa_size t : connection ih s None t -> failure ih s e NoMetadataSize
| fa_large n t : connection ih s (Some n) t -> 20971520 < n -> failure ih s e (InfoConstruct (TooLarge n))
| fa_message n t k d ms u x : connection ih s (Some n) t -> n <= 20971520 -> messages t ms u -> delivered n k d ms -> 16384 * k < n ->
    no_message u e x -> failure ih s e x
| fa_refused n t k d ms u m v x : connection ih s (Some n) t -> n <= 20971520 -> messages t ms u -> delivered n k d ms -> 16384 * k < n ->
    next_message u m v -> refused n k m x -> failure ih s e x
| fa_build n t k d ms u x : connection ih s (Some n) t -> n <= 20971520 -> messages t ms u -> delivered n k d ms -> n <= 16384 * k ->
    bad_metadata ih d x -> failure ih s e (InfoBuild x).
