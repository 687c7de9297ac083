(** Specification: BEP 15 (UDP tracker protocol) and BEP 41 (its URL data
    extension), and what a sound exchange looks like.  Only the model's data types
    are used, not its functions. *)
From Verif Require Import Base S_Utf8 M_Net M_Tracker S_Wire.

(** ** Requests, as a server reads them *)
Definition connect_packet (txn : N) (s : bytes) : Prop :=
  integers [(8%nat, 4497486125440); (4%nat, 0); (4%nat, txn)] s.

(** BEP 41: EndOfOptions (0), NOP (1), URLData (2, length, data); the data of all
    URLData options is concatenated. *)
Inductive options : bytes -> bytes -> Prop :=
| opt_none : options [] []
| opt_end r : options (x00 :: r) []
| opt_nop s d : options s d -> options (x01 :: s) d
| opt_url seg s d : options s d -> (length seg < 256)%nat ->
    options (x02 :: n2b (N.of_nat (length seg)) :: seg ++ s) (seg ++ d).

Definition event_number (e : announce_event) : N :=
  match e with EvAnnounce => 0 | EvCompleted => 1 | EvStarted => 2 | EvStopped => 3 end.

(** Offsets 0-15 ids, 16-35 hash, 36-55 peer id, 56-97 numbers, 98- options. *)
Definition announce_packet (cid txn : N) (a : announcement) (urldata : bytes) (s : bytes) : Prop :=
  exists ids nums opts,
    s = ids ++ an_hash a ++ an_pid a ++ nums ++ opts /\
    integers [(8%nat, cid); (4%nat, 1); (4%nat, txn)] ids /\
    length (an_hash a) = 20%nat /\ length (an_pid a) = 20%nat /\
    integers [(8%nat, an_downloaded a); (8%nat, an_left a); (8%nat, an_uploaded a);
              (4%nat, event_number (an_event a)); (4%nat, 0); (4%nat, an_key a);
              (4%nat, an_numwant a); (2%nat, an_port a)] nums /\
    options opts urldata.

(** Values that fit their fields. *)
Definition ann_ok (a : announcement) : Prop :=
  length (an_hash a) = 20%nat /\ length (an_pid a) = 20%nat /\
  an_downloaded a < 2 ^ 64 /\ an_left a < 2 ^ 64 /\ an_uploaded a < 2 ^ 64 /\
  an_key a < 2 ^ 32 /\ an_numwant a < 2 ^ 32 /\ an_port a < 2 ^ 16.

(** ** Responses *)
(** Trailing bytes are allowed ("clients should not assume packets to be of a
    certain size"). *)
Definition connect_reply (s : bytes) (txn cid : N) : Prop :=
  exists b rest, s = b ++ rest /\ integers [(4%nat, 0); (4%nat, txn); (8%nat, cid)] b.

Definition announce_reply (v6 : bool) (s : bytes) (txn : N) (r : announce_response) : Prop :=
  exists b addrs ws leechers seeders,
    s = b ++ concat ws /\
    integers [(4%nat, 1); (4%nat, txn); (4%nat, ar_interval r); (4%nat, leechers); (4%nat, seeders)] b /\
    Forall2 compact addrs ws /\ Forall (fun a => if v6 then ~ is_v4 a else is_v4 a) addrs /\
    r = mkResp (ar_interval r) (map (fun a => mkPeer a None false) addrs)
          None None None None None (Some leechers) (Some seeders).

Definition error_reply (s msg : bytes) : Prop :=
  exists b txn, s = b ++ msg /\ integers [(4%nat, 3); (4%nat, txn)] b.
Definition first_word (s : bytes) (a : N) : Prop := exists b r, s = b ++ r /\ length b = 4%nat /\ be b = a.
