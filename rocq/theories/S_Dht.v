(** Specification vocabulary for DHT lookups: what the history of observations says about
    lookup number [sid]. *)
From Verif Require Import Base M_Net M_Tracker M_DhtMsg M_Dht S_Async S_Bencode S_DhtMsg.

(** The addresses queried, in order (whether or not the datagram could be sent). *)
Definition asked (h : list aobs) (sid : nat) : list sockaddr :=
  flat_map (fun o => match o with OQuery i a _ _ => if Nat.eqb i sid then [a] else [] | _ => [] end) h.
(** The contents of the valid replies: nodes and peers. *)
Definition told (h : list aobs) (sid : nat) : list node :=
  flat_map (fun o => match o with OReply i _ _ (Ok r) => if Nat.eqb i sid then gr_nodes r ++ gr_nodes6 r else [] | _ => [] end) h.
Definition given (h : list aobs) (sid : nat) : list peer :=
  flat_map (fun o => match o with OReply i _ _ (Ok r) => if Nat.eqb i sid then gr_values r else [] | _ => [] end) h.
(** The nodes known: of the nodes told, the first for each address. *)
Definition known_nodes (h : list aobs) (sid : nat) (ns : list node) : Prop := firsts node_address (told h sid) ns.
(** Node [n], already known, sent a valid reply. *)
Definition responded (h : list aobs) (sid : nat) (n : node) : Prop :=
  exists h1 t r h2 ns, h = h1 ++ OReply sid (node_address n) t (Ok r) :: h2 /\ known_nodes h1 sid ns /\ In n ns.
(** A query with this address and transaction id was sent, and since then neither was a
    reply received nor did it time out. *)
Definition awaiting (h : list aobs) (sid : nat) (addr : sockaddr) (txn : bytes) : Prop :=
  exists h1 q h2, h = h1 ++ OQuery sid addr q true :: h2 /\ gq_txn q = txn /\
    (forall r, ~ In (OReply sid addr txn r) h2) /\ ~ In (OTimeout sid addr txn) h2.
(** The transaction ids of all queries, in order. *)
Definition txns (h : list aobs) : list bytes := flat_map (fun o => match o with OQuery _ _ q _ => [gq_txn q] | _ => [] end) h.
Definition answers (h : list aobs) (sid : nat) : list found_peers :=
  flat_map (fun o => match o with OAnswer i r => if Nat.eqb i sid then [r] else [] | _ => [] end) h.
Definition downs (h : list aobs) (sid : nat) : nat :=
  length (filter (fun o => match o with ODown i => Nat.eqb i sid | _ => false end) h).

(** XOR distance, as a number. *)
Definition xdist (hash : bytes) (n : node) : N := N.lxor (be_val (nd_id n)) (be_val hash).
(** Info hashes are 20 bytes. *)
Definition wf_ev (e : aev) : Prop := match e with ALookup hash _ => length hash = 20%nat | _ => True end.
(** What can have happened by now. *)
Definition history (my_id : bytes) (v6 : bool) (boot : list sockaddr) (a : actor) (h : list aobs) : Prop :=
  exists l, Forall wf_ev l /\ arun (actor_start my_id v6 boot) l = Some (a, h).
(** Fewer queries than transaction ids, so none was reused. *)
Definition few (h : list aobs) : Prop := N.of_nat (length (txns h)) <= 2 ^ 32.
Definition is_timeout (e : aev) : Prop := match e with ATimeout _ _ => True | _ => False end.
(** The datagram is a KRPC message, not a query, with this transaction id. *)
Definition carries (msg txn : bytes) : Prop :=
  exists d rest ty, msg = encode (VDict d) ++ rest /\ canonical (VDict d) /\ (depth (VDict d) <= 2048)%nat /\ header_says d txn ty /\ ty <> TQuery.
