(** Model of src/dht/actor.rs: NodeSpace, LookupSession, TransactionGenerator and the
    DhtActor with its event loop.  Logging and NodeDisplay's formatting are left out.
    Addresses are [sockaddr] (flow info and scope id of IPv6 addresses taken as 0). *)
From Verif Require Import Base M_Net M_Tracker M_DhtMsg.

(** src/dht/mod.rs:36-44 NodeId ^ InfoHash; Distance (:81-82) is ordered bytewise *)
Definition distance (id hash : bytes) : bytes := map (fun p => n2b (N.lxor (b2n (fst p)) (b2n (snd p)))) (combine id hash).

(** actor.rs:674-685 NodeInfo *)
Record node_info := mkInfo { ni_node : node; ni_queried : bool; ni_responsive : bool }.
(** actor.rs:569-583 NodeSpace.  The BTreeMap is the list of its entries in order of key;
    the HashMap the list of its entries. *)
Record node_space := mkSpace { sp_hash : bytes; sp_nodes : list (bytes * list node_info); sp_addr : list (sockaddr * node) }.
(** actor.rs:586-592 NodeSpace::new *)
Definition space_new (hash : bytes) : node_space := mkSpace hash [] [].
(** addr2node.get, actor.rs:665-670 *)
Definition addr_get (m : list (sockaddr * node)) (a : sockaddr) : option node :=
  option_map snd (find (fun e => sa_eqb (fst e) a) m).
(** entry(dist).or_default().push_front(info) *)
Fixpoint bucket_push (m : list (bytes * list node_info)) (d : bytes) (i : node_info) : list (bytes * list node_info) :=
  match m with
  | [] => [(d, [i])]
  | (k, b) :: r =>
      if bytes_eqb k d then (k, i :: b) :: r
      else if bytes_ltb d k then (d, [i]) :: (k, b) :: r
      else (k, b) :: bucket_push r d i
  end.
(** actor.rs:599-611 add *)
Definition space_add (s : node_space) (n : node) : node_space :=
  match addr_get (sp_addr s) (node_address n) with
  | Some _ => s
  | None => mkSpace (sp_hash s) (bucket_push (sp_nodes s) (distance (nd_id n) (sp_hash s)) (mkInfo n false false)) ((node_address n, n) :: sp_addr s)
  end.
(** actor.rs:623-634 closest_unqueried: of the first [k] infos of a bucket, mark those not
    yet queried; the rest of [k], the nodes marked and the bucket *)
Fixpoint mark_queried (k : nat) (b : list node_info) : nat * list node * list node_info :=
  match k, b with
  | S k', i :: r =>
      let '(k1, ns, r') := mark_queried k' r in
      if ni_queried i then (k1, ns, i :: r') else (k1, ni_node i :: ns, mkInfo (ni_node i) true (ni_responsive i) :: r')
  | _, _ => (k, [], b)
  end.
(** likewise of the buckets in order *)
Fixpoint unqueried_go (k : nat) (m : list (bytes * list node_info)) : list node * list (bytes * list node_info) :=
  match m with
  | [] => ([], [])
  | (d, b) :: r =>
      let '(k1, ns, b') := mark_queried k b in
      let (ns', r') := unqueried_go k1 r in (ns ++ ns', (d, b') :: r')
  end.
Definition closest_unqueried (k : nat) (s : node_space) : list node * node_space :=
  let (ns, m) := unqueried_go k (sp_nodes s) in (ns, mkSpace (sp_hash s) m (sp_addr s)).
(** actor.rs:638-646 closest_responsive *)
Definition closest_responsive (k : nat) (s : node_space) : list node :=
  map ni_node (firstn k (filter ni_responsive (concat (map snd (sp_nodes s))))).
(** actor.rs:650-659 mark_responsive *)
(** the loop :652-657 *)
Fixpoint mark_first (id : bytes) (b : list node_info) : list node_info :=
  match b with
  | [] => []
  | i :: r => if bytes_eqb (nd_id (ni_node i)) id then mkInfo (ni_node i) (ni_queried i) true :: r else i :: mark_first id r
  end.
Definition mark_responsive (id : bytes) (s : node_space) : node_space :=
  mkSpace (sp_hash s)
    (map (fun e => if bytes_eqb (fst e) (distance id (sp_hash s)) then (fst e, mark_first id (snd e)) else e) (sp_nodes s)) (sp_addr s).

(** actor.rs:366-382 TransactionGenerator: the counter and the id generated from it *)
Definition txn_bytes (t : N) : bytes := be_bytes 4 t.
Definition txn_next (t : N) : N := (t + 1) mod 2 ^ 32.

(** actor.rs:396-418 LookupSession.  The HashSets are lists without duplicates. *)
Definition query_key : Type := sockaddr * bytes.
Definition key_eqb (a b : query_key) : bool := sa_eqb (fst a) (fst b) && bytes_eqb (snd a) (snd b).
Definition key_mem (k : query_key) (l : list query_key) : bool := existsb (key_eqb k) l.
Definition key_remove (k : query_key) (l : list query_key) : list query_key := filter (fun x => negb (key_eqb k x)) l.
Definition key_insert (k : query_key) (l : list query_key) : list query_key := if key_mem k l then l else l ++ [k].
Definition opt_eqb {A} (eqb : A -> A -> bool) (a b : option A) : bool :=
  match a, b with Some x, Some y => eqb x y | None, None => true | _, _ => false end.
Definition peer_eqb (a b : peer) : bool := sa_eqb (pr_addr a) (pr_addr b) && opt_eqb bytes_eqb (pr_id a) (pr_id b) && Bool.eqb (pr_crypto a) (pr_crypto b).
Definition peers_extend (set new : list peer) : list peer :=
  fold_left (fun s p => if existsb (peer_eqb p) s then s else s ++ [p]) new set.
Record session := mkS { ls_id : bytes; ls_v6 : bool; ls_peers : list peer; ls_nodes : node_space; ls_to_query : list sockaddr; ls_in_flight : list query_key }.
(** actor.rs:421-435 LookupSession::new *)
Definition session_new (hash my_id : bytes) (v6 : bool) (boot : list sockaddr) : session := mkS my_id v6 [] (space_new hash) boot [].
(** actor.rs:33 *)
Definition CLOSEST : nat := 8.
(** actor.rs:443-482 handle_message; the response as decoded, for the model's observers *)
Definition session_message (s : session) (sender : sockaddr) (txn : bytes) (msg : bytes) : option (session * res response_error get_peers_response) :=
  if key_mem (sender, txn) (ls_in_flight s) then
    let fl := key_remove (sender, txn) (ls_in_flight s) in
    let known := addr_get (sp_addr (ls_nodes s)) sender in
    let r := decode_response msg in
    match r with
    | Ok rsp =>
        let sp1 := fold_left space_add (gr_nodes rsp ++ gr_nodes6 rsp) (ls_nodes s) in
        let sp2 := match known with Some n => mark_responsive (nd_id n) sp1 | None => sp1 end in
        let (ns, sp3) := closest_unqueried CLOSEST sp2 in
        Some (mkS (ls_id s) (ls_v6 s) (peers_extend (ls_peers s) (gr_values rsp)) sp3 (ls_to_query s ++ map node_address ns) fl, r)
    | Err _ => Some (mkS (ls_id s) (ls_v6 s) (ls_peers s) (ls_nodes s) (ls_to_query s) fl, r)
    end
  else None.
Definition with_flight (s : session) (fl : list query_key) : session := mkS (ls_id s) (ls_v6 s) (ls_peers s) (ls_nodes s) (ls_to_query s) fl.
(** actor.rs:488-496 handle_timeout *)
Definition session_timeout (s : session) (k : query_key) : option session :=
  if key_mem k (ls_in_flight s) then Some (with_flight s (key_remove k (ls_in_flight s))) else None.
(** actor.rs:501-503 handle_send_failure *)
Definition session_send_failure (s : session) (k : query_key) : session := with_flight s (key_remove k (ls_in_flight s)).
(** actor.rs:508-537 get_outgoing: the session, the counter, and the queries *)
Definition query_for (s : session) (txn : bytes) : get_peers_query :=
  mkGPQ txn (Some gen_client) (ls_id s) (sp_hash (ls_nodes s)) (Some true) (if ls_v6 s then Some [N4; N6] else None).
Fixpoint outgoing_go (s : session) (addrs : list sockaddr) (t : N) (fl : list query_key) : list query_key * N * list (sockaddr * get_peers_query) :=
  match addrs with
  | [] => (fl, t, [])
  | a :: r =>
      let txn := txn_bytes t in
      let '(fl', t', qs) := outgoing_go s r (txn_next t) (key_insert (a, txn) fl) in
      (fl', t', (a, query_for s txn) :: qs)
  end.
Definition get_outgoing (s : session) (t : N) : session * N * list (sockaddr * get_peers_query) :=
  let '(fl, t', qs) := outgoing_go s (ls_to_query s) t (ls_in_flight s) in
  (mkS (ls_id s) (ls_v6 s) (ls_peers s) (ls_nodes s) [] fl, t', qs).
(** actor.rs:338-346 FoundPeers; the order of [fp_peers] is unspecified *)
Record found_peers := mkFound { fp_peers : list peer; fp_nodes : list sockaddr }.
(** actor.rs:541-560 get_result *)
Definition get_result (s : session) : option found_peers :=
  match ls_in_flight s with
  | [] => Some (mkFound (ls_peers s) (map node_address (closest_responsive CLOSEST (ls_nodes s))))
  | _ => None
  end.

(** actor.rs:44-82 DhtActor: [a_sessions] by session id; [a_senders]: the ids with a sender
    in lookup_senders; [a_timers]: the keys in txn_timeouts.  [a_boot]: bootstrap_addrs,
    resolved.  [a_running]: run() has not returned. *)
Record actor := mkA { a_id : bytes; a_v6 : bool; a_txn : N; a_sessions : list (nat * session); a_senders : list nat; a_next : nat;
  a_timers : list query_key; a_boot : list sockaddr; a_running : bool }.
(** actor.rs:94-117,125-132: the state at the start of the loop; without any bootstrap
    address run() returns *)
Definition actor_start (my_id : bytes) (v6 : bool) (boot : list sockaddr) : actor :=
  mkA my_id v6 0 [] [] 0 [] boot (match boot with [] => false | _ => true end).

(** What happens: a LookupPeers message is received (the sends fail or not, in order: [oks];
    those beyond the list succeed); a Shutdown message; a datagram: [pick] is the session
    that handles it, sessions being tried in any order until one does; a timer fires,
    likewise.  Errors from recv() change nothing and are left out. *)
Inductive aev :=
| ALookup (hash : bytes) (oks : list bool)
| AShutdown
| ADatagram (from : sockaddr) (msg : bytes) (pick : option nat) (oks : list bool)
| ATimeout (k : query_key) (pick : option nat).
(** What is observed of lookup number [sid]: accepted; a query sent, or not since that failed; a reply to
    one of its queries, as decoded; a query timed out; the result is returned; the caller
    gets DhtHandleError. *)
Inductive aobs :=
| OLookup (sid : nat) (hash : bytes)
| OQuery (sid : nat) (addr : sockaddr) (q : get_peers_query) (ok : bool)
| OReply (sid : nat) (addr : sockaddr) (txn : bytes) (r : res response_error get_peers_response)
| OTimeout (sid : nat) (addr : sockaddr) (txn : bytes)
| OAnswer (sid : nat) (r : found_peers)
| ODown (sid : nat).

Definition with_sessions (a : actor) (m : list (nat * session)) : actor :=
  mkA (a_id a) (a_v6 a) (a_txn a) m (a_senders a) (a_next a) (a_timers a) (a_boot a) (a_running a).
Definition ses_get (m : list (nat * session)) (sid : nat) : option session := option_map snd (find (fun e => Nat.eqb (fst e) sid) m).
Definition ses_set (m : list (nat * session)) (sid : nat) (s : session) : list (nat * session) :=
  map (fun e => if Nat.eqb (fst e) sid then (fst e, s) else e) m.
Definition ses_del (m : list (nat * session)) (sid : nat) : list (nat * session) := filter (fun e => negb (Nat.eqb (fst e) sid)) m.
(** actor.rs:202-225 send_query; UdpHandle::send (:782-791): IPv6 addresses need an IPv6
    socket; encoding a query does not fail (C35) *)
Definition send_query (a : actor) (sid : nat) (addr : sockaddr) (q : get_peers_query) (ok : bool) : actor * aobs :=
  let k := (addr, gq_txn q) in
  let ok := ok && (match sa_ip addr with V4 _ => true | V6 _ => a_v6 a end) && match gpq_encode q with Ret _ => true | Panic => false end in
  (if ok then mkA (a_id a) (a_v6 a) (a_txn a) (a_sessions a) (a_senders a) (a_next a) (key_insert k (a_timers a)) (a_boot a) (a_running a)
   else match ses_get (a_sessions a) sid with
        | Some s => with_sessions a (ses_set (a_sessions a) sid (session_send_failure s k))
        | None => a
        end, OQuery sid addr q ok).
Fixpoint send_all (a : actor) (sid : nat) (qs : list (sockaddr * get_peers_query)) (oks : list bool) : actor * list aobs :=
  match qs with
  | [] => (a, [])
  | (addr, q) :: r =>
      let (a1, o) := send_query a sid addr q (match oks with b :: _ => b | [] => true end) in
      let (a2, os) := send_all a1 sid r (tl oks) in (a2, o :: os)
  end.
(** actor.rs:265-274 postprocess_session *)
Definition postprocess (a : actor) (sid : nat) : actor * list aobs :=
  match ses_get (a_sessions a) sid with
  | Some s =>
      match get_result s with
      | Some r =>
          (mkA (a_id a) (a_v6 a) (a_txn a) (ses_del (a_sessions a) sid) (filter (fun x => negb (Nat.eqb x sid)) (a_senders a)) (a_next a) (a_timers a) (a_boot a) (a_running a),
           if existsb (Nat.eqb sid) (a_senders a) then [OAnswer sid r] else [])
      | None => (a, [])
      end
  | None => (a, [])
  end.
(** get_outgoing of the session, the sends, and postprocess_session *)
Definition send_outgoing (a : actor) (sid : nat) (s : session) (oks : list bool) : actor * list aobs :=
  let '(s1, t, qs) := get_outgoing s (a_txn a) in
  let a1 := mkA (a_id a) (a_v6 a) t (ses_set (a_sessions a) sid s1) (a_senders a) (a_next a) (a_timers a) (a_boot a) (a_running a) in
  let (a2, o2) := send_all a1 sid qs oks in
  let (a3, o3) := postprocess a2 sid in (a3, o2 ++ o3).
(** actor.rs:133-171 one turn of the loop; None: not possible *)
Definition astep (a : actor) (e : aev) : option (actor * list aobs) :=
  if a_running a then
    match e with
    | ALookup hash oks =>  (* :137-150 *)
        let sid := a_next a in
        let s := session_new hash (a_id a) (a_v6 a) (a_boot a) in
        let a1 := mkA (a_id a) (a_v6 a) (a_txn a) (a_sessions a ++ [(sid, s)]) (a_senders a ++ [sid]) (S sid) (a_timers a) (a_boot a) (a_running a) in
        let (a2, o) := send_outgoing a1 sid s oks in Some (a2, OLookup sid hash :: o)
    | AShutdown =>  (* :151-154; all senders are dropped with the actor *)
        Some (mkA (a_id a) (a_v6 a) (a_txn a) [] [] (a_next a) [] (a_boot a) false, map ODown (a_senders a))
    | ADatagram from msg pick oks =>  (* :157-161,231-260 *)
        match prescan msg with
        | None | Some (_, TQuery) => match pick with None => Some (a, []) | Some _ => None end
        | Some (txn, _) =>
            match pick with
            | None => if existsb (fun e => key_mem (from, txn) (ls_in_flight (snd e))) (a_sessions a) then None else Some (a, [])
            | Some sid =>
                match ses_get (a_sessions a) sid with
                | Some s =>
                    match session_message s from txn msg with
                    | Some (s1, r) => let (a2, o) := send_outgoing (with_sessions a (ses_set (a_sessions a) sid s1)) sid s1 oks in Some (a2, OReply sid from txn r :: o)
                    | None => None
                    end
                | None => None
                end
            end
        end
    | ATimeout k pick =>  (* :163-170 *)
        if key_mem k (a_timers a) then
          let a1 := mkA (a_id a) (a_v6 a) (a_txn a) (a_sessions a) (a_senders a) (a_next a) (key_remove k (a_timers a)) (a_boot a) (a_running a) in
          match pick with
          | None => if existsb (fun e => key_mem k (ls_in_flight (snd e))) (a_sessions a) then None else Some (a1, [])
          | Some sid =>
              match ses_get (a_sessions a) sid with
              | Some s =>
                  match session_timeout s k with
                  | Some s1 => let (a2, o) := postprocess (with_sessions a1 (ses_set (a_sessions a) sid s1)) sid in Some (a2, OTimeout sid (fst k) (snd k) :: o)
                  | None => None
                  end
              | None => None
              end
          end
        else None
    end
  else None.
Fixpoint arun (a : actor) (l : list aev) : option (actor * list aobs) :=
  match l with
  | [] => Some (a, [])
  | e :: l' =>
      match astep a e with
      | Some (a1, o1) => match arun a1 l' with Some (a2, o2) => Some (a2, o1 ++ o2) | None => None end
      | None => None
      end
  end.
