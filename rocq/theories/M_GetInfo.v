(** Fetching the metadata from one peer, from the TCP connection on: src/peer/mod.rs:189-299
    InfoGetter::run and connect, composed of M_Mse (encryption), M_Connect, M_Session. *)
From Verif Require Import Base M_Net M_Torrent M_Peer M_Frame M_Rc4 M_Mse M_Session M_Connect.

(** What the reads of a connection give, without their times; after an end of file or a
    failure nothing more is read. *)
Fixpoint pieces (l : script) : list bytes * ending :=
  match l with
  | [] => ([], Silent)
  | (_, REof) :: _ => ([], Closed)
  | (_, RError) :: _ => ([], Broken)
  | (_, RData b) :: l' => let (bs, e) := pieces l' in (b :: bs, e)
  end.
(** src/peer/msepe.rs:470-497: reads through the decrypting stream.  (How reads are cut does
    not matter to what is on top: C29, C45, C78.) *)
Fixpoint decrypted (ks : keystream) (l : script) : script :=
  match l with
  | [] => []
  | (t, RData b) :: l' => let (p, ks') := ks_decode ks b in (t, RData p) :: decrypted ks' l'
  | (t, r) :: l' => (t, r) :: decrypted ks l'
  end.

(** An established connection and the reads still to come *)
Definition link := (conn * script)%type.
(** src/peer/mod.rs:237-299 connect once the stream is set up: what is done as soon as the
    bytes allow it.  [now]: the time, [got]: the data read so far, [later]: reads to come.
    Result: when (in absolute time) and how it ends; None: never; Panic: it panics. *)
Section Exchange.
Context (ih pid : bytes) (peer_ip : ip).
Fixpoint exchange (now : N) (got : list bytes) (later : script) : outcome (timed (res peer_error link)) :=
  match snd (connect ih pid peer_ip got Silent) with
  | SPanicked => Panic
  | SDone r => Ret (Some (now, let? c := r in Ok (c, later)))
  | SWaiting =>
      let ends t e := match snd (connect ih pid peer_ip got e) with
                      | SPanicked => Panic
                      | SDone (Err x) => Ret (Some (t, Err x))
                      | _ => Ret None
                      end in
      match later with
      | [] => Ret None
      | (t, RData b) :: l => exchange (N.max now t) (got ++ [b]) l
      | (t, REof) :: l => ends (N.max now t) Closed
      | (t, RError) :: l => ends (N.max now t) Broken
      end
  end.

(** One connection attempt: [d_tcp]: when (relative to its start) and how the TCP connection
    is made, [d_reads]: the reads; [d_pada], [d_padc], [d_key]: the random numbers drawn
    for the encryption handshake. *)
Record dial := mkDial { d_tcp : timed (res peer_error unit); d_reads : script; d_pada : bytes; d_padc : N; d_key : bytes }.
(** A TCP connection not made within the time limit does not matter. *)
Definition within (limit : N) (d : dial) : dial :=
  mkDial (match d_tcp d with Some (t, _) => if t <=? limit then d_tcp d else None | None => None end) (d_reads d) (d_pada d) (d_padc d) (d_key d).
(** src/peer/mod.rs:214-299 connect, begun at [now]; times in the result are relative to [now].
    [secs]: dh_exchange_timeout. *)
Definition connect_plain (now : N) (d : dial) : outcome (timed (res peer_error link)) :=
  match d_tcp d with
  | None => Ret None
  | Some (t0, Err e) => Ret (Some (t0, Err e))
  | Some (t0, Ok _) =>
      match exchange (now + t0) [] (d_reads d) with
      | Panic => Panic
      | Ret None => Ret None
      | Ret (Some (t, r)) => Ret (Some (t - now, r))
      end
  end.
Definition connect_crypto (secs now : N) (d : dial) : outcome (timed (res peer_error link)) :=
  match connect_encrypted now (d_tcp d) (fun t => snd (handshake ih secs (d_pada d) (d_padc d) (d_key d) t (d_reads d)))
          (fun t ks rest later => Some (t - now, Ok (t, ks, rest, later))) with
  | Panic => Panic
  | Ret None => Ret None
  | Ret (Some (t, Err e)) => Ret (Some (t, Err e))
  | Ret (Some (_, Ok (t, ks, rest, later))) =>
      match exchange t [] (decrypted ks (match rest with [] => later | _ => (t, RData rest) :: later end)) with
      | Panic => Panic
      | Ret None => Ret None
      | Ret (Some (t, r)) => Ret (Some (t - now, r))
      end
  end.

(** src/peer/mod.rs:189-212 run, begun at [now].  [enc], [plain]: the attempts made with and
    without encryption (the latter begins when the former has failed).  Result: the
    connections made ([true]: encrypted) and the outcome of the whole. *)
Definition get_info (override : option crypto_mode) (p : crypto_pref) (requires : bool) (limit secs now : N)
    (enc plain : dial) : outcome (list bool * stage torrent_info) :=
  let finish (r : list bool * N * res peer_error link) :=
    match r with
    | (l, _, Err e) => Ret (l, SDone (Err e))
    | (l, _, Ok (c, later)) =>
        let (bs, e) := pieces later in
        Ret (l, snd (fetch_from ih (mkConn (cn_local c) (cn_remote c) (cn_ext c) (cn_size c) (cn_st c) (cn_buf c) (cn_reads c ++ bs)) e))
    end in
  match get_crypto_mode override p requires with
  | Err e => Ret ([], SDone (Err e))
  | Ok Plain => match connect_plain now (within limit plain) with Panic => Panic | Ret r => finish (run_connect override p requires limit None r) end
  | Ok Encrypt => match connect_crypto secs now (within limit enc) with Panic => Panic | Ret r => finish (run_connect override p requires limit r None) end
  | Ok Prefer =>
      match connect_crypto secs now (within limit enc) with
      | Panic => Panic
      | Ret r =>
          (* the time at which the attempt without encryption begins *)
          let start := match r with Some (t, Err ECryptoHandshake) => now + t | _ => now end in
          match timeout limit r with
          | (_, Some (Err ECryptoHandshake)) =>
              match connect_plain start (within limit plain) with Panic => Panic | Ret r' => finish (run_connect override p requires limit r r') end
          | _ => finish (run_connect override p requires limit r None)
          end
      end
  end.
End Exchange.
