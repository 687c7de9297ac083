(** Writing to a peer's socket may fail or block: the functions of M_Session, M_Mse and M_GetInfo
    once more, with the outcomes of the writes.  Simplification: a write that succeeds takes no
    time, and of one that does not, no part counts as written. *)
From Verif Require Import Base M_Net M_Torrent M_Extensions M_Messages M_Frame M_Peer M_Session M_Rc4 M_Mse M_Connect M_GetInfo.

(** How the successive writes of a connection end (write_all_buf and flush, or Framed::send, each
    count as one): success, an error, or never; those beyond the list succeed. *)
Inductive wres := WOk | WFail | WStall.
Definition writes := list wres.
Definition write_next (ws : writes) : wres * writes := match ws with [] => (WOk, []) | w :: ws' => (w, ws') end.
(** src/peer/mod.rs:245-248 and 332-338: write [b], then go on; an error ends with PeerError::Send *)
Definition write_then {A} (ws : writes) (b : bytes) (k : writes -> list bytes * stage A) : list bytes * stage A :=
  match write_next ws with
  | (WOk, ws') => let (out, s) := k ws' in (b :: out, s)
  | (WFail, _) => ([], SDone (Err ESend))
  | (WStall, _) => ([], SWaiting)
  end.
(** src/peer/mod.rs:332-338 MessageChannel::send *)
Definition send_then {A} (ws : writes) (remote : registry) (m : message) (k : writes -> list bytes * stage A) : list bytes * stage A :=
  match channel_send remote m with
  | Panic => ([], SPanicked)
  | Ret (Err x) => ([], SDone (Err x))
  | Ret (Ok b) => write_then ws b k
  end.

(** src/peer/mod.rs:237-299 InfoGetter::connect after the connection is established (as
    M_Session.connect) *)
Definition connect_w (ih pid : bytes) (peer_ip : ip) (ws : writes) (reads : list bytes) (e : ending)
  : list bytes * stage (conn * writes) :=
  let hello := handshake_bytes (mkHS (ext_from SUPPORTED_EXTENSIONS) ih pid) in
  let fail (x : peer_error) : list bytes * stage (conn * writes) := ([], SDone (Err x)) in
  write_then ws hello (fun ws1 =>
  match read_exact 68 [] reads e with
  | RPending => ([], SWaiting)
  | RFail => fail ERecv
  | RDone buf reads1 =>
      match handshake_decode buf with
      | Err x => fail (EHandshake x)
      | Ok h =>
          if negb (bytes_eqb (hs_hash h) ih) then fail (InfoHashMismatch (hs_hash h))
          else
            let exts := ext_and (ext_from SUPPORTED_EXTENSIONS) (hs_ext h) in
            if negb (ext_has exts Bep10) then fail NoBep10
            else
              match local_registry with
              | Panic => ([], SPanicked)
              | Ret local =>
                  let shake := ExtHandshake (mkEH None (Some (reg_to_m local)) (Some CLIENT) None (Some peer_ip)) in
                  send_then ws1 reg_new shake (fun ws2 =>
                  match framed_next Head [] reads1 e with
                  | (Frame f, st, buf', reads2) =>
                      match recv_event local f with
                      | Err x => fail x
                      | Ok (ExtHandshake their) =>
                          match eh_registry their with
                          | Err x => fail (ERegistry x)
                          | Ok remote =>
                              if negb (reg_contains remote Metadata) then fail NoMetadataExt
                              else
                                let c := mkConn local remote exts (eh_size their) st buf' reads2 in
                                if ext_has exts Fast then
                                  send_then ws2 remote (Core HaveNone) (fun ws3 => ([], SDone (Ok (c, ws3))))
                                else ([], SDone (Ok (c, ws2)))
                          end
                      | Ok _ => fail NoExtendedHandshake
                      end
                  | (r, _, _, _) => ([], match end_event r with Some x => SDone (Err x) | None => SWaiting end)
                  end)
              end
      end
  end).

(** Sending several messages *)
Fixpoint sends_then {A} (ws : writes) (remote : registry) (ms : list message) (k : writes -> list bytes * stage A) : list bytes * stage A :=
  match ms with
  | [] => k ws
  | m :: ms' => send_then ws remote m (fun ws' => sends_then ws' remote ms' k)
  end.
(** src/peer/mod.rs:360-427 get_metadata_info (as M_Session.fetch_loop, fetch_from) *)
Fixpoint fetch_loop_w (c : conn) (ws : writes) (st : fetch) (fs : list bytes) (r : frame_result)
  : list bytes * stage torrent_info :=
  match st with
  | Crashed => ([], SPanicked)
  | Finished x => ([], SDone x)
  | Waiting _ _ _ =>
      match fs with
      | f :: fs' =>
          let (st', ms) := fetch_step st (recv_event (cn_local c) f) in
          sends_then ws (cn_remote c) ms (fun ws' => fetch_loop_w c ws' st' fs' r)
      | [] => ([], match end_event r with Some x => SDone (Err x) | None => SWaiting end)
      end
  end.
Definition fetch_from_w (ih : bytes) (c : conn) (ws : writes) (e : ending) : list bytes * stage torrent_info :=
  let (st, ms) := fetch_start ih (cn_size c) in
  sends_then ws (cn_remote c) ms (fun ws' =>
    let (fs, r) := framed_all (S (length (cn_buf c ++ concat (cn_reads c)))) (cn_st c) (cn_buf c) (cn_reads c) e in
    fetch_loop_w c ws' st fs r).
(** src/peer/mod.rs:189-212 one whole exchange (as M_Session.session) *)
Definition session_w (ih pid : bytes) (peer_ip : ip) (ws : writes) (reads : list bytes) (e : ending)
  : list bytes * stage torrent_info :=
  match connect_w ih pid peer_ip ws reads e with
  | (out, SPanicked) => (out, SPanicked)
  | (out, SWaiting) => (out, SWaiting)
  | (out, SDone (Err x)) => (out, SDone (Err x))
  | (out, SDone (Ok (c, ws'))) => let (out', s) := fetch_from_w ih c ws' e in (out ++ out', s)
  end.

(** src/peer/msepe.rs:417-467 EncryptedStream::handshake (as M_Mse.hs_loop): the writes are not
    under the key exchange's time limit. *)
Fixpoint hs_loop_w (fuel : nat) (ws : writes) (s : shaker) (deadline : option N) (now : N) (reads : script)
  : list (N * bytes) * hs_out * writes :=
  match fuel with
  | O => ([], HWait, ws)
  | S fuel' =>
      match into_keystream s with
      | Some (ks, rest) => ([], HDone now ks rest reads, ws)
      | None =>
          let go (ws1 : writes) :=
            match (match h_timeout s with
                   | Some secs => match instant_add now secs with Ret d => Ret (Some d) | Panic => Panic end
                   | None => Ret deadline
                   end) with
            | Panic => ([], HPanic, ws1)
            | Ret deadline' =>
                let s' := mkShaker (h_state s) None (h_padc_len s) (h_skey s) None (h_input s) (h_provide s) in
                let read (t : N) (r : read_result) (reads' : script) :=
                  match r with
                  | RData b =>
                      match handle_input s' b with
                      | Err e => ([], HFail t e, ws1)
                      | Ok s2 => hs_loop_w fuel' ws1 s2 deadline' t reads'
                      end
                  | REof => ([], HFail t HDisconnect, ws1)
                  | RError => ([], HFail t HRecv, ws1)
                  end in
                let expire (d : N) :=
                  match handle_timeout s' with
                  | Err e => ([], HFail d e, ws1)
                  | Ok s2 => hs_loop_w fuel' ws1 s2 None d reads
                  end in
                match reads, deadline' with
                | (t, r) :: reads', Some d => if N.max now t <=? d then read (N.max now t) r reads' else expire d
                | (t, r) :: reads', None => read (N.max now t) r reads'
                | [], Some d => expire d
                | [], None => ([], HWait, ws1)
                end
            end in
          match h_output s with
          | None => go ws
          | Some b =>
              match write_next ws with
              | (WOk, ws1) => let '(out, r, ws2) := go ws1 in ((now, b) :: out, r, ws2)
              | (WFail, ws1) => ([], HFail now HSend, ws1)
              | (WStall, ws1) => ([], HWait, ws1)
              end
          end
      end
  end.
Definition handshake_w (skey : bytes) (secs : N) (pada : bytes) (padc_len : N) (key : bytes) (ws : writes) (now : N) (reads : script)
  : list (N * bytes) * hs_out * writes :=
  hs_loop_w (3 + length reads) ws (build skey secs pada padc_len key) None now reads.

(** src/peer/mod.rs:189-299 (as M_GetInfo) *)
Section Exchange.
Context (ih pid : bytes) (peer_ip : ip).
Definition link_w := (conn * writes * script)%type.
Fixpoint exchange_w (ws : writes) (now : N) (got : list bytes) (later : script) : outcome (timed (res peer_error link_w)) :=
  match snd (connect_w ih pid peer_ip ws got Silent) with
  | SPanicked => Panic
  | SDone r => Ret (Some (now, let? c := r in Ok (c, later)))
  | SWaiting =>
      let ends t e := match snd (connect_w ih pid peer_ip ws got e) with
                      | SPanicked => Panic
                      | SDone (Err x) => Ret (Some (t, Err x))
                      | _ => Ret None
                      end in
      match later with
      | [] => Ret None
      | (t, RData b) :: l => exchange_w ws (N.max now t) (got ++ [b]) l
      | (t, REof) :: l => ends (N.max now t) Closed
      | (t, RError) :: l => ends (N.max now t) Broken
      end
  end.
(** An attempt and the outcomes of its writes *)
Definition dial_w := (dial * writes)%type.
Definition within_w (limit : N) (d : dial_w) : dial_w := (within limit (fst d), snd d).
Definition connect_plain_w (now : N) (d : dial_w) : outcome (timed (res peer_error link_w)) :=
  match d_tcp (fst d) with
  | None => Ret None
  | Some (t0, Err e) => Ret (Some (t0, Err e))
  | Some (t0, Ok _) =>
      match exchange_w (snd d) (now + t0) [] (d_reads (fst d)) with
      | Panic => Panic
      | Ret None => Ret None
      | Ret (Some (t, r)) => Ret (Some (t - now, r))
      end
  end.
Definition connect_crypto_w (secs now : N) (d : dial_w) : outcome (timed (res peer_error link_w)) :=
  let shake t := handshake_w ih secs (d_pada (fst d)) (d_padc (fst d)) (d_key (fst d)) (snd d) t (d_reads (fst d)) in
  match d_tcp (fst d) with
  | None => Ret None
  | Some (t0, Err e) => Ret (Some (t0, Err e))
  | Some (t0, Ok _) =>
      match shake (now + t0) with
      | (_, HPanic, _) => Panic
      | (_, HWait, _) => Ret None
      | (_, HFail t e, _) => Ret (Some (t - now, Err ECryptoHandshake))
      | (_, HDone t ks rest later, ws) =>
          match exchange_w ws t [] (decrypted ks (match rest with [] => later | _ => (t, RData rest) :: later end)) with
          | Panic => Panic
          | Ret None => Ret None
          | Ret (Some (t, r)) => Ret (Some (t - now, r))
          end
      end
  end.
Definition get_info_w (override : option crypto_mode) (p : crypto_pref) (requires : bool) (limit secs now : N)
    (enc plain : dial_w) : outcome (list bool * stage torrent_info) :=
  let finish (r : list bool * N * res peer_error link_w) :=
    match r with
    | (l, _, Err e) => Ret (l, SDone (Err e))
    | (l, _, Ok (c, ws, later)) =>
        let (bs, e) := pieces later in
        Ret (l, snd (fetch_from_w ih (mkConn (cn_local c) (cn_remote c) (cn_ext c) (cn_size c) (cn_st c) (cn_buf c) (cn_reads c ++ bs)) ws e))
    end in
  match get_crypto_mode override p requires with
  | Err e => Ret ([], SDone (Err e))
  | Ok Plain => match connect_plain_w now (within_w limit plain) with Panic => Panic | Ret r => finish (run_connect override p requires limit None r) end
  | Ok Encrypt => match connect_crypto_w secs now (within_w limit enc) with Panic => Panic | Ret r => finish (run_connect override p requires limit r None) end
  | Ok Prefer =>
      match connect_crypto_w secs now (within_w limit enc) with
      | Panic => Panic
      | Ret r =>
          let start := match r with Some (t, Err ECryptoHandshake) => now + t | _ => now end in
          match timeout limit r with
          | (_, Some (Err ECryptoHandshake)) =>
              match connect_plain_w start (within_w limit plain) with Panic => Panic | Ret r' => finish (run_connect override p requires limit r r') end
          | _ => finish (run_connect override p requires limit r None)
          end
      end
  end.
End Exchange.
