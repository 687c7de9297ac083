(** Model of src/peer/mod.rs: choosing whether to encrypt, connecting, and the
    whole exchange with a peer over a byte stream. *)
From Verif Require Import Base M_Net M_Torrent M_Extensions M_Messages M_Frame M_Peer.

(** src/peer/mod.rs:31-36 CryptoMode; src/config.rs:268-276 CryptoPreference *)
Inductive crypto_mode := Encrypt | Prefer | Plain.
Inductive crypto_pref := CPAlways | CPPrefer | CPIfRequired | CPNever.

(** src/config.rs:287-297 CryptoPreference::get_crypto_mode (via src/app.rs:34-36) *)
Definition pref_mode (p : crypto_pref) (requires : bool) : option crypto_mode :=
  match p, requires with
  | CPAlways, _ => Some Encrypt
  | CPPrefer, true => Some Encrypt
  | CPPrefer, false => Some Prefer
  | CPIfRequired, true => Some Encrypt
  | CPIfRequired, false => Some Plain
  | CPNever, true => None
  | CPNever, false => Some Plain
  end.

(** src/peer/mod.rs:175-187 InfoGetter::get_crypto_mode *)
Definition get_crypto_mode (override : option crypto_mode) (p : crypto_pref) (requires : bool)
  : res peer_error crypto_mode :=
  match override with
  | Some cs =>
      match cs, requires with
      | Prefer, true => Ok Encrypt
      | Plain, true => Err CantRequireCrypto
      | cs, _ => Ok cs
      end
  | None => ok_or (pref_mode p requires) CantRequireCrypto
  end.

(** tokio::time::timeout: the future is polled before the deadline is checked, so
    a future finishing at the deadline still counts.  [None] as a finishing time:
    never.  Result: the time used and the future's result, if any. *)
Definition timed A := option (N * A).
Definition timeout {A} (limit : N) (f : timed A) : N * option A :=
  match f with
  | Some (t, a) => if t <=? limit then (t, Some a) else (limit, None)
  | None => (limit, None)
  end.

(** src/peer/mod.rs:189-207 InfoGetter::run up to an established connection.
    [enc]/[plain]: when and how [connect(true)]/[connect(false)] finish.  Returns the
    connections attempted ([true]: encrypted), the time used, and the result. *)
Definition run_connect {C} (override : option crypto_mode) (p : crypto_pref) (requires : bool) (limit : N)
    (enc plain : timed (res peer_error C)) : list bool * N * res peer_error C :=
  let fin (r : option (res peer_error C)) := match r with Some r => r | None => Err ConnectTimeout end in
  match get_crypto_mode override p requires with
  | Err e => ([], 0, Err e)
  | Ok Encrypt => let (t, r) := timeout limit enc in ([true], t, fin r)
  | Ok Plain => let (t, r) := timeout limit plain in ([false], t, fin r)
  | Ok Prefer =>
      match timeout limit enc with
      | (t, Some (Err ECryptoHandshake)) =>
          let (t', r) := timeout limit plain in ([true; false], t + t', fin r)
      | (t, r) => ([true], t, fin r)
      end
  end.

(** AsyncReadExt::read_exact: bytes beyond the requested number stay unread. *)
Inductive read_out := RDone (buf : bytes) (reads : list bytes) | RFail | RPending.
Fixpoint read_exact (n : nat) (acc : bytes) (reads : list bytes) (e : ending) : read_out :=
  match n with
  | O => RDone acc reads
  | _ =>
      match reads with
      | [] => match e with Silent => RPending | _ => RFail end
      | c :: reads' =>
          if Nat.leb (length c) n then read_exact (n - length c) (acc ++ c) reads' e
          else RDone (acc ++ firstn n c) (skipn n c :: reads')
      end
  end.

(** src/peer/mod.rs:332-338 MessageChannel::send; the bytes written, or a panic
    (expect).  Simplification, here and below: writing to the socket succeeds (a
    failure ends the exchange with PeerError::Send). *)
Definition channel_send (remote : registry) (m : message) : outcome (res peer_error bytes) :=
  match msg_encode m remote with
  | Panic => Panic
  | Ret (Err _) => Panic
  | Ret (Ok b) => Ret (ok_or (frame_encode b) ESend)
  end.

(** Sending several messages: bytes written so far and whether to go on. *)
Fixpoint send_all (remote : registry) (ms : list message) : list bytes * outcome (res peer_error unit) :=
  match ms with
  | [] => ([], Ret (Ok tt))
  | m :: ms' =>
      match channel_send remote m with
      | Panic => ([], Panic)
      | Ret (Err e) => ([], Ret (Err e))
      | Ret (Ok b) => let (out, r) := send_all remote ms' in (b :: out, r)
      end
  end.

(** src/peer/mod.rs:340-348 MessageChannel::recv, on what the framed stream gives *)
Definition recv_event (local : registry) (f : bytes) : event :=
  match msg_decode f local with Ok m => Ok m | Err e => Err (EMessage e) end.
(** What [recv] reports once the stream yields no more frames; [None]: waits. *)
Definition end_event (r : frame_result) : option peer_error :=
  match r with
  | FrameEnd => Some Disconnect
  | FrameError => Some ERecv
  | FramePending | Frame _ => None
  end.

(** src/peer/mod.rs:261-267 *)
Definition local_registry : outcome registry :=
  match reg_register reg_new Metadata 42 with Ok r => Ret r | Err _ => Panic end.

(** src/peer/mod.rs:351-357 PeerConnection *)
Record conn := mkConn {
  cn_local : registry; cn_remote : registry; cn_ext : N; cn_size : option N;
  cn_st : dec_state; cn_buf : bytes; cn_reads : list bytes }.
(** How a stage of the exchange ends *)
Inductive stage A := SDone (r : res peer_error A) | SWaiting | SPanicked.
Arguments SDone {A} r.
Arguments SWaiting {A}.
Arguments SPanicked {A}.

(** src/peer/mod.rs:237-299 InfoGetter::connect after the TCP connection (and
    possibly the encryption handshake) is established; [reads]/[e]: what the peer
    sends.  Returns the pieces written and the outcome. *)
Definition connect (ih pid : bytes) (peer_ip : ip) (reads : list bytes) (e : ending)
  : list bytes * stage conn :=
  let hello := handshake_bytes (mkHS (ext_from SUPPORTED_EXTENSIONS) ih pid) in
  match read_exact 68 [] reads e with
  | RPending => ([hello], SWaiting)
  | RFail => ([hello], SDone (Err ERecv))
  | RDone buf reads1 =>
      match handshake_decode buf with
      | Err x => ([hello], SDone (Err (EHandshake x)))
      | Ok h =>
          if negb (bytes_eqb (hs_hash h) ih) then ([hello], SDone (Err (InfoHashMismatch (hs_hash h))))
          else
            let exts := ext_and (ext_from SUPPORTED_EXTENSIONS) (hs_ext h) in
            if negb (ext_has exts Bep10) then ([hello], SDone (Err NoBep10))
            else
              match local_registry with
              | Panic => ([hello], SPanicked)
              | Ret local =>
                  let shake := ExtHandshake (mkEH None (Some (reg_to_m local)) (Some CLIENT) None (Some peer_ip)) in
                  match channel_send reg_new shake with
                  | Panic => ([hello], SPanicked)
                  | Ret (Err x) => ([hello], SDone (Err x))
                  | Ret (Ok b1) =>
                      let out := [hello; b1] in
                      match framed_next Head [] reads1 e with
                      | (Frame f, st, buf', reads2) =>
                          match recv_event local f with
                          | Err x => (out, SDone (Err x))
                          | Ok (ExtHandshake their) =>
                              match eh_registry their with
                              | Err x => (out, SDone (Err (ERegistry x)))
                              | Ok remote =>
                                  if negb (reg_contains remote Metadata) then (out, SDone (Err NoMetadataExt))
                                  else
                                    let c := mkConn local remote exts (eh_size their) st buf' reads2 in
                                    if ext_has exts Fast then
                                      match channel_send remote (Core HaveNone) with
                                      | Panic => (out, SPanicked)
                                      | Ret (Err x) => (out, SDone (Err x))
                                      | Ret (Ok b2) => (out ++ [b2], SDone (Ok c))
                                      end
                                    else (out, SDone (Ok c))
                              end
                          | Ok _ => (out, SDone (Err NoExtendedHandshake))
                          end
                      | (r, _, _, _) =>
                          (out, match end_event r with Some x => SDone (Err x) | None => SWaiting end)
                      end
                  end
              end
      end
  end.

(** src/peer/mod.rs:360-427 get_metadata_info over the message channel: receive,
    react (M_Peer.fetch_step), send.  Structural on the frames still to come (the
    frames are those successive calls of [next] return; reading them one at a time
    or all at once makes no difference, decoding being pure). *)
Fixpoint fetch_loop (c : conn) (st : fetch) (fs : list bytes) (r : frame_result)
  : list bytes * stage torrent_info :=
  match st with
  | Crashed => ([], SPanicked)
  | Finished x => ([], SDone x)
  | Waiting _ _ _ =>
      let go (ev : event) (k : fetch -> list bytes * stage torrent_info) :=
        let (st', ms) := fetch_step st ev in
        match send_all (cn_remote c) ms with
        | (out, Panic) => (out, SPanicked)
        | (out, Ret (Err x)) => (out, SDone (Err x))
        | (out, Ret (Ok _)) => let (out', s) := k st' in (out ++ out', s)
        end in
      match fs with
      | f :: fs' => go (recv_event (cn_local c) f) (fun st' => fetch_loop c st' fs' r)
      | [] =>
          match end_event r with
          | Some x => ([], SDone (Err x))
          | None => ([], SWaiting)
          end
      end
  end.
Definition fetch_from (ih : bytes) (c : conn) (e : ending) : list bytes * stage torrent_info :=
  let (st, ms) := fetch_start ih (cn_size c) in
  match send_all (cn_remote c) ms with
  | (out, Panic) => (out, SPanicked)
  | (out, Ret (Err x)) => (out, SDone (Err x))
  | (out, Ret (Ok _)) =>
      let (fs, r) := framed_all (S (length (cn_buf c ++ concat (cn_reads c)))) (cn_st c) (cn_buf c) (cn_reads c) e in
      let (out', s) := fetch_loop c st fs r in
      (out ++ out', s)
  end.

(** src/peer/mod.rs:189-212 one whole exchange over an established connection *)
Definition session (ih pid : bytes) (peer_ip : ip) (reads : list bytes) (e : ending)
  : list bytes * stage torrent_info :=
  match connect ih pid peer_ip reads e with
  | (out, SPanicked) => (out, SPanicked)
  | (out, SWaiting) => (out, SWaiting)
  | (out, SDone (Err x)) => (out, SDone (Err x))
  | (out, SDone (Ok c)) => let (out', s) := fetch_from ih c e in (out ++ out', s)
  end.
