(** Model of the log of an exchange with a peer: src/peer/mod.rs:237-299, 332-348 and 360-427, over M_Session,
    without encryption (M_Session's simplifications hold here too). *)
From Verif Require Import Base M_Net M_Torrent M_Extensions M_Messages M_Frame M_Peer M_Session M_Types M_Log.

Section Log.
(** The peer, and the torrent as it is shown *)
Context (p : sockaddr) (su : subject).
(** mod.rs:333, 346, 405-409: of sending the messages one after the other (a message that cannot be sent is
    the last); of receiving *)
Fixpoint send_recs (remote : registry) (ms : list message) : list record :=
  match ms with
  | [] => []
  | m :: ms' =>
      match m with Meta (MReject i) => [LRejecting p i] | _ => [] end ++
      LSending p m :: match channel_send remote m with Ret (Ok _) => send_recs remote ms' | _ => [] end
  end.
Definition recv_rec (ev : event) : list record := match ev with Ok m => [LReceived p m] | Err _ => [] end.
(** mod.rs:238-299, as M_Session.connect; the record of :237, that the handshake is sent, is left out *)
Definition connect_log (ih pid : bytes) (peer_ip : ip) (reads : list bytes) (e : ending) : list record :=
  match read_exact 68 [] reads e with
  | RDone buf reads1 =>
      match handshake_decode buf with
      | Err _ => []
      | Ok h =>
          LShake p h ::  (* :250 *)
          if negb (bytes_eqb (hs_hash h) ih) then []
          else
            let exts := ext_and (ext_from SUPPORTED_EXTENSIONS) (hs_ext h) in
            if negb (ext_has exts Bep10) then []
            else
              match local_registry with
              | Panic => []
              | Ret local =>
                  let shake := ExtHandshake (mkEH None (Some (reg_to_m local)) (Some CLIENT) None (Some peer_ip)) in
                  LSending p shake ::
                  match channel_send reg_new shake with
                  | Ret (Ok _) =>
                      match framed_next Head [] reads1 e with
                      | (Frame f, _, _, _) =>
                          recv_rec (recv_event local f) ++
                          match recv_event local f with
                          | Ok (ExtHandshake their) =>
                              match eh_registry their with
                              | Err _ => []
                              | Ok remote =>
                                  if negb (reg_contains remote Metadata) then []
                                  else if ext_has exts Fast then [LSending p (Core HaveNone)] else []
                              end
                          | _ => []
                          end
                      | _ => []
                      end
                  | _ => []
                  end
              end
      end
  | _ => []
  end.
(** mod.rs:360-427, as M_Session.fetch_loop and fetch_from *)
Fixpoint loop_log (c : conn) (st : fetch) (fs : list bytes) : list record :=
  match st with
  | Crashed | Finished (Err _) => []
  | Finished (Ok _) => [LMetadata su p]  (* :421-425 *)
  | Waiting _ _ _ =>
      match fs with
      | f :: fs' =>
          let ev := recv_event (cn_local c) f in
          let (st', ms) := fetch_step st ev in
          recv_rec ev ++ send_recs (cn_remote c) ms ++
          match snd (send_all (cn_remote c) ms) with Ret (Ok _) => loop_log c st' fs' | _ => [] end
      | [] => []
      end
  end.
Definition fetch_log (ih : bytes) (c : conn) (e : ending) : list record :=
  let (st, ms) := fetch_start ih (cn_size c) in
  send_recs (cn_remote c) ms ++
  match snd (send_all (cn_remote c) ms) with
  | Ret (Ok _) => loop_log c st (fst (framed_all (S (length (cn_buf c ++ concat (cn_reads c)))) (cn_st c) (cn_buf c) (cn_reads c) e))
  | _ => []
  end.
(** mod.rs:189-212, as M_Session.session *)
Definition session_log (ih pid : bytes) (peer_ip : ip) (reads : list bytes) (e : ending) : list record :=
  connect_log ih pid peer_ip reads e ++
  match snd (connect ih pid peer_ip reads e) with SDone (Ok c) => fetch_log ih c e | _ => [] end.
End Log.

(** The records before the connection is set up: that the peer is asked (mod.rs:190), that a connection to it is
    begun (:215), and others.  Left out: "Connected to" (:219), "Encrypting connection to" (:221). *)
Inductive dial_note := DAsking (s : subject) (p : sockaddr) | DConnecting (p : sockaddr) | DNote (x : record).
Definition dial_text (printable : N -> bool) (x : dial_note) : bytes :=
  match x with
  | DAsking s p => bs "Requesting info for " ++ subj printable s ++ bs " from " ++ show_peer p
  | DConnecting p => bs "Connecting to " ++ show_peer p
  | DNote r => record_text printable r
  end.
(** mod.rs:189-207 of InfoGetter::run, as M_Session.run_connect; [d]: the details of a failed encryption handshake *)
Definition run_log {C} (p : sockaddr) (su : subject) (d : details) (override : option crypto_mode) (pref : crypto_pref) (requires : bool)
    (limit : N) (enc plain : timed (res peer_error C)) : list dial_note :=
  DAsking su p ::
  match get_crypto_mode override pref requires with
  | Err _ => []
  | Ok Encrypt | Ok Plain => [DConnecting p]
  | Ok Prefer =>
      DConnecting p ::
      match timeout limit enc with
      | (_, Some (Err ECryptoHandshake)) => [DNote (LFallback p d); DConnecting p]
      | _ => []
      end
  end.
