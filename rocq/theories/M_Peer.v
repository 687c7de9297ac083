(** Model of src/peer/mod.rs: fetching metadata over an established connection. *)
From Verif Require Import Base M_Torrent M_Net M_Extensions M_Messages.

(** src/peer/mod.rs:430-478 PeerError (I/O error details dropped) *)
Inductive peer_error :=
| CantRequireCrypto | EConnect | ConnectTimeout | ESend | ERecv
| InfoHashMismatch (got : bytes) | NoBep10 | NoExtendedHandshake | NoMetadataExt | Disconnect
| EHandshake (e : handshake_error) | ECryptoHandshake | EMessage (e : message_error)
| ERegistry (e : registry_error) | NoMetadataSize | InfoConstruct (e : construct_error)
| InfoPush (e : push_error) | InfoBuild (e : build_error)
| SizeMismatch (handshake data : N) | WrongPiece (expected got : N)
| InfoRequestRejected (piece : N) | Unexpected (m : message).

(** src/peer/mod.rs:360-427 get_metadata_info, as a state machine.
    [Waiting size b i]: inside the inner loop (line 372) after requesting piece
    [i] of metadata of declared size [size].  [Finished]: the function returned.
    [Crashed]: it panicked. *)
Inductive fetch :=
| Waiting (size : N) (b : builder) (i : N)
| Finished (r : res peer_error torrent_info)
| Crashed.

(** src/peer/mod.rs:369-371, 420-426: top of the outer loop; messages sent are
    returned. *)
Definition fetch_next (size : N) (b : builder) : fetch * list message :=
  match builder_next b with
  | Some i => (Waiting size b i, [Meta (MRequest i)])
  | None =>
      match builder_build b with
      | Ok info => (Finished (Ok info), [])
      | Err e => (Finished (Err (InfoBuild e)), [])
      end
  end.

(** src/peer/mod.rs:365-368 *)
Definition fetch_start (ih : bytes) (metadata_size : option N) : fetch * list message :=
  match metadata_size with
  | None => (Finished (Err NoMetadataSize), [])
  | Some size =>
      match builder_new ih size with
      | Panic => (Crashed, [])
      | Ret (Err e) => (Finished (Err (InfoConstruct e)), [])
      | Ret (Ok b) => fetch_next size b
      end
  end.

(** What one iteration of the inner loop can observe: a message, a failure of
    [recv] (src/peer/mod.rs:373), or a failure of the [send] that the previous
    message triggered (src/peer/mod.rs:371, 411). *)
Definition event := res peer_error message.

(** src/peer/mod.rs:373-417 one iteration of the inner loop *)
Definition fetch_step (st : fetch) (ev : event) : fetch * list message :=
  match st with
  | Waiting size b i =>
      match ev with
      | Err e => (Finished (Err e), [])
      | Ok (Meta (MData piece total payload)) =>
          if negb (total =? size) then (Finished (Err (SizeMismatch size total)), [])
          else if negb (piece =? i) then (Finished (Err (WrongPiece i piece)), [])
          else match builder_push b payload with
               | Panic => (Crashed, [])
               | Ret (Err e, _) => (Finished (Err (InfoPush e)), [])
               | Ret (Ok _, b') => fetch_next size b'
               end
      | Ok (Meta (MReject piece)) =>
          if negb (piece =? i) then (Finished (Err (WrongPiece i piece)), [])
          else (Finished (Err (InfoRequestRejected piece)), [])
      | Ok (Meta (MRequest piece)) => (st, [Meta (MReject piece)])
      | Ok (Meta (MUnknownType _)) => (st, [])
      | Ok m =>
          if msg_ignorable m then (st, [])
          else (Finished (Err (Unexpected m)), [])
      end
  | _ => (st, [])
  end.

(** The exchange as seen on the wire, in order. *)
Inductive wire := Recv (ev : event) | Sent (m : message).

(** Run the machine over incoming events until it stops. *)
Fixpoint fetch_run (st : fetch) (evs : list event) : fetch * list wire :=
  match st, evs with
  | Waiting _ _ _, ev :: evs' =>
      let (st1, out) := fetch_step st ev in
      let (st2, tr) := fetch_run st1 evs' in
      (st2, Recv ev :: map Sent out ++ tr)
  | _, _ => (st, [])
  end.

Definition get_metadata_info (ih : bytes) (metadata_size : option N) (evs : list event)
  : fetch * list wire :=
  let (st0, out0) := fetch_start ih metadata_size in
  let (st, tr) := fetch_run st0 evs in
  (st, map Sent out0 ++ tr).
