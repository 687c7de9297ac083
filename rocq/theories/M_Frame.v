(** Model of the framed stream used for peer messages (src/peer/mod.rs:309-324,
    337-348): tokio_util Framed with LengthDelimitedCodec (big-endian u32 length
    field, max_frame_length MAX_PEER_MSG_LEN).  tokio_util is not part of /repo;
    its decoding loop is part of the trusted base.  Simplification: buffer
    capacity management is left out. *)
From Verif Require Import Base.

(** src/consts.rs:30 *)
Definition MAX_PEER_MSG_LEN : N := 65535.

(** LengthDelimitedCodec DecodeState *)
Inductive dec_state := Head | Data (n : N).

(** LengthDelimitedCodec::decode: [None] in the result means more bytes are
    needed. *)
Inductive dec_out :=
| DFrame (f rest : bytes)
| DMore (st : dec_state) (rest : bytes)
| DTooBig.
Definition decode_data (n : N) (buf : bytes) : dec_out :=
  if blen buf <? n then DMore (Data n) buf else DFrame (takeN n buf) (dropN n buf).
Definition frame_decode (st : dec_state) (buf : bytes) : dec_out :=
  match st with
  | Data n => decode_data n buf
  | Head =>
      if blen buf <? 4 then DMore Head buf
      else
        let n := be_val (firstn 4 buf) in
        if MAX_PEER_MSG_LEN <? n then DTooBig else decode_data n (skipn 4 buf)
  end.

(** How the byte stream ends once the reads below are used up: the peer falls
    silent, closes the connection, or the read fails. *)
Inductive ending := Silent | Closed | Broken.

Inductive frame_result :=
| Frame (f : bytes)
| FrameError        (* Some(Err(_)) *)
| FrameEnd          (* None *)
| FramePending.     (* waits for ever *)

(** FramedImpl::poll_next: decode what is buffered; if more is needed, read once
    and retry; at the end of the stream call decode_eof. *)
Fixpoint framed_next (st : dec_state) (buf : bytes) (reads : list bytes) (e : ending)
  : frame_result * dec_state * bytes * list bytes :=
  match frame_decode st buf with
  | DTooBig => (FrameError, st, buf, reads)
  | DFrame f rest => (Frame f, Head, rest, reads)
  | DMore st' rest =>
      match reads with
      | chunk :: reads' => framed_next st' (rest ++ chunk) reads' e
      | [] =>
          match e with
          | Silent => (FramePending, st', rest, [])
          | Broken => (FrameError, st', rest, [])
          | Closed => (match rest with [] => FrameEnd | _ => FrameError end, st', rest, [])
          end
      end
  end.

(** Calling [next] until it yields something other than a frame (fuel: the number
    of bytes bounds the number of frames). *)
Fixpoint framed_all (fuel : nat) (st : dec_state) (buf : bytes) (reads : list bytes) (e : ending)
  : list bytes * frame_result :=
  match fuel with
  | O => ([], FramePending)
  | S f =>
      match framed_next st buf reads e with
      | (Frame x, st', buf', reads') =>
          let (fs, r) := framed_all f st' buf' reads' e in (x :: fs, r)
      | (r, _, _, _) => ([], r)
      end
  end.
Definition all_frames (reads : list bytes) (e : ending) : list bytes * frame_result :=
  framed_all (S (length (concat reads))) Head [] reads e.

(** LengthDelimitedCodec::encode; [None]: frame too big *)
Definition frame_encode (b : bytes) : option bytes :=
  if MAX_PEER_MSG_LEN <? blen b then None else Some (be_bytes 4 (blen b) ++ b).
