(** Model of src/util.rs (TryBytes, TryFromBuf). *)
From Verif Require Import Base M_Net.

(** src/util.rs:126-132 PacketError *)
Inductive packet_error := Short | Long.

(** src/util.rs:46-52 TryBytes::try_get_bytes *)
Definition try_get_bytes (k : nat) (buf : bytes) : res packet_error (bytes * bytes) :=
  if Nat.leb k (length buf) then Ok (firstn k buf, skipn k buf) else Err Short.

(** src/util.rs:34-36, 88-106 TryBytes::try_get for u8/u16/u32/u64 ([k] bytes,
    big-endian). *)
Definition try_get_uint (k : nat) (buf : bytes) : res packet_error (N * bytes) :=
  if Nat.leb k (length buf) then Ok (be_val (firstn k buf), skipn k buf) else Err Short.

(** src/util.rs:105 i32 *)
Definition try_get_i32 (buf : bytes) : res packet_error (Z * bytes) :=
  match try_get_uint 4 buf with
  | Ok (n, r) => Ok (if n <? 2 ^ 31 then Z.of_N n else (Z.of_N n - 2 ^ 32)%Z, r)
  | Err e => Err e
  end.

(** src/util.rs:107-108, 110-124 SocketAddrV4 / SocketAddrV6 from a buffer *)
Definition try_get_v4 (buf : bytes) : res packet_error (sockaddr * bytes) :=
  let? (a, r) := try_get_uint 4 buf in
  let? (p, r') := try_get_uint 2 r in
  Ok (mkSA (V4 a) p, r').
Definition try_get_v6 (buf : bytes) : res packet_error (sockaddr * bytes) :=
  let? (a, r) := try_get_uint 16 buf in
  let? (p, r') := try_get_uint 2 r in
  Ok (mkSA (V6 a) p, r').

(** src/util.rs:38-44 TryBytes::try_get_all (fuel: the buffer length bounds the
    number of items, each of which consumes at least one byte). *)
Fixpoint try_get_all_go {T} (get : bytes -> res packet_error (T * bytes)) (fuel : nat) (buf : bytes)
  : res packet_error (list T) :=
  match buf with
  | [] => Ok []
  | _ =>
      match fuel with
      | O => Err Short
      | S f =>
          let? (x, r) := get buf in
          let? xs := try_get_all_go get f r in
          Ok (x :: xs)
      end
  end.
Definition try_get_all {T} (get : bytes -> res packet_error (T * bytes)) (buf : bytes) :=
  try_get_all_go get (length buf) buf.

(** src/util.rs:58-64 TryBytes::eof *)
Definition eof (buf : bytes) : res packet_error unit :=
  match buf with [] => Ok tt | _ => Err Long end.
