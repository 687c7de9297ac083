(** Model of src/types.rs.  An InfoHash or PeerId is its bytes (20 of them). *)
From Verif Require Import Base M_Net M_Util.

(** data_encoding HEXLOWER_PERMISSIVE: value of a hex digit of either case *)
Definition hex_sym (b : byte) : option N :=
  let c := b2n b in
  if (48 <=? c) && (c <=? 57) then Some (c - 48)
  else if (97 <=? c) && (c <=? 102) then Some (c - 87)
  else if (65 <=? c) && (c <=? 70) then Some (c - 55)
  else None.

(** HEXLOWER_PERMISSIVE.decode *)
Fixpoint hex_decode (s : bytes) : option bytes :=
  match s with
  | [] => Some []
  | a :: b :: r =>
      leto x := hex_sym a in
      leto y := hex_sym b in
      leto t := hex_decode r in
      Some (n2b (x * 16 + y) :: t)
  | [_] => None
  end.

(** data_encoding BASE32 (RFC 4648, upper case) *)
Definition b32_sym (b : byte) : option N :=
  let c := b2n b in
  if (65 <=? c) && (c <=? 90) then Some (c - 65)
  else if (50 <=? c) && (c <=? 55) then Some (c - 24)
  else None.

(** BASE32.decode on input made of whole 8-character blocks without padding.
    Simplification: data_encoding also accepts '=' padding, which always yields
    fewer than 5 bytes for the block; for the 32-character inputs the code
    passes, such a result is then refused by the length check, so both kinds of
    failure are one [None] here. *)
Fixpoint b32_vals (s : bytes) : option (list N) :=
  match s with
  | [] => Some []
  | c :: r => leto v := b32_sym c in leto vs := b32_vals r in Some (v :: vs)
  end.
Fixpoint b32_blocks (fuel : nat) (vs : list N) : option bytes :=
  match vs with
  | [] => Some []
  | a :: b :: c :: d :: e :: f :: g :: h :: r =>
      match fuel with
      | O => None
      | S k =>
          leto t := b32_blocks k r in
          Some (be_bytes 5 (fold_left (fun x v => x * 32 + v) [a; b; c; d; e; f; g; h] 0) ++ t)
      end
  | _ => None
  end.
Definition b32_decode (s : bytes) : option bytes :=
  leto vs := b32_vals s in b32_blocks (length vs) vs.

Inductive info_hash_error := InvalidHex | InvalidBase32 | InvalidLength (n : nat).

(** src/types.rs:78-87 TryFrom<Vec<u8>> for InfoHash *)
Definition info_hash_of_vec (v : bytes) : res info_hash_error bytes :=
  if Nat.eqb (length v) 20 then Ok v else Err (InvalidLength (length v)).

(** src/types.rs:28-33 from_hex *)
Definition from_hex (s : bytes) : res info_hash_error bytes :=
  match hex_decode s with None => Err InvalidHex | Some v => info_hash_of_vec v end.
(** src/types.rs:35-40 from_base32 *)
Definition from_base32 (s : bytes) : res info_hash_error bytes :=
  match b32_decode s with None => Err InvalidBase32 | Some v => info_hash_of_vec v end.

(** src/types.rs:60-70 FromStr for InfoHash ([s.len()] is a byte count) *)
Definition parse_info_hash (s : bytes) : res info_hash_error bytes :=
  if Nat.eqb (length s) 32 then from_base32 s else from_hex s.

(** src/types.rs:51-58 Display for InfoHash ("{b:02x}" per byte) *)
Definition show_info_hash (h : bytes) : bytes :=
  flat_map (fun b => [hex_digit (b2n b / 16); hex_digit (b2n b mod 16)]) h.

(** src/types.rs:131-138 PeerId::generate; [rng i] is the byte drawn for
    position [i] (rand's Alphanumeric). *)
Definition generate_peer_id (prefix : bytes) (rng : nat -> byte) : bytes :=
  map (fun i => match nth_error prefix i with Some b => b | None => rng i end) (seq 0 20).

(** src/types.rs:161-170 TryFrom<&[u8]> for PeerId *)
Definition peer_id_of_slice (s : bytes) : option bytes :=
  if Nat.eqb (length s) 20 then Some s else None.

(** build.rs:4-20 and src/consts.rs:8: "-DM-" + "0" "07" "0" + "-" for
    version 0.7.0 *)
Definition PEER_ID_PREFIX : bytes := bs "-DM-0070-".
