(** Model of src/compact.rs. *)
From Verif Require Import Base M_Net.

(** src/compact.rs:41-50, 52-62 ToCompact for IpAddr and SocketAddr *)
Definition ip_to_compact (i : ip) : bytes := octets i.
Definition to_compact (a : sockaddr) : bytes := octets (sa_ip a) ++ be_bytes 2 (sa_port a).

(** src/compact.rs:154-159 FromCompactError ([ty] is only used for display) *)
Inductive compact_error := BadLength (n : nat).

(** src/compact.rs:64-86 FromCompact for SocketAddr *)
Definition from_compact (s : bytes) : res compact_error sockaddr :=
  if Nat.eqb (length s) 6 then Ok (mkSA (V4 (be_val (firstn 4 s))) (be_val (firstn 2 (skipn 4 s))))
  else if Nat.eqb (length s) 18 then Ok (mkSA (V6 (be_val (firstn 16 s))) (be_val (firstn 2 (skipn 16 s))))
  else Err (BadLength (length s)).

(** src/compact.rs:88-106 FromCompact for SocketAddrV4 *)
Definition from_compact_v4 (s : bytes) : res compact_error sockaddr :=
  if Nat.eqb (length s) 6 then Ok (mkSA (V4 (be_val (firstn 4 s))) (be_val (firstn 2 (skipn 4 s))))
  else Err (BadLength (length s)).

(** src/compact.rs:108-126 FromCompact for SocketAddrV6 *)
Definition from_compact_v6 (s : bytes) : res compact_error sockaddr :=
  if Nat.eqb (length s) 18 then Ok (mkSA (V6 (be_val (firstn 16 s))) (be_val (firstn 2 (skipn 16 s))))
  else Err (BadLength (length s)).

(** src/compact.rs:128-152 impl_vec_fromcompact (item size [k]; the recursion is
    on a bound for the length, each round removes at least one byte). *)
Fixpoint vec_from_compact_go {A} (item : bytes -> res compact_error A) (k fuel : nat) (s : bytes)
  : res compact_error (list A) :=
  match s with
  | [] => Ok []
  | _ =>
      match fuel with
      | O => Err (BadLength 0)
      | S f =>
          if Nat.leb k (length s) then
            let? a := item (firstn k s) in
            let? r := vec_from_compact_go item k f (skipn k s) in
            Ok (a :: r)
          else let? a := item s in Ok [a]
      end
  end.
Definition vec_v4_from_compact (s : bytes) := vec_from_compact_go from_compact_v4 6 (length s) s.
Definition vec_v6_from_compact (s : bytes) := vec_from_compact_go from_compact_v6 18 (length s) s.
