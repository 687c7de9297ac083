(** IP and socket addresses as used by /repo (std::net).
    Simplification: the IPv6 flow label and scope id are not represented (every
    address built by /repo has them 0). *)
From Verif Require Import Base.

Inductive ip : Type :=
| V4 (n : N)   (* < 2^32 *)
| V6 (n : N).  (* < 2^128 *)

Record sockaddr : Type := mkSA { sa_ip : ip; sa_port : N }.

Definition wf_ip (i : ip) : Prop := match i with V4 n => n < 2 ^ 32 | V6 n => n < 2 ^ 128 end.
Definition wf_sa (a : sockaddr) : Prop := wf_ip (sa_ip a) /\ sa_port a < 65536.

Definition ip_eqb (a b : ip) : bool :=
  match a, b with
  | V4 x, V4 y => x =? y
  | V6 x, V6 y => x =? y
  | _, _ => false
  end.
Definition sa_eqb (a b : sockaddr) : bool := ip_eqb (sa_ip a) (sa_ip b) && (sa_port a =? sa_port b).

(** IpAddr::octets *)
Definition octets (i : ip) : bytes :=
  match i with V4 n => be_bytes 4 n | V6 n => be_bytes 16 n end.

(** {:x} of a number *)
Definition hex_digit (n : N) : byte := if n <? 10 then n2b (48 + n) else n2b (87 + n).
Fixpoint hex_go (fuel : nat) (n : N) (acc : bytes) : bytes :=
  match fuel with
  | O => acc
  | S f =>
      let acc' := hex_digit (n mod 16) :: acc in
      if n <? 16 then acc' else hex_go f (n / 16) acc'
  end.
Definition hex (n : N) : bytes := hex_go (S (N.size_nat n)) n [].

(** std::net::Ipv4Addr Display *)
Definition show_ipv4 (n : N) : bytes :=
  match be_bytes 4 n with
  | [a; b; c; d] =>
      dec (b2n a) ++ ["."%byte] ++ dec (b2n b) ++ ["."%byte] ++ dec (b2n c) ++ ["."%byte] ++ dec (b2n d)
  | _ => []
  end.

Fixpoint segs_of (k : nat) (n : N) : list N :=
  match k with O => [] | S k' => segs_of k' (n / 65536) ++ [n mod 65536] end.
Definition segments (n : N) : list N := segs_of 8 n.

(** Longest run of zero segments: (start, length), first one on ties. *)
Fixpoint zero_run (i : nat) (segs : list N) (cur best : nat * nat) : nat * nat :=
  match segs with
  | [] => best
  | s :: r =>
      if s =? 0 then
        let cur' := (if Nat.eqb (snd cur) 0 then i else fst cur, S (snd cur)) in
        zero_run (S i) r cur' (if Nat.ltb (snd best) (snd cur') then cur' else best)
      else zero_run (S i) r (O, O) best
  end.

Fixpoint join_segs (l : list N) : bytes :=
  match l with
  | [] => []
  | [x] => hex x
  | x :: r => hex x ++ [":"%byte] ++ join_segs r
  end.

(** std::net::Ipv6Addr Display *)
Definition show_ipv6 (n : N) : bytes :=
  if n / 2 ^ 32 =? 65535 then bs "::ffff:" ++ show_ipv4 (n mod 2 ^ 32)
  else
    let segs := segments n in
    let '(start, len) := zero_run 0 segs (O, O) (O, O) in
    if Nat.ltb 1 len
    then join_segs (firstn start segs) ++ bs "::" ++ join_segs (skipn (start + len) segs)
    else join_segs segs.

Definition show_ip (i : ip) : bytes := match i with V4 n => show_ipv4 n | V6 n => show_ipv6 n end.
