(** std::net address parsing ([str::parse::<IpAddr>()]), used by
    src/peer/mod.rs:138 (non-compact peers) and, as the reader of what
    src/torrent.rs:323 writes.  Third-party (Rust standard library,
    core/src/net/parser.rs); part of the trusted base. *)
From Verif Require Import Base M_Net.

Definition digit_val (radix : N) (b : byte) : option N :=
  let c := b2n b in
  let v := if (48 <=? c) && (c <=? 57) then Some (c - 48)
           else if (97 <=? c) && (c <=? 102) then Some (c - 87)
           else if (65 <=? c) && (c <=? 70) then Some (c - 55)
           else None in
  match v with Some d => if d <? radix then Some d else None | None => None end.

Fixpoint take_run (radix : N) (inp : bytes) : list N * bytes :=
  match inp with
  | c :: r =>
      match digit_val radix c with
      | Some d => let (ds, r') := take_run radix r in (d :: ds, r')
      | None => ([], inp)
      end
  | [] => ([], [])
  end.

Definition run_val (radix : N) (ds : list N) : N := fold_left (fun a d => a * radix + d) ds 0.

(** Parser::read_number *)
Definition read_number (radix : N) (max_digits : nat) (zero_prefix : bool) (limit : N) (inp : bytes)
  : option (N * bytes) :=
  let (ds, r) := take_run radix inp in
  if Nat.eqb (length ds) 0 then None
  else if Nat.ltb max_digits (length ds) then None
  else if negb zero_prefix && Nat.ltb 1 (length ds) && (hd 0 ds =? 0) then None
  else if limit <? run_val radix ds then None
  else Some (run_val radix ds, r).

(** Parser::read_given_char *)
Definition read_char (c : byte) (inp : bytes) : option bytes :=
  match inp with x :: r => if Byte.eqb x c then Some r else None | [] => None end.

Definition read_octet := read_number 10 3 false 255.

(** Parser::read_ipv4_addr *)
Definition read_ipv4 (inp : bytes) : option (N * bytes) :=
  leto (a, r) := read_octet inp in
  leto r := read_char "." r in
  leto (b, r) := read_octet r in
  leto r := read_char "." r in
  leto (c, r) := read_octet r in
  leto r := read_char "." r in
  leto (d, r) := read_octet r in
  Some (((a * 256 + b) * 256 + c) * 256 + d, r).

(** Parser::read_separator(':', i, ..) *)
Definition read_sep {A} (first : bool) (f : bytes -> option (A * bytes)) (inp : bytes) : option (A * bytes) :=
  if first then f inp else leto r := read_char ":" inp in f r.

(** read_groups in Parser::read_ipv6_addr: up to [limit] groups; the flag says
    that the last two came from dotted IPv4 text. *)
Fixpoint read_groups (limit : nat) (first : bool) (inp : bytes) : list N * bool * bytes :=
  match limit with
  | O => ([], false, inp)
  | S l =>
      match (match l with O => None | S _ => read_sep first read_ipv4 inp end) with
      | Some (v4, r) => ([v4 / 65536; v4 mod 65536], true, r)
      | None =>
          match read_sep first (read_number 16 4 true 65535) inp with
          | Some (g, r) => let '(gs, f, r') := read_groups l false r in (g :: gs, f, r')
          | None => ([], false, inp)
          end
      end
  end.

Definition segs_val (l : list N) : N := fold_left (fun a g => a * 65536 + g) l 0.

(** Parser::read_ipv6_addr *)
Definition read_ipv6 (inp : bytes) : option (N * bytes) :=
  let '(head, head4, r) := read_groups 8 true inp in
  if Nat.eqb (length head) 8 then Some (segs_val head, r)
  else if head4 then None
  else
    leto r := read_char ":" r in
    leto r := read_char ":" r in
    let '(tail, _, r) := read_groups (8 - (length head + 1)) true r in
    Some (segs_val (head ++ repeat 0 (8 - length head - length tail) ++ tail), r).

(** IpAddr::from_str *)
Definition parse_ip (s : bytes) : option ip :=
  match read_ipv4 s with
  | Some (n, []) => Some (V4 n)
  | Some (_, _ :: _) => None
  | None => match read_ipv6 s with
            | Some (n, []) => Some (V6 n)
            | _ => None
            end
  end.
