(** Model of the bencode decoder the code uses (crate bendy 0.6).

    bendy is a third-party crate, not part of /repo; its tokeniser rules are
    part of the trusted base (DESIGN.md).  Simplification: bendy hands out
    tokens lazily and reports an error when the offending token is reached; the
    model parses a whole item into a tree at once.  Users in /repo always drive
    the lazy decoder to the end of the top-level item before they succeed (an
    error met while a sub-decoder is dropped is latched and reported by the
    parent's next call), so success and the decoded value are the same; only
    which error is reported first can differ. *)
From Verif Require Import Base S_Bencode.

(** bendy Decoder::take_int (digits part): longest run of digits. *)
Fixpoint take_digits (inp : bytes) : bytes * bytes :=
  match inp with
  | c :: r => if is_digit c then let (d, r') := take_digits r in (c :: d, r') else ([], inp)
  | [] => ([], [])
  end.

Definition is_digit19 (b : byte) : bool := (49 <=? b2n b) && (b2n b <=? 57).

(** bendy Decoder::take_int, states Start/Zero/Digits without sign: "0" or
    [1-9][0-9]*, then the terminator. *)
Definition take_nat (term : byte) (inp : bytes) : option (N * bytes) :=
  match inp with
  | c :: r =>
      if Byte.eqb c "0" then
        match r with
        | t :: r' => if Byte.eqb t term then Some (0, r') else None
        | [] => None
        end
      else if is_digit19 c then
        let (ds, r') := take_digits inp in
        match r' with
        | t :: r'' => if Byte.eqb t term then Some (digits_val ds, r'') else None
        | [] => None
        end
      else None
  | [] => None
  end.

(** bendy Decoder::take_int: optional '-' followed by [1-9][0-9]* (no "-0"). *)
Definition take_int (inp : bytes) : option (Z * bytes) :=
  match inp with
  | c :: r =>
      if Byte.eqb c "-" then
        match r with
        | d :: _ =>
            if is_digit19 d then
              match take_nat "e" r with
              | Some (n, r') => Some (Z.opp (Z.of_N n), r')
              | None => None
              end
            else None
        | [] => None
        end
      else match take_nat "e" inp with
           | Some (n, r') => Some (Z.of_N n, r')
           | None => None
           end
  | [] => None
  end.

(** bendy Decoder::raw_next_token, String case: <len>:<bytes>.  The chunk must
    lie within the buffer (a length that overflows usize never does). *)
Definition take_string (inp : bytes) : option (bytes * bytes) :=
  match take_nat ":" inp with
  | Some (len, r) => if len <=? blen r then Some (takeN len r, dropN len r) else None
  | None => None
  end.

Definition prev_lt (prev : option bytes) (k : bytes) : bool :=
  match prev with None => true | Some p => bytes_ltb p k end.

(** bendy Decoder::next_object run to completion.  [depth] is the remaining
    nesting allowance (StateTracker max_depth); [fuel] only makes the recursion
    structural, and [fuel_for] below is always enough. *)
Fixpoint parse_value (fuel dep : nat) (inp : bytes) {struct fuel} : option (value * bytes) :=
  match fuel with
  | O => None
  | S f =>
      match inp with
      | [] => None
      | c :: r =>
          if Byte.eqb c "i" then
            match take_int r with Some (z, r') => Some (VInt z, r') | None => None end
          else if Byte.eqb c "l" then
            match dep with
            | O => None
            | S d => match parse_list f d r with
                     | Some (l, r') => Some (VList l, r')
                     | None => None
                     end
            end
          else if Byte.eqb c "d" then
            match dep with
            | O => None
            | S d => match parse_pairs f d None r with
                     | Some (l, r') => Some (VDict l, r')
                     | None => None
                     end
            end
          else if is_digit c then
            match take_string inp with Some (s, r') => Some (VBytes s, r') | None => None end
          else None
      end
  end
with parse_list (fuel dep : nat) (inp : bytes) {struct fuel} : option (list value * bytes) :=
  match fuel with
  | O => None
  | S f =>
      match inp with
      | [] => None
      | c :: r =>
          if Byte.eqb c "e" then Some ([], r)
          else match parse_value f dep inp with
               | Some (v, r1) =>
                   match parse_list f dep r1 with
                   | Some (vs, r2) => Some (v :: vs, r2)
                   | None => None
                   end
               | None => None
               end
      end
  end
with parse_pairs (fuel dep : nat) (prev : option bytes) (inp : bytes) {struct fuel}
  : option (list (bytes * value) * bytes) :=
  match fuel with
  | O => None
  | S f =>
      match inp with
      | [] => None
      | c :: r =>
          if Byte.eqb c "e" then Some ([], r)
          else match take_string inp with
               | Some (k, r1) =>
                   if prev_lt prev k then
                     match parse_value f dep r1 with
                     | Some (v, r2) =>
                         match parse_pairs f dep (Some k) r2 with
                         | Some (kvs, r3) => Some ((k, v) :: kvs, r3)
                         | None => None
                         end
                     | None => None
                     end
                   else None
               | None => None
               end
      end
  end.

Definition fuel_for (inp : bytes) : nat := S (S (length inp + length inp)).

(** One item from the front of the buffer, and what follows it. *)
Definition parse (dep : nat) (inp : bytes) : option (value * bytes) :=
  parse_value (fuel_for inp) dep inp.

(** bendy's default nesting limit (Decoder::new, EXPECTED_RECURSION_DEPTH). *)
Definition DEFAULT_MAX_DEPTH : nat := 2048.

(** src/util.rs:136-146 decode_bencode, up to the decoded tree: exactly one
    item and no trailing bytes. *)
Inductive unbencode_error := UBendy | UNoData | UTrailing.
Definition decode_tree (dep : nat) (buf : bytes) : res unbencode_error value :=
  match buf with
  | [] => Err UNoData
  | _ => match parse dep buf with
         | None => Err UBendy
         | Some (v, []) => Ok v
         | Some (_, _ :: _) => Err UTrailing
         end
  end.

(** src/torrent.rs:330-346 check_bencode_dict *)
Inductive dict_error := DSyntax | DNotADict | DEmpty | DTrailing.
Definition check_bencode_dict (buf : bytes) : res dict_error unit :=
  match buf with
  | [] => Err DEmpty
  | c :: r =>
      if Byte.eqb c "d" then
        match parse DEFAULT_MAX_DEPTH buf with
        | None => Err DSyntax
        | Some (_, []) => Ok tt
        | Some (_, _ :: _) => Err DTrailing
        end
      else if Byte.eqb c "l" then Err DNotADict
      else if Byte.eqb c "i" then
        match take_int r with Some _ => Err DNotADict | None => Err DSyntax end
      else if is_digit c then
        match take_string buf with Some _ => Err DNotADict | None => Err DSyntax end
      else Err DSyntax
  end.

(** Field conversions: Rust [str::parse::<uN>()] on an integer token. *)
Definition as_uint (bits : N) (v : value) : option N :=
  match v with
  | VInt z => if (Z.leb 0 z && Z.ltb z (2 ^ Z.of_N bits))%bool then Some (Z.to_N z) else None
  | _ => None
  end.
Definition as_bytes (v : value) : option bytes :=
  match v with VBytes s => Some s | _ => None end.
Definition as_list (v : value) : option (list value) :=
  match v with VList l => Some l | _ => None end.
Definition as_dict (v : value) : option (list (bytes * value)) :=
  match v with VDict d => Some d | _ => None end.
