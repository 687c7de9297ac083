(** Specification: a JSON parser (RFC 8259) over texts given as lists of code points.
    Numbers: non-negative integers only (no sign, fraction or exponent). *)
From Verif Require Import Base.

Inductive json := JNull | JBool (b : bool) | JNum (n : N) | JStr (cs : list N) | JArr (l : list json)
| JObj (kvs : list (list N * json)).

Definition hexval (c : N) : option N :=
  if (48 <=? c) && (c <=? 57) then Some (c - 48)
  else if (97 <=? c) && (c <=? 102) then Some (c - 87)
  else if (65 <=? c) && (c <=? 70) then Some (c - 55)
  else None.
Definition hex4 (a b c d : N) : option N :=
  match hexval a, hexval b, hexval c, hexval d with
  | Some a, Some b, Some c, Some d => Some (((a * 16 + b) * 16 + c) * 16 + d)
  | _, _, _, _ => None
  end.
Definition high_surrogate (u : N) : bool := (55296 <=? u) && (u <? 56320).
Definition low_surrogate (u : N) : bool := (56320 <=? u) && (u <? 57344).
Definition put (c : N) (r : option (list N * list N)) : option (list N * list N) :=
  match r with Some (cs, r) => Some (c :: cs, r) | None => None end.

(** The rest of a string after its opening quote: 34 is the quote, 92 the backslash. *)
Fixpoint string_body (s : list N) : option (list N * list N) :=
  match s with
  | [] => None
  | c :: r =>
      if c =? 34 then Some ([], r)
      else if c =? 92 then
        match r with
        | [] => None
        | e :: r =>
            if e =? 34 then put 34 (string_body r)
            else if e =? 92 then put 92 (string_body r)
            else if e =? 47 then put 47 (string_body r)
            else if e =? 98 then put 8 (string_body r)
            else if e =? 102 then put 12 (string_body r)
            else if e =? 110 then put 10 (string_body r)
            else if e =? 114 then put 13 (string_body r)
            else if e =? 116 then put 9 (string_body r)
            else if e =? 117 then
              match r with
              | h1 :: h2 :: h3 :: h4 :: r =>
                  match hex4 h1 h2 h3 h4 with
                  | None => None
                  | Some u =>
                      if high_surrogate u then
                        match r with
                        | b :: e' :: l1 :: l2 :: l3 :: l4 :: r =>
                            if (b =? 92) && (e' =? 117) then
                              match hex4 l1 l2 l3 l4 with
                              | Some v =>
                                  if low_surrogate v
                                  then put (65536 + (u - 55296) * 1024 + (v - 56320)) (string_body r)
                                  else None
                              | None => None
                              end
                            else None
                        | _ => None
                        end
                      else if low_surrogate u then None
                      else put u (string_body r)
                  end
              | _ => None
              end
            else None
        end
      else if c <? 32 then None
      else put c (string_body r)
  end.

Definition digit (c : N) : bool := (48 <=? c) && (c <=? 57).
Fixpoint number (acc : N) (s : list N) : N * list N :=
  match s with
  | c :: r => if digit c then number (acc * 10 + (c - 48)) r else (acc, s)
  | [] => (acc, s)
  end.
Fixpoint skip (s : list N) : list N :=
  match s with
  | c :: r => if (c =? 32) || (c =? 9) || (c =? 10) || (c =? 13) then skip r else s
  | [] => s
  end.
Fixpoint word (w s : list N) : option (list N) :=
  match w, s with
  | [], _ => Some s
  | a :: w, c :: s => if a =? c then word w s else None
  | _ :: _, [] => None
  end.
Definition code (s : String.string) : list N := map b2n (bs s).
Arguments code s%string_scope.

(** A value (leading white space allowed) and what follows it. *)
Fixpoint value (fuel : nat) (s : list N) : option (json * list N) :=
  match fuel with
  | O => None
  | S fuel =>
      match skip s with
      | [] => None
      | c :: r =>
          if c =? 34 then match string_body r with Some (cs, r) => Some (JStr cs, r) | None => None end
          else if c =? 123 then
            match skip r with
            | [] => None
            | d :: r' => if d =? 125 then Some (JObj [], r')
                         else match members fuel r with Some (kvs, r) => Some (JObj kvs, r) | None => None end
            end
          else if c =? 91 then
            match skip r with
            | [] => None
            | d :: r' => if d =? 93 then Some (JArr [], r')
                         else match elements fuel r with Some (l, r) => Some (JArr l, r) | None => None end
            end
          else if c =? 48 then Some (JNum 0, r)
          else if digit c then let (n, r) := number 0 (c :: r) in Some (JNum n, r)
          else match word (code "null") (c :: r) with
          | Some r => Some (JNull, r)
          | None => match word (code "true") (c :: r) with
          | Some r => Some (JBool true, r)
          | None => match word (code "false") (c :: r) with
          | Some r => Some (JBool false, r)
          | None => None
          end end end
      end
  end
(** One or more ["name": value] separated by commas, up to the closing brace. *)
with members (fuel : nat) (s : list N) : option (list (list N * json) * list N) :=
  match fuel with
  | O => None
  | S fuel =>
      match skip s with
      | [] => None
      | c :: r =>
          if c =? 34 then
            match string_body r with
            | None => None
            | Some (k, r) =>
                match skip r with
                | [] => None
                | c :: r =>
                    if c =? 58 then
                      match value fuel r with
                      | None => None
                      | Some (v, r) =>
                          match skip r with
                          | [] => None
                          | c :: r =>
                              if c =? 125 then Some ([(k, v)], r)
                              else if c =? 44 then
                                match members fuel r with
                                | Some (kvs, r) => Some ((k, v) :: kvs, r)
                                | None => None
                                end
                              else None
                          end
                      end
                    else None
                end
            end
          else None
      end
  end
with elements (fuel : nat) (s : list N) : option (list json * list N) :=
  match fuel with
  | O => None
  | S fuel =>
      match value fuel s with
      | None => None
      | Some (v, r) =>
          match skip r with
          | [] => None
          | c :: r =>
              if c =? 93 then Some ([v], r)
              else if c =? 44 then
                match elements fuel r with
                | Some (l, r) => Some (v :: l, r)
                | None => None
                end
              else None
          end
      end
  end.
Definition json_parse (s : list N) : option json :=
  match value (S (length s)) s with
  | Some (v, r) => match skip r with [] => Some v | _ => None end
  | None => None
  end.

Definition printable (s : bytes) : Prop := Forall (fun b => 32 <= b2n b /\ b2n b <= 126) s.
