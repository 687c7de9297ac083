(** Specification: numerals and random identifiers. *)
From Verif Require Import Base.

Fixpoint index_of (b : byte) (alphabet : bytes) : option N :=
  match alphabet with
  | [] => None
  | c :: r => if Byte.eqb b c then Some 0 else leto i := index_of b r in Some (i + 1)
  end.

(** A hexadecimal digit of either case; a digit of the RFC 4648 base32 alphabet. *)
Definition hex_value (b : byte) : option N := index_of (to_lower b) (bs "0123456789abcdef").
Definition base32_value (b : byte) : option N := index_of b (bs "ABCDEFGHIJKLMNOPQRSTUVWXYZ234567").

(** Positional value of a numeral. *)
Fixpoint number (base : N) (digit : byte -> option N) (s : bytes) : option N :=
  match s with
  | [] => Some 0
  | c :: r =>
      leto d := digit c in
      leto n := number base digit r in
      Some (d * base ^ N.of_nat (length r) + n)
  end.

Definition is_numeral (digit : byte -> option N) (s : bytes) : Prop :=
  Forall (fun c => digit c <> None) s.

Definition lower_hex_digit (b : byte) : Prop := In b (bs "0123456789abcdef").
