(** Specification: decoding bytes that need not be UTF-8. *)
From Verif Require Import Base S_Utf8.

(** Decoding bytes that need not be UTF-8, as the Unicode standard recommends (Unicode 15,
    section 3.9, "U+FFFD Substitution of Maximal Subparts"): a character is itself; what is
    not one is replaced, one U+FFFD for the longest beginning of a character there is, or
    for a single byte if there is none. *)
Definition beginning (p : bytes) : Prop := exists c q, scalar c /\ utf8_char c = p ++ q /\ p <> [] /\ q <> [].
Inductive lossy : bytes -> list N -> Prop :=
| Lossy_end : lossy [] []
| Lossy_char : forall c r cs, scalar c -> lossy r cs -> lossy (utf8_char c ++ r) (c :: cs)
| Lossy_part : forall p r cs, (forall c r', scalar c -> p ++ r <> utf8_char c ++ r') -> beginning p ->
    (forall p' r', p ++ r = p' ++ r' -> beginning p' -> (length p' <= length p)%nat) -> lossy r cs -> lossy (p ++ r) (65533 :: cs)
| Lossy_byte : forall b r cs, (forall c r', scalar c -> b :: r <> utf8_char c ++ r') ->
    (forall p r', b :: r = p ++ r' -> ~ beginning p) -> lossy r cs -> lossy (b :: r) (65533 :: cs).
