(** Specification: application/x-www-form-urlencoded query strings (WHATWG URL
    standard, section 5), as a grammar. *)
From Verif Require Import Base.

Definition hex_val (b : byte) (n : N) : Prop :=
  (48 <= b2n b <= 57 /\ n = b2n b - 48) \/ (65 <= b2n b <= 70 /\ n = b2n b - 55) \/
  (97 <= b2n b <= 102 /\ n = b2n b - 87).

(** [decoded s t]: the encoded text [s] stands for [t].  "%" not followed by two hex
    digits stands for itself. *)
Inductive decoded : bytes -> bytes -> Prop :=
| dec_nil : decoded [] []
| dec_plus s t : decoded s t -> decoded ("+"%byte :: s) (" "%byte :: t)
| dec_pct a b h l s t : hex_val a h -> hex_val b l -> decoded s t ->
    decoded ("%"%byte :: a :: b :: s) (n2b (h * 16 + l) :: t)
| dec_lone s t : ~ (exists a b r h l, s = a :: b :: r /\ hex_val a h /\ hex_val b l) -> decoded s t ->
    decoded ("%"%byte :: s) ("%"%byte :: t)
| dec_other c s t : c <> "+"%byte -> c <> "%"%byte -> decoded s t -> decoded (c :: s) (c :: t).

(** One "name=value" item; without "=", the value is empty. *)
Definition item (s : bytes) (kv : bytes * bytes) : Prop :=
  (exists a b, s = a ++ "="%byte :: b /\ ~ In "="%byte a /\ decoded a (fst kv) /\ decoded b (snd kv)) \/
  (~ In "="%byte s /\ decoded s (fst kv) /\ snd kv = []).

(** Items are separated by "&"; empty ones do not count. *)
Inductive form : bytes -> list (bytes * bytes) -> Prop :=
| form_last_empty : form [] []
| form_last s kv : s <> [] -> ~ In "&"%byte s -> item s kv -> form s [kv]
| form_empty r l : form r l -> form ("&"%byte :: r) l
| form_more s r kv l : s <> [] -> ~ In "&"%byte s -> item s kv -> form r l -> form (s ++ "&"%byte :: r) (kv :: l).

(** A URL without a query has no parameters. *)
Definition query_text (q : option bytes) : bytes := match q with Some q => q | None => [] end.
