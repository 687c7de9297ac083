(** The parts of crate form_urlencoded / url that /repo uses for query strings
    (third-party: trusted base). *)
From Verif Require Import Base M_Net M_Types M_Utf8 M_Tracker.

(** form_urlencoded::byte_serialized_unchanged *)
Definition unchanged (b : byte) : bool :=
  is_alnum b || Byte.eqb b "*" || Byte.eqb b "-" || Byte.eqb b "." || Byte.eqb b "_".
(** "%XX", upper case *)
Definition hex_upper (n : N) : byte := if n <? 10 then n2b (48 + n) else n2b (55 + n).
(** form_urlencoded::byte_serialize *)
Definition serialize_byte (b : byte) : bytes :=
  if Byte.eqb b " " then ["+"%byte]
  else if unchanged b then [b]
  else ["%"%byte; hex_upper (b2n b / 16); hex_upper (b2n b mod 16)].
Definition byte_serialize (s : bytes) : bytes := flat_map serialize_byte s.

(** Url::query_pairs_mut + Serializer::append_pair: a missing query becomes an empty
    one; "&" is put before the pair unless the query is empty so far. *)
Definition append_pair (q : option bytes) (k v : bytes) : option bytes :=
  let q := match q with Some q => q | None => [] end in
  Some (q ++ (match q with [] => [] | _ => ["&"%byte] end)
          ++ byte_serialize k ++ ["="%byte] ++ byte_serialize v).

(** src/types.rs:232-244 add_bytes_query_param: append_pair(key, SENTINEL) under an
    encoding override that turns SENTINEL (and only it) into [value]. *)
Definition SENTINEL : bytes := bs "ADD_BYTES_QUERY_PARAM".
Definition add_bytes_query_param (q : option bytes) (k v : bytes) : option bytes :=
  let enc s := if bytes_eqb s SENTINEL then v else s in
  append_pair q (enc k) (enc SENTINEL).

(** percent_encoding::percent_decode after form_urlencoded's replacement of '+' *)
Fixpoint percent_decode (s : bytes) : bytes :=
  match s with
  | [] => []
  | c :: r =>
      if Byte.eqb c "%" then
        match r with
        | a :: b :: r' =>
            match hex_sym a, hex_sym b with
            | Some h, Some l => n2b (h * 16 + l) :: percent_decode r'
            | _, _ => c :: percent_decode r
            end
        | _ => c :: percent_decode r
        end
      else c :: percent_decode r
  end.
Definition replace_plus (s : bytes) : bytes := map (fun c => if Byte.eqb c "+" then " "%byte else c) s.
Definition form_decode (s : bytes) : bytes := percent_decode (replace_plus s).

(** slice::splitn(2, sep): up to the first separator, and what follows it *)
Fixpoint split_first (sep : byte) (s : bytes) : bytes * option bytes :=
  match s with
  | [] => ([], None)
  | c :: r =>
      if Byte.eqb c sep then ([], Some r)
      else let (a, b) := split_first sep r in (c :: a, b)
  end.

(** form_urlencoded::Parse (the iterator; each round consumes at least one byte of a
    non-empty rest): raw pairs, before UTF-8 decoding *)
Fixpoint form_parse_go (fuel : nat) (s : bytes) : list (bytes * bytes) :=
  match fuel with
  | O => []
  | S f =>
      match s with
      | [] => []
      | _ =>
          let (seq, rest) := split_first "&" s in
          let tail := match rest with Some r => form_parse_go f r | None => [] end in
          match seq with
          | [] => tail
          | _ =>
              let (k, v) := split_first "=" seq in
              (form_decode k, form_decode (match v with Some v => v | None => [] end)) :: tail
          end
      end
  end.
Definition form_parse (s : bytes) : list (bytes * bytes) := form_parse_go (length s) s.

(** Url::query_pairs: the pairs as text *)
Definition query_pairs (u : url) : list (bytes * bytes) :=
  map (fun kv => (from_utf8_lossy (fst kv), from_utf8_lossy (snd kv)))
      (form_parse (match u_query u with Some q => q | None => [] end)).
