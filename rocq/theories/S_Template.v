(** Specification: the template language as documented in README.md (--outfile):
    "{name}" and "{hash}" are placeholders, "{{" and "}}" stand for braces,
    everything else stands for itself. *)
From Verif Require Import Base.

Inductive tok := Ch (c : byte) | TName | THash.

(** [reads s ts]: the template [s] means the sequence [ts]. *)
Inductive reads : bytes -> list tok -> Prop :=
| reads_nil : reads [] []
| reads_open r ts : reads r ts -> reads ("{"%byte :: "{"%byte :: r) (Ch "{" :: ts)
| reads_close r ts : reads r ts -> reads ("}"%byte :: "}"%byte :: r) (Ch "}" :: ts)
| reads_name r ts : reads r ts -> reads (bs "{name}" ++ r) (TName :: ts)
| reads_hash r ts : reads r ts -> reads (bs "{hash}" ++ r) (THash :: ts)
| reads_char c r ts :
    c <> "{"%byte -> ~ (c = "}"%byte /\ exists r', r = "}"%byte :: r') ->
    reads r ts -> reads (c :: r) (Ch c :: ts).

(** The text it stands for, given the two values. *)
Definition expand (ts : list tok) (name hash : bytes) : bytes :=
  flat_map (fun t => match t with Ch c => [c] | TName => name | THash => hash end) ts.

(** A malformed placeholder: the text reads up to a '{' at offset |p| that
    opens neither "{{" nor a known placeholder. *)
Definition word_char (c : byte) : Prop := is_alnum c = true \/ c = "_"%byte.
Inductive fault := FUnmatched (offset : nat) | FMalformed (offset : nat) | FUnknown (name : bytes).
Inductive bad : bytes -> fault -> Prop :=
| bad_unmatched p ts w :
    reads p ts -> Forall word_char w ->
    bad (p ++ "{"%byte :: w) (FUnmatched (length p))
| bad_unknown p ts w r :
    reads p ts -> Forall word_char w -> w <> bs "name" -> w <> bs "hash" ->
    bad (p ++ "{"%byte :: w ++ "}"%byte :: r) (FUnknown w)
| bad_malformed p ts w c r :
    reads p ts -> Forall word_char w -> ~ word_char c -> c <> "}"%byte -> ~ (w = [] /\ c = "{"%byte) ->
    bad (p ++ "{"%byte :: w ++ c :: r) (FMalformed (length p)).

(** Doubling every brace. *)
Definition escape (s : bytes) : bytes :=
  flat_map (fun c => if Byte.eqb c "{" || Byte.eqb c "}" then [c; c] else [c]) s.
