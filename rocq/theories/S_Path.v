(** Specification: characters not wanted in file names, and what a Unix path
    denotes (lexically). *)
From Verif Require Import Base.

Definition forbidden (c : N) : Prop := c < 32 \/ In c (map b2n (bs "/\<>:|""?*")).

(** Components: the pieces between slashes. *)
Fixpoint split_slash (p : bytes) : list bytes :=
  match p with
  | [] => [[]]
  | c :: r =>
      if Byte.eqb c "/" then [] :: split_slash r
      else match split_slash r with
           | [] => [[c]]
           | h :: t => (c :: h) :: t
           end
  end.

(** Directory stack (innermost first) after following one component. *)
Definition follow (st : list bytes) (c : bytes) : list bytes :=
  if bytes_eqb c [] || bytes_eqb c (bs ".") then st
  else if bytes_eqb c (bs "..") then
    match st with
    | x :: r => if bytes_eqb x (bs "..") then bs ".." :: st else r
    | [] => [bs ".."]
    end
  else c :: st.

Definition absolute (p : bytes) : bool := match p with c :: _ => Byte.eqb c "/" | [] => false end.
(** The file a path names: absolute or relative, and the components from the
    outside in. *)
Definition resolve (p : bytes) : bool * list bytes := (absolute p, rev (fold_left follow (split_slash p) [])).

(** [q] is inside directory [d] (both resolved). *)
Definition inside (d q : bool * list bytes) : Prop :=
  fst d = fst q /\ exists rest, rest <> [] /\ snd q = snd d ++ rest.
