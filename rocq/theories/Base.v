(** Bytes, big-endian integers, results: vocabulary shared by the model, the
    specifications and the proofs. *)
From Coq Require Export List NArith ZArith Lia Bool.
From Coq Require Export Strings.Byte.
From Coq Require Strings.String.
Export Strings.String.StringSyntax.
From Coq Require Export ZifyBool ZifyNat ZifyN.
Export ListNotations.
#[global] Open Scope N_scope.
#[global] Open Scope list_scope.

Ltac Zify.zify_post_hook ::= Z.div_mod_to_equations.

(** Rust [u8] is [byte]; [Vec<u8>], [&[u8]], [Bytes] (and [String], as its
    UTF-8 bytes) are [bytes]. *)
Definition bytes := list byte.

(** ASCII literals. *)
Definition bs (s : String.string) : bytes := String.list_byte_of_string s.
Arguments bs s%string_scope.

Definition b2n (b : byte) : N := Byte.to_N b.
(** Truncating cast [n as u8]. *)
Definition n2b (n : N) : byte :=
  match Byte.of_N (n mod 256) with Some b => b | None => x00 end.

(** [Result<A, E>] *)
Inductive res (E A : Type) : Type :=
| Ok (a : A)
| Err (e : E).
Arguments Ok {E A} a.
Arguments Err {E A} e.

Definition is_ok {E A} (r : res E A) : bool := match r with Ok _ => true | Err _ => false end.
Definition res_bind {E A B} (r : res E A) (f : A -> res E B) : res E B :=
  match r with Ok a => f a | Err e => Err e end.
Definition res_map_err {E F A} (f : E -> F) (r : res E A) : res F A :=
  match r with Ok a => Ok a | Err e => Err (f e) end.
Definition ok_or {E A} (o : option A) (e : E) : res E A :=
  match o with Some a => Ok a | None => Err e end.
Definition res_ok {E A} (r : res E A) : option A :=
  match r with Ok a => Some a | Err _ => None end.
Definition obind {A B} (o : option A) (f : A -> option B) : option B :=
  match o with Some a => f a | None => None end.

(** A computation that may panic. *)
Inductive outcome (A : Type) : Type :=
| Ret (a : A)
| Panic.
Arguments Ret {A} a.
Arguments Panic {A}.

Notation "'let?' x ':=' e 'in' k" := (res_bind e (fun x => k))
  (at level 200, x pattern, e at level 200, k at level 200).
Notation "'leto' x ':=' e 'in' k" := (obind e (fun x => k))
  (at level 200, x pattern, e at level 200, k at level 200).

(** Equality and lexicographic order of byte strings. *)
Fixpoint bytes_eqb (a b : bytes) : bool :=
  match a, b with
  | [], [] => true
  | x :: a', y :: b' => Byte.eqb x y && bytes_eqb a' b'
  | _, _ => false
  end.

(** [a < b] for Rust byte slices. *)
Fixpoint bytes_ltb (a b : bytes) : bool :=
  match a, b with
  | _, [] => false
  | [], _ :: _ => true
  | x :: a', y :: b' =>
      if b2n x <? b2n y then true
      else if b2n y <? b2n x then false
      else bytes_ltb a' b'
  end.

Definition blen (l : bytes) : N := N.of_nat (length l).
Definition takeN {A} (n : N) (l : list A) : list A := firstn (N.to_nat n) l.
Definition dropN {A} (n : N) (l : list A) : list A := skipn (N.to_nat n) l.

(** Big-endian integers: value of a byte string, and the [k]-byte string of a
    number (reduced modulo [256^k]). *)
Definition be_val (l : bytes) : N := fold_left (fun a b => a * 256 + b2n b) l 0.
Fixpoint be_bytes (k : nat) (n : N) : bytes :=
  match k with
  | O => []
  | S k' => be_bytes k' (n / 256) ++ [n2b n]
  end.

Definition MAX_U8 : N := 255.
Definition MAX_U16 : N := 65535.
Definition MAX_U32 : N := 4294967295.
Definition MAX_U64 : N := 18446744073709551615.
Definition fits (bits n : N) : Prop := n < 2 ^ bits.

Definition is_digit (b : byte) : bool := (48 <=? b2n b) && (b2n b <=? 57).
Definition is_lower (b : byte) : bool := (97 <=? b2n b) && (b2n b <=? 122).
Definition is_upper (b : byte) : bool := (65 <=? b2n b) && (b2n b <=? 90).
(** [u8::is_ascii_alphanumeric] *)
Definition is_alnum (b : byte) : bool := is_digit b || is_lower b || is_upper b.
Definition to_lower (b : byte) : byte := if is_upper b then n2b (b2n b + 32) else b.

(** Decimal text of a number, most significant digit first, no leading zeros
    (Rust [u64::to_string]). *)
Fixpoint dec_go (fuel : nat) (n : N) (acc : bytes) : bytes :=
  match fuel with
  | O => acc
  | S f =>
      let acc' := n2b (48 + n mod 10) :: acc in
      if n <? 10 then acc' else dec_go f (n / 10) acc'
  end.
Definition dec (n : N) : bytes := dec_go (S (N.size_nat n)) n [].
Definition dec_Z (z : Z) : bytes :=
  match z with
  | Zneg p => "-"%byte :: dec (Npos p)
  | _ => dec (Z.to_N z)
  end.
(** Positional value of a decimal digit string. *)
Definition digits_val (l : bytes) : N := fold_left (fun a b => a * 10 + (b2n b - 48)) l 0.

Fixpoint zip {A B} (a : list A) (b : list B) : list (A * B) :=
  match a, b with
  | x :: a', y :: b' => (x, y) :: zip a' b'
  | _, _ => []
  end.

Fixpoint starts_with (p l : bytes) : bool :=
  match p, l with
  | [], _ => true
  | x :: p', y :: l' => Byte.eqb x y && starts_with p' l'
  | _ :: _, [] => false
  end.
