(** Specification: what bencoding is (BEP 3), independent of any parser. *)
From Verif Require Import Base.

(** A bencode document. *)
Inductive value : Type :=
| VInt (z : Z)
| VBytes (s : bytes)
| VList (l : list value)
| VDict (d : list (bytes * value)).

Definition encode_bytes (s : bytes) : bytes := dec (blen s) ++ [":"%byte] ++ s.

(** i<decimal>e ; <len>:<bytes> ; l...e ; d...e *)
Fixpoint encode (v : value) : bytes :=
  match v with
  | VInt z => ["i"%byte] ++ dec_Z z ++ ["e"%byte]
  | VBytes s => encode_bytes s
  | VList l => ["l"%byte] ++ concat (map encode l) ++ ["e"%byte]
  | VDict d =>
      ["d"%byte] ++ concat (map (fun kv => encode_bytes (fst kv) ++ encode (snd kv)) d) ++ ["e"%byte]
  end.

(** Strictly ascending keys. *)
Fixpoint ascending (ks : list bytes) : Prop :=
  match ks with
  | k1 :: ((k2 :: _) as r) => bytes_ltb k1 k2 = true /\ ascending r
  | _ => True
  end.

(** Every dictionary, at every level, has strictly ascending keys. *)
Fixpoint canonical (v : value) : Prop :=
  match v with
  | VInt _ | VBytes _ => True
  | VList l => fold_right (fun x P => canonical x /\ P) True l
  | VDict d => ascending (map fst d) /\ fold_right (fun kv P => canonical (snd kv) /\ P) True d
  end.

(** Nesting depth: number of lists/dictionaries around the deepest item. *)
Fixpoint depth (v : value) : nat :=
  match v with
  | VInt _ | VBytes _ => 0
  | VList l => S (fold_right (fun x m => Nat.max (depth x) m) O l)
  | VDict d => S (fold_right (fun kv m => Nat.max (depth (snd kv)) m) O d)
  end.

(** Value of a key. *)
Fixpoint lookup (k : bytes) (d : list (bytes * value)) : option value :=
  match d with
  | [] => None
  | (k', v) :: r => if bytes_eqb k k' then Some v else lookup k r
  end.
