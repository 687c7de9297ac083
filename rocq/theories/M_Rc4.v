(** RC4, as computed by the rc4 crate, and modular exponentiation, as computed by
    num_bigint's [modpow], both used in src/peer/msepe.rs.  Third-party code: these are
    the standard algorithms. *)
From Verif Require Import Base.

Record rc4 := mkRc4 { r_s : list N; r_i : N; r_j : N }.
Definition at_ (l : list N) (i : N) : N := nth (N.to_nat i) l 0.
Fixpoint upd (l : list N) (n : nat) (v : N) : list N :=
  match l, n with
  | [], _ => []
  | _ :: r, O => v :: r
  | x :: r, S n' => x :: upd r n' v
  end.
Definition swap (l : list N) (i j : N) : list N :=
  let a := at_ l i in let b := at_ l j in upd (upd l (N.to_nat i) b) (N.to_nat j) a.

(** Rc4::new_from_slice *)
Definition rc4_init (key : bytes) : rc4 :=
  let step (st : list N * N) (i : N) :=
    let (s, j) := st in
    let j' := (j + at_ s i + b2n (nth (N.to_nat (i mod blen key)) key x00)) mod 256 in
    (swap s i j', j') in
  let idx := map N.of_nat (seq 0 256) in
  mkRc4 (fst (fold_left step idx (idx, 0))) 0 0.
Definition rc4_next (st : rc4) : N * rc4 :=
  let i := (r_i st + 1) mod 256 in
  let j := (r_j st + at_ (r_s st) i) mod 256 in
  let s := swap (r_s st) i j in
  (at_ s ((at_ s i + at_ s j) mod 256), mkRc4 s i j).
(** StreamCipher::apply_keystream *)
Fixpoint rc4_apply (st : rc4) (b : bytes) : bytes * rc4 :=
  match b with
  | [] => ([], st)
  | x :: r => let (k, st1) := rc4_next st in let (r', st2) := rc4_apply st1 r in (n2b (N.lxor (b2n x) k) :: r', st2)
  end.

(** BigUint::modpow: square and multiply *)
Fixpoint modpow_pos (b : N) (e : positive) (m : N) : N :=
  match e with
  | xH => b mod m
  | xO e' => let h := modpow_pos b e' m in (h * h) mod m
  | xI e' => let h := modpow_pos b e' m in ((h * h) mod m * b) mod m
  end.
Definition modpow (b e m : N) : N := match e with 0 => 1 mod m | Npos p => modpow_pos b p m end.
