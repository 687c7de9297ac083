(** SHA-1 (FIPS 180-4), as computed by the sha1 crate used in
    src/torrent.rs:70,100,114 and src/peer/msepe.rs:525-527.
    The crate is third-party; this is the standard's algorithm.  Feeding a
    hasher in several [update] calls is modelled as hashing the concatenation. *)
From Verif Require Import Base.

Definition mask32 : N := 4294967295.
Definition add32 (a b : N) : N := N.land (a + b) mask32.
Definition rotl (k x : N) : N := N.land (N.lor (N.shiftl x k) (N.shiftr x (32 - k))) mask32.
Definition not32 (x : N) : N := N.lxor x mask32.

Definition sha1_pad (m : bytes) : bytes :=
  let len := blen m in
  m ++ [x80] ++ repeat x00 (N.to_nat ((119 - len mod 64) mod 64)) ++ be_bytes 8 (len * 8).

Fixpoint words (l : bytes) : list N :=
  match l with
  | a :: b :: c :: d :: r => be_val [a; b; c; d] :: words r
  | _ => []
  end.

(** Message schedule, newest word first. *)
Fixpoint sched (k : nat) (ws : list N) : list N :=
  match k with
  | O => ws
  | S k' =>
      let x := N.lxor (N.lxor (nth 2 ws 0) (nth 7 ws 0)) (N.lxor (nth 13 ws 0) (nth 15 ws 0)) in
      sched k' (rotl 1 x :: ws)
  end.

Definition sha_state := (N * N * N * N * N)%type.

Definition sha_round (t : N) (w : N) (st : sha_state) : sha_state :=
  let '(a, b, c, d, e) := st in
  let '(f, k) :=
    if t <? 20 then (N.lor (N.land b c) (N.land (not32 b) d), 1518500249)
    else if t <? 40 then (N.lxor (N.lxor b c) d, 1859775393)
    else if t <? 60 then (N.lor (N.lor (N.land b c) (N.land b d)) (N.land c d), 2400959708)
    else (N.lxor (N.lxor b c) d, 3395469782) in
  (add32 (add32 (add32 (rotl 5 a) f) (add32 e k)) w, a, rotl 30 b, c, d).

Fixpoint sha_rounds (t : N) (ws : list N) (st : sha_state) : sha_state :=
  match ws with
  | [] => st
  | w :: r => sha_rounds (t + 1) r (sha_round t w st)
  end.

Definition sha_block (st : sha_state) (blk : bytes) : sha_state :=
  let '(a, b, c, d, e) := st in
  let '(a', b', c', d', e') := sha_rounds 0 (rev (sched 64 (rev (words blk)))) st in
  (add32 a a', add32 b b', add32 c c', add32 d d', add32 e e').

Fixpoint sha_blocks (fuel : nat) (l : bytes) (st : sha_state) : sha_state :=
  match fuel, l with
  | S f, _ :: _ => sha_blocks f (skipn 64 l) (sha_block st (firstn 64 l))
  | _, _ => st
  end.

Definition sha1 (m : bytes) : bytes :=
  let p := sha1_pad m in
  let '(a, b, c, d, e) :=
    sha_blocks (length p) p (1732584193, 4023233417, 2562383102, 271733878, 3285377520) in
  be_bytes 4 a ++ be_bytes 4 b ++ be_bytes 4 c ++ be_bytes 4 d ++ be_bytes 4 e.
