(** Specification: what files hold after several tasks have used them, in whatever order
    their requests reach the operating system.  (POSIX; no symbolic links, and one name per
    file.) *)
From Verif Require Import Base S_Path M_Save.

(** The file a path denotes in the working directory [cwd]: the components of its absolute
    path, innermost first. *)
Definition place := list bytes.
Definition enter (dir : place) (c : bytes) : place :=
  if bytes_eqb c [] || bytes_eqb c (bs ".") then dir else if bytes_eqb c (bs "..") then tl dir else c :: dir.
Definition locate (cwd : place) (p : bytes) : place := fold_left enter (split_slash p) (if absolute p then [] else cwd).

Definition place_eq_dec : forall a b : place, {a = b} + {a <> b} := list_eq_dec (list_eq_dec Byte.byte_eq_dec).

(** [d_file]: what the files hold; [d_open]: the file the task has open, and the position in
    it where it will write next. *)
Record disk := mkDisk { d_file : place -> option bytes; d_open : nat -> option (place * nat) }.
Definition put (f : place -> option bytes) (q : place) (c : bytes) : place -> option bytes := fun x => if place_eq_dec x q then Some c else f x.
Definition reopen (o : nat -> option (place * nat)) (k : nat) (x : place * nat) : nat -> option (place * nat) := fun i => if Nat.eqb i k then Some x else o i.
(** Writing [chunk] at a position: what was there is replaced; a gap is filled with zeros. *)
Definition write_at (old : bytes) (pos : nat) (chunk : bytes) : bytes :=
  firstn pos old ++ repeat x00 (pos - length old) ++ chunk ++ skipn (pos + length chunk) old.

(** The request [o] of the task [k]. *)
Definition disk_step (cwd : place) (d : disk) (r : nat * op) : disk :=
  let '(k, o) := r in
  match o with
  | OMkdirs _ | OStdout _ => d
  | OCreate p => mkDisk (put (d_file d) (locate cwd p) []) (reopen (d_open d) k (locate cwd p, 0%nat))
  | OWrite _ chunk =>
      match d_open d k with
      | Some (q, pos) =>
          mkDisk (put (d_file d) q (write_at (match d_file d q with Some old => old | None => [] end) pos chunk))
                 (reopen (d_open d) k (q, (pos + length chunk)%nat))
      | None => d
      end
  end.
Definition disk_run (cwd : place) (f : place -> option bytes) (log : list (nat * op)) : disk :=
  fold_left (disk_step cwd) log (mkDisk f (fun _ => None)).
(** What the files hold in the end *)
Definition files_after (cwd : place) (f : place -> option bytes) (log : list (nat * op)) : place -> option bytes := d_file (disk_run cwd f log).
(** What has been written to standard output *)
Definition on_stdout (log : list (nat * op)) : bytes := concat (map (fun r => match snd r with OStdout c => c | _ => [] end) log).
