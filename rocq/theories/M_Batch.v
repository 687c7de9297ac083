(** Model of src/main.rs:234-282, the batch command: the main task and the pool of download
    jobs, as a transition system over the pool of M_Nursery. *)
From Verif Require Import Base M_Nursery M_Resolve.

Section Batch.
Context {Mg : Type}.
(** What download_torrent_file (magnet.rs:105-113) yields for the magnet submitted as number
    [k]: whether it succeeded, i.e. the file was saved; Panic: it panics. *)
Context (download : nat -> outcome bool).

(** [BSpawn]: submitting jobs (:251-265); [BRecv]: in outputs.next().await (:268), the counts
    so far (usize; the number of magnets in memory bounds them); BExit: ExitCode::SUCCESS
    or FAILURE was returned *)
Inductive bmain := BSpawn (rest : list Mg) | BRecv (success total : nat) | BExit (ok : bool) | BPanicked.
Record bst := mkB { b_main : bmain; b_pool : nst Mg bool }.
(** :235-250 [parsed]: the result of parse_magnets_file; [n]: batch_jobs *)
Definition b_start {E} (n : nat) (parsed : res E (list Mg)) : bst :=
  match parsed with
  | Err _ => mkB (BExit false) (new n)
  | Ok [] => mkB (BExit true) (new n)
  | Ok ms => mkB (BSpawn ms) (new n)
  end.
Inductive bev := BMain | BWork (e : wev).
Definition bstep (s : bst) (e : bev) : option (bst * list (obs Mg bool)) :=
  match e with
  | BWork w => match wstep (fun j => download (fst j)) (b_pool s) w with Some (p, o) => Some (mkB (b_main s) p, o) | None => None end
  | BMain =>
      match b_main s with
      | BSpawn (m :: rest) =>  (* .spawn(..).expect(..) *)
          match nstep (b_pool s) (Spawn m) with
          | Some (p, o) => Some (mkB match o with [OAccept _] => BSpawn rest | _ => BPanicked end p, o)
          | None => None
          end
      | BSpawn [] =>  (* drop(nursery) *)
          match nstep (b_pool s) DropHandle with Some (p, o) => Some (mkB (BRecv 0 0) p, o) | None => None end
      | BRecv success total =>
          match nstep (b_pool s) Recv with
          | Some (p, o) =>
              let m := match o with
                       | [ODeliver _ (Ret b)] => BRecv (if b then S success else success) (S total)
                       | _ => BPanicked
                       end in
              Some (mkB m p, o)
          | None =>
              match nstep (b_pool s) End with
              | Some (p, o) => Some (mkB (BExit (Nat.eqb success total)) p, o)
              | None => None
              end
          end
      | BExit _ | BPanicked => None
      end
  end.
Fixpoint brun (s : bst) (l : list bev) : option (bst * list (obs Mg bool)) :=
  match l with
  | [] => Some (s, [])
  | e :: l' =>
      match bstep s e with
      | Some (s1, o1) => match brun s1 l' with Some (s2, o2) => Some (s2, o1 ++ o2) | None => None end
      | None => None
      end
  end.
End Batch.
Arguments bmain Mg : clear implicits.
Arguments bst Mg : clear implicits.
