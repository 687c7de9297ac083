(** Specification vocabulary for resolving a magnet when some peers never answer. *)
From Verif Require Import Base M_Nursery S_Nursery M_Resolve S_Resolve.

Section Quiet.
Context {T P A M : Type} (addr_eqb : A -> A -> bool) (addr : P -> A).
Context (announce : nat -> outcome (list P)) (fetch : P -> outcome (option M)).
(** The peers fetching from which never ends *)
Context (hang : P -> bool).
(** In what has been observed no such fetch has ended. *)
Definition never_ends (hP : list (obs P (option M))) : Prop := forall j r, In (j, r) (finished hP) -> hang (snd j) = false.
(** Nothing happens any more: all that could is the end of a fetch that never ends. *)
Definition quiet (s : rst T P A M) : Prop := forall e, rstep addr_eqb addr announce fetch s e <> None ->
  exists w j, e = Pe (KFinish w) /\ nth_error (n_workers (r_peers s)) w = Some (WRunning j) /\ hang (snd j) = true.
(** Fewer than [n] of the peers to try never answer: with trackers, peers at the same address
    count once. *)
Definition fewer_hang (n : nat) (trackers : list T) (dht : option (list P)) : Prop :=
  match trackers with
  | [] => exists found, dht = Some found /\ (length (filter hang found) < n)%nat
  | _ => exists bad : list A, (length bad < n)%nat /\ forall p, known trackers dht announce p -> hang p = true -> In (addr p) bad
  end.
End Quiet.
