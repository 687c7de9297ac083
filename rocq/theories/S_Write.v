(** Specification vocabulary: the first write that does not succeed. *)
From Verif Require Import Base M_Write.

(** The first [k] writes succeed. *)
Definition succeed (ws : writes) (k : nat) : Prop := forall j, (j < k)%nat -> nth j ws WOk = WOk.
(** The write with number [k] (from 0) is the first not to succeed, and ends as [w]. *)
Definition first_bad (ws : writes) (k : nat) (w : wres) : Prop := succeed ws k /\ nth k ws WOk = w /\ w <> WOk.
