(** Specification: what a list of operations leaves behind. *)
From Verif Require Import Base M_Save S_Get.

(** The path "-" stands for standard output.  The bytes are printed and no file changes, or
    they are the whole contents of that file afterwards, whatever the files were before,
    nothing is printed and no other file changes. *)
Definition leaves (ops : list op) (path contents : bytes) : Prop :=
  (path = bs "-" /\ printed ops = contents /\ forall f, fs_run f ops = f) \/
  (path <> bs "-" /\ printed ops = [] /\
   forall f, fs_run f ops path = Some contents /\ forall q, q <> path -> fs_run f ops q = f q).
