(** Specification vocabulary: what query-tracker tells the tracker. *)
From Verif Require Import Base M_Tracker M_Config M_Session M_Mse.

Definition told_by_query (cfg : config) (pid : bytes) (key port : N) (require_crypto support_crypto no_crypto : bool) (ih : bytes) : announcement :=
  mkAnn ih pid 0 65535 0 EvStarted key (c_numwant cfg) port
    (if require_crypto then TCRequired else if support_crypto then TCSupported else if no_crypto then TCPlain
     else match c_encrypt cfg with CPAlways => TCRequired | CPNever => TCPlain | CPPrefer | CPIfRequired => TCSupported end).
