(** src/peer/mod.rs:214-236 InfoGetter::connect: TCP connection and, if encrypted, the
    encryption handshake. *)
From Verif Require Import Base M_Torrent M_Peer M_Session M_Rc4 M_Mse.

(** [now]: when the attempt starts; [tcp]: when and how the TCP connection is made;
    [hs t]: the encryption handshake begun at [t]; [finish]: the rest of [connect].
    Times in the result are relative to [now]. *)
Definition connect_encrypted {C} (now : N) (tcp : timed (res peer_error unit)) (hs : N -> hs_out)
    (finish : N -> keystream -> bytes -> script -> timed (res peer_error C)) : outcome (timed (res peer_error C)) :=
  match tcp with
  | None => Ret None
  | Some (t0, Err e) => Ret (Some (t0, Err e))
  | Some (t0, Ok _) =>
      match hs (now + t0) with
      | HPanic => Panic
      | HWait => Ret None
      | HFail t e => Ret (Some (t - now, Err ECryptoHandshake))
      | HDone t ks rest later => Ret (finish t ks rest later)
      end
  end.
