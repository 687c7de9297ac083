(** Specification: obtaining a torrent's metadata from a peer although writes to it may fail or
    never end. *)
From Verif Require Import Base S_Wire S_Download S_Session S_Mse M_Net M_Peer M_Session M_Extensions M_Messages M_Rc4 M_Mse M_Frame M_GetInfo S_GetInfo M_Write S_Write.

(** How many messages are sent to a peer (C91 says which) if every write succeeds, whose bytes
    arrive as [reads] says ... *)
Definition messages (ih pid : bytes) (i : ip) (reads : script) : nat :=
  length (fst (session ih pid i (fst (pieces reads)) (snd (pieces reads)))).
(** ... and how many writes that is if the connection is encrypted. *)
Definition messages_encrypted (ih pid : bytes) (i : ip) (secs start : N) (d : dial) : nat :=
  match handshake ih secs (d_pada d) (d_padc d) (d_key d) start (d_reads d) with
  | (o, HDone t ks rest later) => length o + messages ih pid i (decrypted ks (match rest with [] => later | _ => (t, RData rest) :: later end))
  | (o, _) => length o
  end.
(** S_GetInfo.obtainable, every write needed succeeding *)
Definition obtainable_w (ih pid : bytes) (i : ip) (meta : bytes) (override : option crypto_mode) (p : crypto_pref) (requires : bool)
    (limit secs now : N) (enc plain : dial_w) (l : list bool) : Prop :=
  let serves start := exists t0, d_tcp (fst plain) = Some (t0, Ok tt) /\ t0 <= limit /\
    serves_plain ih meta (start + limit) (d_reads (fst plain)) /\ succeed (snd plain) (messages ih pid i (d_reads (fst plain))) in
  (l = [false] /\ avoids_encryption override p requires /\ serves now) \/
  (l = [true] /\ wants_encryption override p requires /\
   exists t0, d_tcp (fst enc) = Some (t0, Ok tt) /\ (now + t0) / 1000000000 + secs < 2 ^ 63 /\ t0 + ns secs <= limit /\
     serves_under_key ih meta (now + t0) secs (now + limit) (d_key (fst enc)) (d_reads (fst enc)) /\
     succeed (snd enc) (messages_encrypted ih pid i secs (now + t0) (fst enc))) \/
  (* without encryption, once its handshake has failed, be it in a write *)
  (l = [true; false] /\ prefers_encryption override p requires /\
   exists t0 o t x ws, d_tcp (fst enc) = Some (t0, Ok tt) /\ t0 <= limit /\
     handshake_w ih secs (d_pada (fst enc)) (d_padc (fst enc)) (d_key (fst enc)) (snd enc) (now + t0) (d_reads (fst enc)) = (o, HFail t x, ws) /\ t <= now + limit /\
     serves t).
