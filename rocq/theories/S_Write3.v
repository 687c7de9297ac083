(** Specification: why fetching the metadata from a peer failed, writes to it included (continues
    S_Reason2). *)
From Verif Require Import Base S_Wire S_Session S_Reason S_Mse S_GetInfo S_Reason2 M_Net M_Torrent M_Peer M_Session M_Mse M_GetInfo M_Write.

(** The error a write leads to that fails, or never ends *)
Definition write_failed (ws : writes) (x : peer_error) : Prop := (In WFail ws /\ x = ESend) \/ (In WStall ws /\ x = ConnectTimeout).
(** Why an attempt, without or with encryption, failed *)
Definition plain_failed_w (ih : bytes) (limit now : N) (d : dial_w) (x : peer_error) : Prop :=
  plain_failed ih limit now (fst d) x \/ write_failed (snd d) x.
Definition crypto_failed_w (ih : bytes) (limit secs now : N) (d : dial_w) (x : peer_error) : Prop :=
  crypto_failed ih limit secs now (fst d) x \/ write_failed (snd d) x \/ (In WFail (snd d) /\ x = ECryptoHandshake).
(** Why the fetch failed, the attempts made being [l] (S_Reason2.fetch_failed) *)
Inductive fetch_failed_w (ih : bytes) (override : option crypto_mode) (p : crypto_pref) (requires : bool) (limit secs now : N) (enc plain : dial_w) :
    list bool -> peer_error -> Prop :=
| fw_excluded : excludes override p requires -> fetch_failed_w ih override p requires limit secs now enc plain [] CantRequireCrypto
| fw_plain x : avoids_encryption override p requires -> plain_failed_w ih limit now plain x -> fetch_failed_w ih override p requires limit secs now enc plain [false] x
| fw_crypto x : wants_encryption override p requires -> crypto_failed_w ih limit secs now enc x -> (prefers_encryption override p requires -> x <> ECryptoHandshake) ->
    fetch_failed_w ih override p requires limit secs now enc plain [true] x
| fw_both t0 o t y ws x : prefers_encryption override p requires -> d_tcp (fst enc) = Some (t0, Ok tt) -> t0 <= limit ->
    handshake_w ih secs (d_pada (fst enc)) (d_padc (fst enc)) (d_key (fst enc)) (snd enc) (now + t0) (d_reads (fst enc)) = (o, HFail t y, ws) -> t <= now + limit ->
    plain_failed_w ih limit t plain x -> fetch_failed_w ih override p requires limit secs now enc plain [true; false] x.
