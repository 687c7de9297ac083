(** Specification: why fetching the metadata from a peer failed, from the TCP connection on
    (continues S_Reason). *)
From Verif Require Import Base S_Wire S_Session S_Reason S_Mse S_GetInfo M_Net M_Torrent M_Peer M_Session M_Extensions M_Messages M_Rc4 M_Mse M_Frame M_GetInfo.

(** Neither do the bytes [s] make a connection nor do they rule one out. *)
Definition undecided (ih s : bytes) : Prop := (forall x, ~ no_connection ih s Silent x) /\ (forall size t, ~ connection ih s size t).
(** All that is read. *)
Definition all_bytes (l : script) : bytes := concat (fst (pieces l)).
Definition ends (l : script) : ending := snd (pieces l).
(** The stream [l] is still undecided at [deadline]; it decrypts as [dec] says. *)
Definition undecided_at (ih : bytes) (deadline : N) (dec : bytes -> bytes) (l : script) : Prop :=
  exists used after, l = used ++ after /\ only_data used /\ split_at deadline used after /\ undecided ih (dec (data used)).

(** No TCP connection *)
Inductive no_tcp (limit : N) (d : dial) : peer_error -> Prop :=
| nt_error t x : d_tcp d = Some (t, Err x) -> t <= limit -> no_tcp limit d x
| nt_late : (forall t r, d_tcp d = Some (t, r) -> limit < t) -> no_tcp limit d ConnectTimeout.
(** Why an attempt without encryption, begun at [now], failed *)
Inductive plain_failed (ih : bytes) (limit now : N) (d : dial) : peer_error -> Prop :=
| pf_tcp x : no_tcp limit d x -> plain_failed ih limit now d x
| pf_late t0 : d_tcp d = Some (t0, Ok tt) -> t0 <= limit -> undecided_at ih (now + limit) (fun b => b) (d_reads d) -> plain_failed ih limit now d ConnectTimeout
| pf_failure t0 x : d_tcp d = Some (t0, Ok tt) -> t0 <= limit -> failure ih (all_bytes (d_reads d)) (ends (d_reads d)) x -> plain_failed ih limit now d x.

(** The peer sends its key in time and then, under the cipher (S_Mse), a reply and [payload]. *)
Definition sends_under_key (ih : bytes) (start secs : N) (key : bytes) (reads : script) (payload : bytes) (e : ending) : Prop :=
  exists before after padd, reads = before ++ after /\ only_data before /\ split_at (start + ns secs) before after /\
    96 <= blen (data before) <= 608 /\ blen padd < 65536 /\
    all_bytes after = fst (rc4_apply (cipher (bs "keyB") (shared (firstn 96 (data before)) (be_val key)) ih) (packet4 padd ++ payload)) /\
    ends after = e.
(** Why an attempt with encryption, begun at [now], failed.  [handshake]: how the encryption
    handshake goes (C44 - C46). *)
Inductive crypto_failed (ih : bytes) (limit secs now : N) (d : dial) : peer_error -> Prop :=
| cf_tcp x : no_tcp limit d x -> crypto_failed ih limit secs now d x
| cf_handshake t0 o t y : d_tcp d = Some (t0, Ok tt) -> t0 <= limit ->
    handshake ih secs (d_pada d) (d_padc d) (d_key d) (now + t0) (d_reads d) = (o, HFail t y) -> t <= now + limit -> crypto_failed ih limit secs now d ECryptoHandshake
| cf_late t0 o r : d_tcp d = Some (t0, Ok tt) -> t0 <= limit ->
    handshake ih secs (d_pada d) (d_padc d) (d_key d) (now + t0) (d_reads d) = (o, r) ->
    match r with
    | HWait => True
    | HFail t _ => now + limit < t
    | HDone t ks rest later => now + limit < t \/ undecided_at ih (now + limit) (fun b => fst (ks_decode ks (rest ++ b))) later
    | HPanic => False
    end -> crypto_failed ih limit secs now d ConnectTimeout
| cf_failure t0 payload e x : d_tcp d = Some (t0, Ok tt) -> t0 + ns secs <= limit ->
    sends_under_key ih (now + t0) secs (d_key d) (d_reads d) payload e -> failure ih payload e x -> crypto_failed ih limit secs now d x.

(** The settings rule out every connection to a peer that requires encryption. *)
Definition excludes (override : option crypto_mode) (p : crypto_pref) (requires : bool) : Prop :=
  requires = true /\ (override = Some Plain \/ (override = None /\ p = CPNever)).
(** Why the fetch failed, the attempts made being [l] ([true]: encrypted). *)
Inductive fetch_failed (ih : bytes) (override : option crypto_mode) (p : crypto_pref) (requires : bool) (limit secs now : N) (enc plain : dial) :
    list bool -> peer_error -> Prop :=
| fx_excluded : excludes override p requires -> fetch_failed ih override p requires limit secs now enc plain [] CantRequireCrypto
| fx_plain x : avoids_encryption override p requires -> plain_failed ih limit now plain x -> fetch_failed ih override p requires limit secs now enc plain [false] x
| fx_crypto x : wants_encryption override p requires -> crypto_failed ih limit secs now enc x -> (prefers_encryption override p requires -> x <> ECryptoHandshake) ->
    fetch_failed ih override p requires limit secs now enc plain [true] x
| fx_both t0 o t y x : prefers_encryption override p requires -> d_tcp enc = Some (t0, Ok tt) -> t0 <= limit ->
    handshake ih secs (d_pada enc) (d_padc enc) (d_key enc) (now + t0) (d_reads enc) = (o, HFail t y) -> t <= now + limit ->
    plain_failed ih limit t plain x -> fetch_failed ih override p requires limit secs now enc plain [true; false] x.
