(** Specification: a peer serving a torrent's metadata, with the times at which its bytes
    arrive. *)
From Verif Require Import Base S_Wire S_Download S_Session S_Mse M_Net M_Peer M_Session M_Extensions M_Messages M_Rc4 M_Mse M_Frame M_GetInfo.

(** The peer's opening: its handshake and an extended handshake offering metadata exchange. *)
Definition greeting (ih g : bytes) : Prop :=
  exists h0 reserved w0 f0 shake c, g = h0 ++ w0 /\ hello ih reserved h0 /\ advertises reserved Bep10 /\
    framed f0 w0 /\ frame_says 42 f0 (ExtHandshake shake) /\ offers shake c /\ 0 < c.
Definition begins_with (g s : bytes) : Prop := exists more, s = g ++ more.
Definition all_by (time : N) (l : script) : Prop := forall e, In e l -> fst e <= time.

(** Over a connection established at [t0], the peer's opening arrives by [deadline] and all
    it sends, however it ends, serves [meta]. *)
Definition serves_plain (ih meta : bytes) (deadline : N) (reads : script) : Prop :=
  exists opening later g, reads = opening ++ later /\ only_data opening /\ all_by deadline opening /\
    greeting ih g /\ begins_with g (data opening) /\ honest_stream ih meta (data opening ++ concat (fst (pieces later))).
(** The encryption protocol's reply (S_Mse) and [meta], under the cipher of [secret]; the
    reply and the opening are in [opening]. *)
Definition under_cipher (ih meta secret : bytes) (opening later : script) : Prop :=
  exists padd payload g, blen padd < 65536 /\
    data opening ++ concat (fst (pieces later)) = fst (rc4_apply (cipher (bs "keyB") secret ih) (packet4 padd ++ payload)) /\
    greeting ih g /\ begins_with g payload /\ (length (packet4 padd ++ g) <= length (data opening))%nat /\
    honest_stream ih meta payload.
(** The same by a peer that conforms to the encryption protocol: it sends its key in time,
    and then its reply and all the rest under its cipher.  [start]: when the handshake
    starts; [secs]: the key-exchange timeout; [key]: our private key. *)
Definition serves_encrypted (ih meta : bytes) (start secs deadline : N) (key : bytes) (reads : script) : Prop :=
  exists before opening later xb padb,
    reads = before ++ opening ++ later /\ only_data before /\ only_data opening /\
    split_at (start + ns secs) before (opening ++ later) /\ all_by deadline opening /\
    data before = public xb ++ padb /\ (length padb <= 512)%nat /\
    under_cipher ih meta (shared (public (be_val key)) xb) opening later.
(** What is taken for such a peer: the first 96 of 96 to 608 bytes are read as its public
    key, however they have been chosen. *)
Definition serves_under_key (ih meta : bytes) (start secs deadline : N) (key : bytes) (reads : script) : Prop :=
  exists before opening later,
    reads = before ++ opening ++ later /\ only_data before /\ only_data opening /\
    split_at (start + ns secs) before (opening ++ later) /\ all_by deadline opening /\
    96 <= blen (data before) <= 608 /\
    under_cipher ih meta (shared (firstn 96 (data before)) (be_val key)) opening later.

(** An encrypted connection is called for. *)
Definition wants_encryption (override : option crypto_mode) (p : crypto_pref) (requires : bool) : Prop :=
  override = Some Encrypt \/ override = Some Prefer \/
  (override = None /\ (p = CPAlways \/ p = CPPrefer \/ (p = CPIfRequired /\ requires = true))).
(** ... is ruled out. *)
Definition avoids_encryption (override : option crypto_mode) (p : crypto_pref) (requires : bool) : Prop :=
  requires = false /\ (override = Some Plain \/ (override = None /\ (p = CPNever \/ p = CPIfRequired))).
(** ... is tried first. *)
Definition prefers_encryption (override : option crypto_mode) (p : crypto_pref) (requires : bool) : Prop :=
  requires = false /\ (override = Some Prefer \/ (override = None /\ p = CPPrefer)).

(** The peer serves [meta], in time, over connections of the kinds [l] ([true]: encrypted) the
    settings call for. *)
Definition obtainable (ih meta : bytes) (override : option crypto_mode) (p : crypto_pref) (requires : bool)
    (limit secs now : N) (enc plain : dial) (l : list bool) : Prop :=
  (l = [false] /\ avoids_encryption override p requires /\
   exists t0, d_tcp plain = Some (t0, Ok tt) /\ t0 <= limit /\ serves_plain ih meta (now + limit) (d_reads plain)) \/
  (l = [true] /\ wants_encryption override p requires /\
   exists t0, d_tcp enc = Some (t0, Ok tt) /\ (now + t0) / 1000000000 + secs < 2 ^ 63 /\ t0 + ns secs <= limit /\
     serves_under_key ih meta (now + t0) secs (now + limit) (d_key enc) (d_reads enc)) \/
  (* without encryption, once its handshake has failed *)
  (l = [true; false] /\ prefers_encryption override p requires /\
   exists t0 o t x t1, d_tcp enc = Some (t0, Ok tt) /\ t0 <= limit /\
     handshake ih secs (d_pada enc) (d_padc enc) (d_key enc) (now + t0) (d_reads enc) = (o, HFail t x) /\ t <= now + limit /\
     d_tcp plain = Some (t1, Ok tt) /\ t1 <= limit /\ serves_plain ih meta (t + limit) (d_reads plain)).
