(** Specification: the responder's side of Message Stream Encryption
    (wiki.vuze.com/w/Message_Stream_Encryption).  A is the initiator, B the responder.
    HASH is SHA-1 and RC4 the cipher (M_Sha1, M_Rc4: the standard algorithms). *)
From Verif Require Import Base M_Sha1 M_Rc4 M_Mse.

(** P, and the generator 2.  P is the 768-bit prime of the protocol. *)
Definition P : N :=
  0xFFFFFFFFFFFFFFFFC90FDAA22168C234C4C6628B80DC1CD129024E088A67CC74020BBEA63B139B22514A08798E3404DDEF9519B3CD3A431B302B0A6DF25F14374FE1356D6D51C245E485B576625E7EC6F44C42E9A63A36210000000000090563.
Definition key_bytes (n : N) : bytes := be_bytes 96 n.
(** Y = 2^X mod P;  S = Y^X mod P *)
Definition public (x : N) : bytes := key_bytes (2 ^ x mod P).
Definition shared (y : bytes) (x : N) : bytes := key_bytes (be_val y ^ x mod P).
(** RC4 keyed with HASH(label, S, SKEY), the first 1024 bytes discarded *)
Definition cipher (label : bytes) (secret skey : bytes) : rc4 :=
  snd (rc4_apply (rc4_init (sha1 (label ++ secret ++ skey))) (repeat x00 (N.to_nat 1024))).

Definition zeros (n : nat) : bytes := repeat x00 n.
Definition with_len (b : bytes) : bytes := be_bytes 2 (blen b) ++ b.
Definition xor (a b : bytes) : bytes := map (fun p => n2b (N.lxor (b2n (fst p)) (b2n (snd p)))) (combine a b).
(** B's view of packet 3, given secret S and torrent [skey]: it is addressed to that
    torrent and carries A's offer [provide] and initial payload [ia]; [st]: B's incoming
    cipher after it. *)
Definition reads_packet3 (secret skey p3 : bytes) (provide : N) (ia : bytes) (st : rc4) : Prop :=
  exists padc enc, p3 = sha1 (bs "req1" ++ secret) ++ xor (sha1 (bs "req2" ++ skey)) (sha1 (bs "req3" ++ secret)) ++ enc /\
    (length padc <= 512)%nat /\
    rc4_apply (cipher (bs "keyA") secret skey) enc =
      (zeros 8 ++ be_bytes 4 provide ++ with_len padc ++ with_len ia, st).
(** What B sends then, in clear: select RC4, pad, and its payload. *)
Definition packet4 (padd : bytes) : bytes := zeros 8 ++ be_bytes 4 2 ++ with_len padd.

(** The bytes of a script that only delivers data. *)
Definition data_of (e : N * read_result) : bytes := match snd e with RData b => b | _ => [] end.
Definition data (l : script) : bytes := concat (map data_of l).
Definition only_data (l : script) : Prop := forall t r, In (t, r) l -> exists b, r = RData b.
(** All reads of [before] finish by the deadline [d]; the first of [after] does not. *)
Definition split_at (d : N) (before after : script) : Prop :=
  (forall e, In e before -> fst e <= d) /\ (forall e r, after = e :: r -> d < fst e).

(** B's reply in clear, [p] being what A has of it so far: wrong beyond repair. *)
Definition conforming_reply (p padd payload : bytes) : Prop := blen padd < 65536 /\ p = packet4 padd ++ payload.
Definition wrong_reply (p : bytes) : Prop :=
  8 <= blen p /\ firstn 8 p <> zeros 8 \/ 12 <= blen p /\ firstn 4 (skipn 8 p) <> be_bytes 4 2.
(** Two ends of a handshake are the same up to the times and to which of the bytes after
    the handshake have been received already. *)
Definition same_end (r r' : hs_out) : Prop :=
  match r, r' with
  | HDone _ ks rest later, HDone _ ks' rest' later' => ks = ks' /\ rest ++ data later = rest' ++ data later'
  | HFail _ e, HFail _ e' => e = e'
  | HWait, HWait => True
  | _, _ => False
  end.

(** *** Histories of the encrypted stream: each operation with what the socket does *)
Inductive op := OpRead (room : N) (sock : option bytes) | OpWrite (b : bytes) | OpFlush (sock : list N).
(** [received]/[sent]: bytes through the socket; [read]/[written]: bytes through the stream *)
Record traffic := mkTraffic { received : bytes; read : bytes; written : bytes; sent : bytes }.
Definition opt (o : option bytes) : bytes := match o with Some b => b | None => [] end.
Fixpoint perform (s : estream) (l : list op) : traffic * estream :=
  match l with
  | [] => (mkTraffic [] [] [] [], s)
  | OpRead n sock :: r =>
      let got := match e_rbuf s with [] => opt sock | _ => [] end in
      let (p, s1) := poll_read s n sock in
      let (t, s2) := perform s1 r in
      (mkTraffic (got ++ received t) (opt p ++ read t) (written t) (sent t), s2)
  | OpWrite b :: r =>
      let (t, s2) := perform (poll_write s b) r in
      (mkTraffic (received t) (read t) (b ++ written t) (sent t), s2)
  | OpFlush sock :: r =>
      let (o, s1) := poll_flush s sock in
      let (t, s2) := perform s1 r in
      (mkTraffic (received t) (read t) (written t) (o ++ sent t), s2)
  end.
