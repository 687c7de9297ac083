(** Message stream encryption: src/peer/msepe.rs. *)
From Verif Require Import Base M_Sha1 M_Rc4.

(** src/peer/msepe.rs:26-30 *)
Definition MODULUS_BYTES : nat := 96.
Definition MIN_PACKET2_LEN : N := 96.
Definition MAX_PACKET2_LEN : N := 608.
(** src/peer/msepe.rs:540-551 prime_modulus *)
Definition prime_modulus : N :=
  0xffffffffffffffffc90fdaa22168c234c4c6628b80dc1cd129024e088a67cc74020bbea63b139b22514a08798e3404ddef9519b3cd3a431b302b0a6df25f14374fe1356d6d51c245e485b576625e7ec6f44c42e9a63a36210000000000090563.
(** src/peer/msepe.rs:553-566 biguint2bytes; every number given to it is a residue, so
    fits (the debug assertion) *)
Definition biguint2bytes (n : N) : bytes := be_bytes MODULUS_BYTES n.

(** src/peer/msepe.rs:32-61 CryptoMethod, CryptoMethodSet; 24 DEFAULT_CRYPTO_PROVIDE *)
Inductive crypto_method := CPlaintext | CRc4.
Definition method_code (m : crypto_method) : N := match m with CPlaintext => 1 | CRc4 => 2 end.
(** TryFromPrimitive: the method with that code *)
Definition method_of (n : N) : option crypto_method := find (fun m => method_code m =? n) [CPlaintext; CRc4].
Definition method_set (l : list crypto_method) : N := fold_left (fun acc m => N.lor acc (method_code m)) l 0.
Definition DEFAULT_CRYPTO_PROVIDE : N := method_set [CRc4].
Definition set_contains (s : N) (m : crypto_method) : bool := negb (N.land s (method_code m) =? 0).

(** src/peer/msepe.rs:375-400 Keystream; the pair is outgoing, incoming *)
Inductive keystream := KPlaintext | KRc4 (outgoing incoming : rc4).
Definition ks_encode (k : keystream) (b : bytes) : bytes * keystream :=
  match k with
  | KPlaintext => (b, k)
  | KRc4 o i => let (b', o') := rc4_apply o b in (b', KRc4 o' i)
  end.
Definition ks_decode (k : keystream) (b : bytes) : bytes * keystream :=
  match k with
  | KPlaintext => (b, k)
  | KRc4 o i => let (b', i') := rc4_apply i b in (b', KRc4 o i')
  end.

(** src/peer/msepe.rs:326-353 HandshakeState, Packet4State *)
Inductive packet4_state := Vc | Select | LenPadD (m : crypto_method) | PadD (m : crypto_method) (needed : N).
Inductive hs_state := Packet2 (private_key : N) | Packet4 (ks : keystream) (sub : packet4_state) | Done (ks : keystream).
(** src/peer/msepe.rs:355-373 HandshakeError *)
Inductive hs_error := Packet2Len (n : N) | VcNotZero | SelectNotSingle (n : N) | UnknownMethod (n : N)
  | UnexpectedSelection (m : crypto_method) | HRecv | HDisconnect | HSend.
(** src/peer/msepe.rs:120-129 Handshaker (field [peer] only serves logging) *)
Record shaker := mkShaker {
  h_state : hs_state; h_output : option bytes; h_padc_len : N; h_skey : bytes;
  h_timeout : option N; h_input : bytes; h_provide : N }.

(** src/peer/msepe.rs:98-118 HandshakeBuilder::build; 529-538 gen_private_key.  Random
    choices are arguments: [pada] (at most 512 bytes), [padc_len] (at most 512), [key]
    (20 bytes).  [secs]: the timeout in seconds. *)
Definition build (skey : bytes) (secs : N) (pada : bytes) (padc_len : N) (key : bytes) : shaker :=
  let private_key := be_val key in
  let pubkey := modpow 2 private_key prime_modulus in
  mkShaker (Packet2 private_key) (Some (biguint2bytes pubkey ++ pada)) padc_len skey (Some secs) [] DEFAULT_CRYPTO_PROVIDE.

(** u32::count_ones *)
Fixpoint ones_pos (p : positive) : N := match p with xH => 1 | xO p' => ones_pos p' | xI p' => 1 + ones_pos p' end.
Definition count_ones (n : N) : N := match n with 0 => 0 | Npos p => ones_pos p end.
Definition splitN (n : N) (b : bytes) : bytes * bytes := (firstn (N.to_nat n) b, skipn (N.to_nat n) b).

(** src/peer/msepe.rs:141-212 handle_input: the loop, entered at each substate.  The
    substates only advance, so the loop is these four functions, each going on with the
    next.  Result: the new state and what is left in the input buffer. *)
Definition in_padd (ks : keystream) (m : crypto_method) (needed : N) (buf : bytes) : res hs_error (hs_state * bytes) :=
  let sz := N.min needed (blen buf) in
  let (padd, rest) := splitN sz buf in
  let (_, ks') := ks_decode ks padd in
  let needed' := needed - sz in
  if needed' =? 0 then Ok (Done (match m with CPlaintext => KPlaintext | CRc4 => ks' end), rest)
  else Ok (Packet4 ks' (PadD m needed'), rest).
Definition in_len (ks : keystream) (m : crypto_method) (buf : bytes) : res hs_error (hs_state * bytes) :=
  if blen buf <? 2 then Ok (Packet4 ks (LenPadD m), buf)
  else
    let (b, rest) := splitN 2 buf in
    let (b', ks') := ks_decode ks b in
    in_padd ks' m (be_val b') rest.
Definition in_select (provide : N) (ks : keystream) (buf : bytes) : res hs_error (hs_state * bytes) :=
  if blen buf <? 4 then Ok (Packet4 ks Select, buf)
  else
    let (b, rest) := splitN 4 buf in
    let (b', ks') := ks_decode ks b in
    let cs := be_val b' in
    if negb (count_ones cs =? 1) then Err (SelectNotSingle (count_ones cs))
    else
      match method_of cs with
      | None => Err (UnknownMethod cs)
      | Some m => if negb (set_contains provide m) then Err (UnexpectedSelection m) else in_len ks' m rest
      end.
Definition in_vc (provide : N) (ks : keystream) (buf : bytes) : res hs_error (hs_state * bytes) :=
  if blen buf <? 8 then Ok (Packet4 ks Vc, buf)
  else
    let (b, rest) := splitN 8 buf in
    let (b', ks') := ks_decode ks b in
    if negb (forallb (Byte.eqb x00) b') then Err VcNotZero else in_select provide ks' rest.
Definition set_input (s : shaker) (st : hs_state) (buf : bytes) : shaker :=
  mkShaker st (h_output s) (h_padc_len s) (h_skey s) (h_timeout s) buf (h_provide s).
Definition handle_input (s : shaker) (b : bytes) : res hs_error shaker :=
  let buf := h_input s ++ b in
  match h_state s with
  | Packet4 ks sub =>
      let? (st, rest) := match sub with
                         | Vc => in_vc (h_provide s) ks buf
                         | Select => in_select (h_provide s) ks buf
                         | LenPadD m => in_len ks m buf
                         | PadD m needed => in_padd ks m needed buf
                         end in
      Ok (set_input s st rest)
  | st => Ok (set_input s st buf)
  end.

(** iter::zip(hash2, hash3).map(xor) *)
Definition xor_bytes (a b : bytes) : bytes := map (fun p => n2b (N.lxor (b2n (fst p)) (b2n (snd p)))) (combine a b).
(** src/peer/msepe.rs:222-305 handle_timeout *)
Definition handle_timeout (s : shaker) : res hs_error shaker :=
  match h_state s with
  | Packet2 private_key =>
      let packet2 := h_input s in
      let sz := blen packet2 in
      if negb ((MIN_PACKET2_LEN <=? sz) && (sz <=? MAX_PACKET2_LEN)) then Err (Packet2Len sz)
      else
        let server_pubkey := be_val (firstn MODULUS_BYTES packet2) in
        let secret := biguint2bytes (modpow server_pubkey private_key prime_modulus) in
        let skey := h_skey s in
        let rc4_outgoing := rc4_init (sha1 (bs "keyA" ++ secret ++ skey)) in
        let rc4_incoming := rc4_init (sha1 (bs "keyB" ++ secret ++ skey)) in
        let deadhead := repeat x00 (N.to_nat 1024) in
        let (deadhead1, rc4_outgoing1) := rc4_apply rc4_outgoing deadhead in
        let (_, rc4_incoming1) := rc4_apply rc4_incoming deadhead1 in
        let hash2 := sha1 (bs "req2" ++ skey) in
        let hash3 := sha1 (bs "req3" ++ secret) in
        let outgoing := repeat x00 8 ++ be_bytes 4 (h_provide s) ++ be_bytes 2 (h_padc_len s)
                        ++ repeat x00 (N.to_nat (h_padc_len s)) ++ be_bytes 2 0 in
        let (outgoing1, rc4_outgoing2) := rc4_apply rc4_outgoing1 outgoing in
        let packet3 := sha1 (bs "req1" ++ secret) ++ xor_bytes hash2 hash3 ++ outgoing1 in
        Ok (mkShaker (Packet4 (KRc4 rc4_outgoing2 rc4_incoming1) Vc) (Some packet3) (h_padc_len s) skey
              (h_timeout s) [] (h_provide s))
  | _ => Ok s
  end.
(** src/peer/msepe.rs:307-324 done, into_keystream *)
Definition into_keystream (s : shaker) : option (keystream * bytes) :=
  match h_state s with Done ks => Some (ks, h_input s) | _ => None end.

(** Instant + Duration (std, Linux: seconds are i64): panics on overflow.  Times are
    nanoseconds of the monotonic clock. *)
Definition ns (secs : N) : N := secs * 1000000000.
Definition instant_add (now secs : N) : outcome N :=
  if now / 1000000000 + secs <? 2 ^ 63 then Ret (now + ns secs) else Panic.

(** What reading from the connection gives, and when: the results of successive reads of
    at most 65535 bytes, at non-decreasing times; after the last one, silence. *)
Inductive read_result := RData (b : bytes) | REof | RError.
Definition script := list (N * read_result).
(** How the handshake ends: established at [t] with the bytes already received and the
    reads still to come; failed; waiting for ever; or panicked. *)
Inductive hs_out := HDone (t : N) (ks : keystream) (rest : bytes) (later : script)
  | HFail (t : N) (e : hs_error) | HWait | HPanic.

(** src/peer/msepe.rs:416-468 EncryptedStream::handshake: the loop.  [now]: the time.
    Result: the packets written (with times) and the outcome.  [fuel]: see
    P_Mse2.loop_fuel for why [2 + length reads] iterations always suffice.
    Simplification: writing to the socket succeeds at once (a failure is
    HandshakeError::Send: M_Write). *)
Fixpoint hs_loop (fuel : nat) (s : shaker) (deadline : option N) (now : N) (reads : script)
  : list (N * bytes) * hs_out :=
  match fuel with
  | O => ([], HWait)
  | S fuel' =>
      match into_keystream s with
      | Some (ks, rest) => ([], HDone now ks rest reads)
      | None =>
          let out := match h_output s with Some b => [(now, b)] | None => [] end in
          match (match h_timeout s with
                 | Some secs => match instant_add now secs with Ret d => Ret (Some d) | Panic => Panic end
                 | None => Ret deadline
                 end) with
          | Panic => (out, HPanic)
          | Ret deadline' =>
              let s' := mkShaker (h_state s) None (h_padc_len s) (h_skey s) None (h_input s) (h_provide s) in
              let read (t : N) (r : read_result) (reads' : script) :=
                match r with
                | RData b =>
                    match handle_input s' b with
                    | Err e => ([], HFail t e)
                    | Ok s2 => hs_loop fuel' s2 deadline' t reads'
                    end
                | REof => ([], HFail t HDisconnect)
                | RError => ([], HFail t HRecv)
                end in
              let expire (d : N) :=
                match handle_timeout s' with
                | Err e => ([], HFail d e)
                | Ok s2 => hs_loop fuel' s2 None d reads
                end in
              let (out', r) :=
                match reads, deadline' with
                | (t, r) :: reads', Some d => if N.max now t <=? d then read (N.max now t) r reads' else expire d
                | (t, r) :: reads', None => read (N.max now t) r reads'
                | [], Some d => expire d
                | [], None => ([], HWait)
                end in
              (out ++ out', r)
          end
      end
  end.
Definition handshake (skey : bytes) (secs : N) (pada : bytes) (padc_len : N) (key : bytes) (now : N) (reads : script)
  : list (N * bytes) * hs_out :=
  hs_loop (3 + length reads) (build skey secs pada padc_len key) None now reads.

(** *** The stream after the handshake: src/peer/msepe.rs:470-523 *)
Record estream := mkES { e_ks : keystream; e_rbuf : bytes; e_wbuf : bytes }.
(** poll_read, with room for [n] bytes; [sock n]: what the socket's poll_read yields for
    room [n] (None: pending or error; nothing happens) *)
Definition poll_read (s : estream) (n : N) (sock : option bytes) : option bytes * estream :=
  match e_rbuf s with
  | _ :: _ =>
      let (b, rest) := splitN (N.min n (blen (e_rbuf s))) (e_rbuf s) in
      let (p, ks) := ks_decode (e_ks s) b in (Some p, mkES ks rest (e_wbuf s))
  | [] =>
      match sock with
      | None => (None, s)
      | Some b => let (p, ks) := ks_decode (e_ks s) b in (Some p, mkES ks [] (e_wbuf s))
      end
  end.
(** poll_write: all bytes are accepted *)
Definition poll_write (s : estream) (b : bytes) : estream :=
  let (c, ks) := ks_encode (e_ks s) b in mkES ks (e_rbuf s) (e_wbuf s ++ c).
(** poll_flush; [sock]: the numbers of bytes the socket's successive writes take (at most
    those offered); then it is pending or fails.  Result: the bytes written. *)
Fixpoint poll_flush (s : estream) (sock : list N) : bytes * estream :=
  match e_wbuf s, sock with
  | [], _ | _, [] => ([], s)
  | w, n :: sock' =>
      let (b, rest) := splitN n w in
      let (out, s') := poll_flush (mkES (e_ks s) (e_rbuf s) rest) sock' in
      (b ++ out, s')
  end.
