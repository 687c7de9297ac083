(** C106: writes to a peer that fail or never end.  See S_Write for [succeed], [first_bad], S_Write2 for [obtainable_w], S_Write3 for [fetch_failed_w]. *)
From Verif Require Import Base BaseFacts M_Net M_Torrent M_Peer M_Frame M_Session M_Rc4 M_Mse M_GetInfo S_GetInfo M_Sha1 M_Write S_Write S_Write2 S_Write3 S_Bencode S_Download
  P_Download P_Session P_GetInfo3 P_Write P_Write2 P_Write3 P_Write4 P_Write5.

(** An exchange is what it is if all writes succeed, up to the first write that does not: the
    messages before it have been sent, and nothing after it; a failed write is reported as
    such, and behind one that never ends the exchange waits. *)
Theorem C106_exchange : forall ih pid i reads e out s, session ih pid i reads e = (out, s) -> forall ws,
  (succeed ws (length out) -> session_w ih pid i ws reads e = (out, s)) /\
  (forall k, (k < length out)%nat -> first_bad ws k WFail -> session_w ih pid i ws reads e = (firstn k out, SDone (Err ESend))) /\
  (forall k, (k < length out)%nat -> first_bad ws k WStall -> session_w ih pid i ws reads e = (firstn k out, SWaiting)).
Proof. exact session_cut_spec. Qed.
Print Assumptions C106_exchange.

(** The same for the encryption handshake; a failure is reported when the write is made. *)
Theorem C106_handshake : forall skey secs pada padc key now reads out r, handshake skey secs pada padc key now reads = (out, r) -> forall ws,
  (succeed ws (length out) -> handshake_w skey secs pada padc key ws now reads = (out, r, skipn (length out) ws)) /\
  (forall k t b, nth_error out k = Some (t, b) -> first_bad ws k WFail -> fst (handshake_w skey secs pada padc key ws now reads) = (firstn k out, HFail t HSend)) /\
  (forall k t b, nth_error out k = Some (t, b) -> first_bad ws k WStall -> fst (handshake_w skey secs pada padc key ws now reads) = (firstn k out, HWait)).
Proof. exact handshake_cut_spec. Qed.
Print Assumptions C106_handshake.

(** A fetch made of one attempt: as if all writes succeeded; or one fails, and this is reported
    (as a failed encryption handshake if it is one of that); or one never ends, and the fetch
    waits, or reaches its time limit if not yet connected. *)
Theorem C106_attempt : forall ih pid i override p requires limit secs now enc plain,
  get_info ih pid i override p requires limit secs now (fst enc) (fst plain) <> Panic ->
  let whole := get_info_w ih pid i override p requires limit secs now enc plain in
  let good := get_info ih pid i override p requires limit secs now (fst enc) (fst plain) in
  (get_crypto_mode override p requires = Ok Plain ->
   whole = good \/ (In WFail (snd plain) /\ whole = Ret ([false], SDone (Err ESend))) \/
   (In WStall (snd plain) /\ (whole = Ret ([false], SWaiting) \/ whole = Ret ([false], SDone (Err ConnectTimeout))))) /\
  (get_crypto_mode override p requires = Ok Encrypt ->
   whole = good \/ (In WFail (snd enc) /\ (whole = Ret ([true], SDone (Err ESend)) \/ whole = Ret ([true], SDone (Err ECryptoHandshake)))) \/
   (In WStall (snd enc) /\ (whole = Ret ([true], SWaiting) \/ whole = Ret ([true], SDone (Err ConnectTimeout))))) /\
  (forall x, get_crypto_mode override p requires = Err x -> whole = good).
Proof. exact single_w. Qed.
Print Assumptions C106_attempt.

(** If encryption is preferred, the fetch is the encrypted attempt, and if that fails in its
    handshake (a failed write included) the unencrypted one begun then. *)
Theorem C106_prefer : forall ih pid i override p requires limit secs now enc plain,
  get_crypto_mode override p requires = Ok Prefer ->
  requires = false /\
  let whole := get_info_w ih pid i override p requires limit secs now enc plain in
  let first := get_info_w ih pid i (Some Encrypt) p requires limit secs now enc plain in
  let second t := get_info_w ih pid i (Some Plain) p requires limit secs (now + t) enc plain in
  ((forall l, first <> Ret (l, SDone (Err ECryptoHandshake))) -> whole = first) /\
  (forall l, first = Ret (l, SDone (Err ECryptoHandshake)) -> exists t, t <= limit /\
     (second t = Panic -> whole = Panic) /\ forall l' s, second t = Ret (l', s) -> whole = Ret ([true; false], s)).
Proof. exact prefer_w. Qed.
Print Assumptions C106_prefer.

(** With all writes successful the fetch is that of C92 and C103. *)
Theorem C106_successful : forall ih pid i override p requires limit secs now enc plain,
  (forall w, In w (snd enc) -> w = WOk) -> (forall w, In w (snd plain) -> w = WOk) ->
  get_info_w ih pid i override p requires limit secs now enc plain = get_info ih pid i override p requires limit secs now (fst enc) (fst plain).
Proof. exact all_succeed. Qed.
Print Assumptions C106_successful.

(** Whatever the writes do, what is obtained is what the last attempt gives if they all succeed,
    and has the hash asked for. *)
Theorem C106_obtained : forall ih pid i override p requires limit secs now enc plain l info,
  length ih = 20%nat -> length pid = 20%nat -> wf_ip i ->
  get_info_w ih pid i override p requires limit secs now enc plain = Ret (l, SDone (Ok info)) ->
  ((l = [true] /\ get_info ih pid i (Some Encrypt) p requires limit secs now (fst enc) (fst plain) = Ret ([true], SDone (Ok info))) \/
   (l = [false] /\ get_info ih pid i (Some Plain) p requires limit secs now (fst enc) (fst plain) = Ret ([false], SDone (Ok info))) \/
   (l = [true; false] /\ exists t, t <= limit /\ get_info ih pid i (Some Plain) p requires limit secs (now + t) (fst enc) (fst plain) = Ret ([false], SDone (Ok info)))) /\
  ti_hash info = ih /\ sha1 (ti_data info) = ih /\ bencoded_dict (ti_data info).
Proof. exact obtained_w. Qed.
Print Assumptions C106_obtained.

(** Exactly when the metadata is obtained, and from which attempts, although writes may fail or
    never end (no failing to connect at all being reported as a failed encryption handshake). *)
Theorem C106_exact : forall ih pid i override p requires limit secs now enc plain l meta,
  length ih = 20%nat -> length pid = 20%nat -> wf_ip i ->
  (forall t0, d_tcp (fst enc) <> Some (t0, Err ECryptoHandshake)) ->
  (get_info_w ih pid i override p requires limit secs now enc plain = Ret (l, SDone (Ok (mkTI ih meta))) <->
   bencoded_dict meta /\ sha1 meta = ih /\ blen meta <= 20971520 /\ obtainable_w ih pid i meta override p requires limit secs now enc plain l).
Proof. intros ih pid i override p requires limit secs now enc plain l meta L1 L2 W. exact (get_info_w_exact ih pid i L1 L2 W override p requires limit secs now enc plain l meta). Qed.
Print Assumptions C106_exact.

(** Why a fetch failed: as if all writes succeeded (C103), or because of a write. *)
Theorem C106_reason : forall ih pid i override p requires limit secs now enc plain l x,
  length ih = 20%nat -> length pid = 20%nat -> wf_ip i ->
  (forall t0, d_tcp (fst enc) <> Some (t0, Err ECryptoHandshake)) ->
  (forall t0, d_tcp (fst enc) = Some (t0, Ok tt) -> (now + t0) / 1000000000 + secs < 2 ^ 63) ->
  get_info_w ih pid i override p requires limit secs now enc plain = Ret (l, SDone (Err x)) ->
  fetch_failed_w ih override p requires limit secs now enc plain l x.
Proof. intros ih pid i override p requires limit secs now enc plain l x L1 L2 W. exact (get_info_w_why ih pid i L1 L2 W override p requires limit secs now enc plain l x). Qed.
Print Assumptions C106_reason.

(** Whatever the writes do, a panic needs an encrypted attempt and a clock near its last instant. *)
Theorem C106_no_panic : forall ih pid i override p requires limit secs now enc plain,
  length ih = 20%nat -> length pid = 20%nat -> wf_ip i ->
  (get_info_w ih pid i override p requires limit secs now enc plain = Panic ->
   wants_encryption override p requires /\
   exists t0, d_tcp (fst enc) = Some (t0, Ok tt) /\ t0 <= limit /\ 2 ^ 63 <= (now + t0) / 1000000000 + secs) /\
  (forall l, get_info_w ih pid i override p requires limit secs now enc plain <> Ret (l, SPanicked)).
Proof. intros ih pid i override p requires limit secs now enc plain L1 L2 W. exact (get_info_w_panic ih pid i L1 L2 W override p requires limit secs now enc plain). Qed.
Print Assumptions C106_no_panic.

(** A peer that would give its metadata: the write of the request fails, or never ends; and one
    to which the first write of the encryption handshake fails, but which is then asked without
    encryption. *)
Example C106_nonvacuous :
  let ask ws := session_w (sha1 ex_data) (bs "-DM0070-aaaaaaaaaaaa") (V4 2130706433) ws ex_stream Silent in
  first_bad [WOk; WOk; WOk; WFail] 3 WFail /\
  length (fst (ask [WOk; WOk; WOk; WFail])) = 3%nat /\ snd (ask [WOk; WOk; WOk; WFail]) = SDone (Err ESend) /\
  length (fst (ask [WOk; WStall])) = 1%nat /\ snd (ask [WOk; WStall]) = SWaiting /\
  snd (ask [WOk; WOk; WOk; WOk; WFail]) = SDone (Ok (mkTI (sha1 ex_data) ex_data)) /\
  handshake_w (sha1 ex_data) 30 [] 0 [] [WFail] 5 [] = ([], HFail 5 HSend, []) /\
  get_info_w (sha1 ex_data) (bs "-DM0070-aaaaaaaaaaaa") (V4 2130706433) (Some Prefer) CPNever false (ns 60) 30 0
    (mkDial (Some (5, Ok tt)) [] [] 0 [], [WFail]) (mkDial (Some (5, Ok tt)) (map (fun b => (5, RData b)) ex_stream) [] 0 [], [WOk]) =
  Ret ([true; false], SDone (Ok (mkTI (sha1 ex_data) ex_data))).
Proof.
  split; [split; [intros j L; destruct j as [|[|[|j]]]; try reflexivity; lia|split; [reflexivity|discriminate]]|].
  repeat match goal with |- _ /\ _ => split end; vm_compute; reflexivity.
Qed.
