(** Property C92: fetching the metadata from one peer, from opening the TCP connection on.
    Specification: S_GetInfo (a peer serving the metadata in time), S_Session, S_Mse.
    [limit]: handshake_timeout and [now]: the time at the beginning, in nanoseconds;
    [secs]: dh_exchange_timeout in seconds; [enc], [plain]: what happens to the connection
    made with, and without, encryption.  In the result, the connections made ([true]:
    encrypted). *)
From Verif Require Import Base BaseFacts M_Net M_Sha1 M_Torrent M_Peer M_Extensions M_Messages M_Frame M_Rc4 M_Mse S_Mse M_Session M_Connect M_GetInfo
  S_Bencode S_Wire S_Download S_Frame S_Session S_GetInfo P_Download P_Session P_GetInfo P_GetInfo2 P_GetInfo3 P_GetInfo4 P_GetInfo5 P_GetInfo6.

(** Whatever the peer sends, over either kind of connection, and whenever: metadata
    obtained has the hash asked for. *)
Theorem C92_authentic : forall ih pid i override p requires limit secs now enc plain l info,
  length ih = 20%nat -> length pid = 20%nat -> wf_ip i ->
  get_info ih pid i override p requires limit secs now enc plain = Ret (l, SDone (Ok info)) ->
  ti_hash info = ih /\ sha1 (ti_data info) = ih /\ bencoded_dict (ti_data info).
Proof. exact get_info_authentic. Qed.
Print Assumptions C92_authentic.
(** The only panic is that of a key-exchange timeout beyond the range of the clock. *)
Theorem C92_panics : forall ih pid i override p requires limit secs now enc plain,
  length ih = 20%nat -> length pid = 20%nat -> wf_ip i ->
  (get_info ih pid i override p requires limit secs now enc plain = Panic <->
   wants_encryption override p requires /\
   exists t0, d_tcp enc = Some (t0, Ok tt) /\ t0 <= limit /\ 2 ^ 63 <= (now + t0) / 1000000000 + secs) /\
  (forall l, get_info ih pid i override p requires limit secs now enc plain <> Ret (l, SPanicked)).
Proof. exact get_info_panic. Qed.
Print Assumptions C92_panics.
(** A peer serving the metadata without encryption *)
Theorem C92_plain : forall ih pid i meta,
  length pid = 20%nat -> wf_ip i -> bencoded_dict meta -> sha1 meta = ih -> blen meta <= 20971520 ->
  forall override p limit secs now enc plain t0,
  override = Some Plain \/ (override = None /\ (p = CPNever \/ p = CPIfRequired)) ->
  d_tcp plain = Some (t0, Ok tt) -> t0 <= limit -> serves_plain ih meta (now + limit) (d_reads plain) ->
  get_info ih pid i override p false limit secs now enc plain = Ret ([false], SDone (Ok (mkTI ih meta))).
Proof. exact get_info_plain. Qed.
Print Assumptions C92_plain.
(** A peer serving the metadata with encryption: as packet 3 is sent only when the
    key-exchange timeout has passed, that must be within the limit. *)
Theorem C92_encrypted : forall ih pid i meta,
  length pid = 20%nat -> wf_ip i -> bencoded_dict meta -> sha1 meta = ih -> blen meta <= 20971520 ->
  forall override p requires limit secs now enc plain t0, wants_encryption override p requires ->
  d_tcp enc = Some (t0, Ok tt) -> (now + t0) / 1000000000 + secs < 2 ^ 63 -> t0 + ns secs <= limit ->
  serves_encrypted ih meta (now + t0) secs (now + limit) (d_key enc) (d_reads enc) ->
  get_info ih pid i override p requires limit secs now enc plain = Ret ([true], SDone (Ok (mkTI ih meta))).
Proof.
  intros ih pid i meta LP W BD SH LB override p requires limit secs now enc plain t0 WE ET NO LE S.
  exact (get_info_encrypted ih pid i meta LP W BD SH LB override p requires limit secs now enc plain t0 WE ET NO LE (conforming_accepted ih meta _ _ _ _ _ S)).
Qed.
Print Assumptions C92_encrypted.
(** A peer that serves the metadata without encryption only: with 'prefer' it is asked
    again if the encryption handshake fails (as C46 says) within the limit. *)
Theorem C92_fallback : forall ih pid i meta,
  length pid = 20%nat -> wf_ip i -> bencoded_dict meta -> sha1 meta = ih -> blen meta <= 20971520 ->
  forall override p limit secs now enc plain t0 o t x t1,
  override = Some Prefer \/ (override = None /\ p = CPPrefer) ->
  d_tcp enc = Some (t0, Ok tt) -> t0 <= limit ->
  handshake ih secs (d_pada enc) (d_padc enc) (d_key enc) (now + t0) (d_reads enc) = (o, HFail t x) -> t <= now + limit ->
  d_tcp plain = Some (t1, Ok tt) -> t1 <= limit -> serves_plain ih meta (t + limit) (d_reads plain) ->
  get_info ih pid i override p false limit secs now enc plain = Ret ([true; false], SDone (Ok (mkTI ih meta))).
Proof. exact get_info_fallback. Qed.
Print Assumptions C92_fallback.
(** Exactly these peers will do (those that are taken for one conforming to the encryption
    protocol included). *)
Theorem C92_exactly : forall ih pid i,
  length ih = 20%nat -> length pid = 20%nat -> wf_ip i ->
  forall override p requires limit secs now enc plain l meta,
  (forall t0, d_tcp enc <> Some (t0, Err ECryptoHandshake)) ->
  (get_info ih pid i override p requires limit secs now enc plain = Ret (l, SDone (Ok (mkTI ih meta))) <->
   bencoded_dict meta /\ sha1 meta = ih /\ blen meta <= 20971520 /\ obtainable ih meta override p requires limit secs now enc plain l).
Proof. exact get_info_exact. Qed.
Print Assumptions C92_exactly.
Theorem C92_conforming_accepted : forall ih meta start secs deadline key reads,
  serves_encrypted ih meta start secs deadline key reads -> serves_under_key ih meta start secs deadline key reads.
Proof. exact conforming_accepted. Qed.
Print Assumptions C92_conforming_accepted.
(** No TCP connection: the fetch fails with the error, or once the time limit is reached. *)
Theorem C92_refused : forall ih pid i override p requires limit secs now enc plain t0 e,
  e <> ECryptoHandshake -> t0 <= limit ->
  (wants_encryption override p requires -> d_tcp enc = Some (t0, Err e) ->
   get_info ih pid i override p requires limit secs now enc plain = Ret ([true], SDone (Err e))) /\
  (override = Some Plain \/ (override = None /\ (p = CPNever \/ p = CPIfRequired)) -> d_tcp plain = Some (t0, Err e) ->
   get_info ih pid i override p false limit secs now enc plain = Ret ([false], SDone (Err e))).
Proof.
  intros ih pid i override p requires limit secs now enc plain t0 e NE L.
  exact (conj (fun W E => refused_crypto ih pid i override p requires limit secs now enc plain t0 e W E NE L)
              (fun W E => refused_plain ih pid i override p limit secs now enc plain t0 e W E L)).
Qed.
Print Assumptions C92_refused.
Theorem C92_connect_timeout : forall ih pid i override p requires limit secs now enc plain,
  (wants_encryption override p requires -> (forall t0 r, d_tcp enc = Some (t0, r) -> limit < t0) ->
   get_info ih pid i override p requires limit secs now enc plain = Ret ([true], SDone (Err ConnectTimeout))) /\
  (override = Some Plain \/ (override = None /\ (p = CPNever \/ p = CPIfRequired)) -> (forall t0 r, d_tcp plain = Some (t0, r) -> limit < t0) ->
   get_info ih pid i override p false limit secs now enc plain = Ret ([false], SDone (Err ConnectTimeout))).
Proof.
  intros ih pid i override p requires limit secs now enc plain.
  exact (conj (late_crypto ih pid i override p requires limit secs now enc plain) (late_plain ih pid i override p limit secs now enc plain)).
Qed.
Print Assumptions C92_connect_timeout.
Example C92_refused_nonvacuous :
  wants_encryption None CPPrefer false /\ ns 1 <= ns 60 /\ EConnect <> ECryptoHandshake /\
  get_info (repeat x00 20) (repeat x00 20) (V4 1) None CPPrefer false (ns 60) 30 0 (mkDial (Some (ns 1, Err EConnect)) [] [] 0 []) (mkDial None [] [] 0 []) = Ret ([true], SDone (Err EConnect)).
Proof. split; [unfold wants_encryption; auto 6|]. split; [vm_compute; discriminate|]. split; [discriminate|]. vm_compute. reflexivity. Qed.
Example C92_nonvacuous : forall ours key,
  let ih := sha1 ex_data in let pid := bs "-DM0070-aaaaaaaaaaaa" in let i := V4 2130706433 in
  let fetch p := get_info ih pid i None p false (ns 60) 30 (ns 5) in
  let dead := mkDial None [] [] 0 [] in
  let plain t := mkDial (Some (ns 1, Ok tt)) (ex_reads t) [] 0 [] in
  let enc := mkDial (Some (ns 1, Ok tt)) (ex_enc (ns 6) key ours) [] 12 ours in
  let closes := mkDial (Some (ns 1, Ok tt)) [(ns 7, REof)] [] 12 ours in
  fetch CPNever dead (plain (ns 5)) = Ret ([false], SDone (Ok (mkTI ih ex_data))) /\
  fetch CPPrefer enc dead = Ret ([true], SDone (Ok (mkTI ih ex_data))) /\
  fetch CPPrefer closes (plain (ns 7)) = Ret ([true; false], SDone (Ok (mkTI ih ex_data))) /\
  fetch CPPrefer dead (plain (ns 5)) = Ret ([true], SDone (Err ConnectTimeout)).
Proof.
  intros ours key. cbv zeta.
  assert (LP : length (bs "-DM0070-aaaaaaaaaaaa") = 20%nat) by reflexivity. assert (W : wf_ip (V4 2130706433)) by (vm_compute; reflexivity).
  destruct ex_session as (BD & _). assert (LB : blen ex_data <= 20971520) by (vm_compute; discriminate).
  split; [|split; [|split]].
  - apply (C92_plain _ _ _ _ LP W BD eq_refl LB None CPNever (ns 60) 30 (ns 5) _ _ (ns 1)); [auto|reflexivity|unfold ns; lia|apply ex_plain].
  - apply (C92_encrypted _ _ _ _ LP W BD eq_refl LB None CPPrefer false (ns 60) 30 (ns 5) _ _ (ns 1)); [unfold wants_encryption; auto 6|reflexivity|vm_compute; reflexivity|unfold ns; lia|].
    exact (ex_encrypted (ns 6) key ours).
  - destruct (ex_closes (sha1 ex_data) 30 [] 12 ours (ns 6) (ns 7)) as (o & H); [reflexivity|unfold ns; lia..|].
    apply (C92_fallback _ _ _ _ LP W BD eq_refl LB None CPPrefer (ns 60) 30 (ns 5) _ _ (ns 1) o (ns 7) HDisconnect (ns 1));
      [auto|reflexivity|unfold ns; lia|exact H|unfold ns; lia|reflexivity|unfold ns; lia|apply ex_plain].
  - reflexivity.
Qed.
