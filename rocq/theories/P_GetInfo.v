(** The whole of fetching metadata from a peer is one exchange over all its bytes. *)
From Verif Require Import Base BaseFacts M_Net M_Torrent M_Peer M_Extensions M_Messages M_Frame M_Rc4 M_Mse S_Mse M_Session M_Connect M_GetInfo
  P_Frame P_Session.

Lemma read_exact_more e m : forall r n acc,
  match read_exact n acc r Silent with
  | RDone b rs => read_exact n acc (r ++ m) e = RDone b (rs ++ m)
  | RFail => False
  | RPending => True
  end.
Proof.
  induction r as [|c r IH]; intros n acc.
  - destruct n; cbn; [destruct m; reflexivity|exact Logic.I].
  - destruct n as [|n]; [reflexivity|]. cbn [read_exact app]. destruct (Nat.leb (length c) (S n)); [apply IH|reflexivity].
Qed.
Lemma framed_next_more e m : forall r st buf,
  match framed_next st buf r Silent with
  | (Frame f, st', b, rs) => framed_next st buf (r ++ m) e = (Frame f, st', b, rs ++ m)
  | (FrameError, st', b, rs) => framed_next st buf (r ++ m) e = (FrameError, st', b, rs ++ m)
  | (FrameEnd, _, _, _) => False
  | (FramePending, _, _, _) => True
  end.
Proof.
  induction r as [|c r IH]; intros st buf; cbn [framed_next app].
  - destruct (frame_decode st buf) eqn:E; cbn; try exact Logic.I; destruct m; cbn; rewrite E; reflexivity.
  - destruct (frame_decode st buf); [reflexivity|apply IH|reflexivity].
Qed.

Definition more_reads (c : conn) (m : list bytes) : conn :=
  mkConn (cn_local c) (cn_remote c) (cn_ext c) (cn_size c) (cn_st c) (cn_buf c) (cn_reads c ++ m).
Definition more_stage (s : stage conn) (m : list bytes) : stage conn :=
  match s with SDone (Ok c) => SDone (Ok (more_reads c m)) | _ => s end.
Lemma connect_more ih pid i r m e : snd (connect ih pid i r Silent) <> SWaiting ->
  snd (connect ih pid i (r ++ m) e) = more_stage (snd (connect ih pid i r Silent)) m.
Proof.
  unfold connect. pose proof (read_exact_more e m r 68 []) as R.
  destruct (read_exact 68 [] r Silent) as [b rs| |]; [|contradiction|intros W; contradiction W; reflexivity].
  rewrite R. destruct (handshake_decode b) as [h|x]; [|reflexivity].
  destruct (negb (bytes_eqb (hs_hash h) ih)); [reflexivity|].
  destruct (negb (ext_has (ext_and (ext_from SUPPORTED_EXTENSIONS) (hs_ext h)) Bep10)); [reflexivity|].
  destruct local_registry as [local|]; [|reflexivity].
  destruct (channel_send reg_new (ExtHandshake (mkEH None (Some (reg_to_m local)) (Some CLIENT) None (Some i)))) as [[b1|x]|]; try reflexivity.
  pose proof (framed_next_more e m rs Head []) as F.
  destruct (framed_next Head [] rs Silent) as [[[fr st'] b'] rs']. destruct fr; cbn [snd].
  - intros _. rewrite F. destruct (recv_event local f) as [msg|x]; [|reflexivity]. destruct msg; try reflexivity.
    destruct (eh_registry h0) as [remote|x]; [|reflexivity]. destruct (negb (reg_contains remote Metadata)); [reflexivity|].
    destruct (ext_has _ Fast); [|reflexivity]. destruct (channel_send remote (Core HaveNone)) as [[?|?]|]; reflexivity.
  - intros _. rewrite F. reflexivity.
  - contradiction.
  - intros W. contradiction W. reflexivity.
Qed.

(** The exchange on top of a stream ends as [connect] does on everything read so far. *)
Lemma exchange_spec ih pid i : length ih = 20%nat -> length pid = 20%nat -> wf_ip i -> forall later now got,
  match exchange ih pid i now got later with
  | Panic => False
  | Ret None => True
  | Ret (Some (t, Err x)) => exists used e, snd (connect ih pid i (got ++ used) e) = SDone (Err x)
  | Ret (Some (t, Ok (c, later'))) => exists used, later = used ++ later' /\ only_data used /\
      snd (connect ih pid i (got ++ map data_of used) Silent) = SDone (Ok c)
  end.
Proof.
  intros L1 L2 W. assert (NP : forall r e, snd (connect ih pid i r e) <> SPanicked).
  { intros r e H. destruct (connect_spec ih pid i r e L1 L2 W) as [_ P]. rewrite H in P. exact P. }
  induction later as [|[t [b| |]] later IH]; intros now got; cbn [exchange];
    (destruct (snd (connect ih pid i got Silent)) as [[c|x]| |] eqn:E;
     [exists []; cbn; rewrite app_nil_r; split; [reflexivity|split; [intros ? ? []|exact E]]
     |exists [], Silent; rewrite app_nil_r; exact E
     |
     |exact (NP _ _ E)]).
  - exact Logic.I.
  - specialize (IH (N.max now t) (got ++ [b])). destruct (exchange ih pid i (N.max now t) (got ++ [b]) later) as [[[t' [[c l']|x]]|]|]; auto.
    + destruct IH as (used & -> & OD & H). exists ((t, RData b) :: used). split; [reflexivity|]. split.
      * intros t0 r [[= <- <-]|H0]; eauto.
      * cbn. rewrite <- app_assoc in H. exact H.
    + destruct IH as (used & e & H). rewrite <- app_assoc in H. eauto.
  - destruct (snd (connect ih pid i got Closed)) as [[c|x]| |] eqn:E2; [exact Logic.I| |exact Logic.I|exact (NP _ _ E2)].
    exists [], Closed. rewrite app_nil_r. exact E2.
  - destruct (snd (connect ih pid i got Broken)) as [[c|x]| |] eqn:E2; [exact Logic.I| |exact Logic.I|exact (NP _ _ E2)].
    exists [], Broken. rewrite app_nil_r. exact E2.
Qed.

Lemma link_session ih pid i r m e c : snd (connect ih pid i r Silent) = SDone (Ok c) ->
  snd (session ih pid i (r ++ m) e) = snd (fetch_from ih (more_reads c m) e).
Proof.
  intros H. unfold session. pose proof (connect_more ih pid i r m e ltac:(rewrite H; discriminate)) as E. rewrite H in E. cbn in E.
  destruct (connect ih pid i (r ++ m) e) as [out st]. cbn [snd] in E. subst st. destruct (fetch_from ih (more_reads c m) e). reflexivity.
Qed.

(** What an attempt may yield. *)
Definition linked (ih pid : bytes) (i : ip) (r : outcome (timed (res peer_error link))) : Prop :=
  match r with
  | Ret (Some (_, Ok (c, later))) => exists used, snd (connect ih pid i used Silent) = SDone (Ok c)
  | _ => True
  end.
Lemma exchange_linked ih pid i now later : length ih = 20%nat -> length pid = 20%nat -> wf_ip i ->
  exchange ih pid i now [] later <> Panic /\ linked ih pid i (exchange ih pid i now [] later).
Proof.
  intros L1 L2 W. pose proof (exchange_spec ih pid i L1 L2 W later now []) as H.
  destruct (exchange ih pid i now [] later) as [[[t [[c l]|x]]|]|]; split; try discriminate; cbn; auto.
  destruct H as (used & _ & _ & H). eauto.
Qed.
Lemma plain_linked ih pid i now d : length ih = 20%nat -> length pid = 20%nat -> wf_ip i ->
  connect_plain ih pid i now d <> Panic /\ linked ih pid i (connect_plain ih pid i now d).
Proof.
  intros L1 L2 W. unfold connect_plain. destruct (d_tcp d) as [[t0 [u|x]]|]; [|split; [discriminate|exact Logic.I]..].
  destruct (exchange_linked ih pid i (now + t0) (d_reads d) L1 L2 W) as [H1 H2].
  destruct (exchange ih pid i (now + t0) [] (d_reads d)) as [[[t r]|]|]; split; try discriminate; try exact Logic.I; [exact H2|congruence].
Qed.
Definition hs_of (ih : bytes) (secs : N) (d : dial) (t : N) : hs_out := snd (handshake ih secs (d_pada d) (d_padc d) (d_key d) t (d_reads d)).
Lemma crypto_linked ih pid i secs now d : length ih = 20%nat -> length pid = 20%nat -> wf_ip i ->
  (connect_crypto ih pid i secs now d = Panic <-> exists t0, d_tcp d = Some (t0, Ok tt) /\ hs_of ih secs d (now + t0) = HPanic) /\
  linked ih pid i (connect_crypto ih pid i secs now d).
Proof.
  intros L1 L2 W. unfold connect_crypto, connect_encrypted. fold (hs_of ih secs d).
  destruct (d_tcp d) as [[t0 [[]|x]]|]; [|split; [split; [discriminate|intros (? & [=] & _)]|exact Logic.I]..].
  fold (hs_of ih secs d (now + t0)).
  assert (U : forall o, (exists t1, Some (t0, Ok tt) = Some (t1, Ok tt : res peer_error unit) /\ hs_of ih secs d (now + t1) = o) <-> hs_of ih secs d (now + t0) = o).
  { intros o. split; [intros (? & [= <-] & ?); assumption|eauto]. }
  rewrite U. destruct (hs_of ih secs d (now + t0)) as [t ks rest later|t e| |];
    [|split; [split; discriminate|exact Logic.I]..|split; [split; reflexivity|exact Logic.I]].
  set (l := decrypted _ _). destruct (exchange_linked ih pid i t l L1 L2 W) as [H1 H2].
  destruct (exchange ih pid i t [] l) as [[[t' r]|]|]; split; try (split; discriminate); try exact Logic.I; [exact H2|split; congruence].
Qed.

Lemma run_connect_enc {C} override p requires limit (enc plain : timed (res peer_error C)) l t c :
  run_connect override p requires limit enc plain = (l, t, Ok c) -> exists t0, enc = Some (t0, Ok c) \/ plain = Some (t0, Ok c).
Proof.
  intros H. apply connect_result in H. destruct (List.rev l) as [|[] ?]; [discriminate| |].
  - destruct H as [(t0 & -> & _)|[_ [=]]]. eauto.
  - destruct H as [(t0 & -> & _)|[_ [=]]]. eauto.
Qed.

Lemma get_info_session ih pid i override p requires limit secs now enc plain : length ih = 20%nat -> length pid = 20%nat -> wf_ip i ->
  match get_info ih pid i override p requires limit secs now enc plain with
  | Panic => exists t0, d_tcp enc = Some (t0, Ok tt) /\ t0 <= limit /\ hs_of ih secs enc (now + t0) = HPanic
  | Ret (_, SDone (Err _)) => True
  | Ret (_, s) => exists reads e, s = snd (session ih pid i reads e)
  end.
Proof.
  intros L1 L2 W.
  assert (FIN : forall (Q : Prop) r e' p', linked ih pid i (Ret e') -> linked ih pid i (Ret p') -> r = run_connect override p requires limit e' p' ->
    match (match r with
      | (l, _, Err e) => Ret (l, SDone (Err e))
      | (l, _, Ok (c, later)) => let (bs, e) := pieces later in
        Ret (l, snd (fetch_from ih (mkConn (cn_local c) (cn_remote c) (cn_ext c) (cn_size c) (cn_st c) (cn_buf c) (cn_reads c ++ bs)) e))
      end : outcome (list bool * stage torrent_info)) with
    | Panic => Q
    | Ret (_, SDone (Err _)) => True
    | Ret (_, s) => exists reads e, s = snd (session ih pid i reads e)
    end).
  { intros Q r e' p' LE LP E. symmetry in E. destruct r as [[l t] [[c later]|x]]; [|exact Logic.I].
    assert (LK : exists used, snd (connect ih pid i used Silent) = SDone (Ok c)).
    { apply run_connect_enc in E as (t0 & [-> | ->]); [exact LE|exact LP]. }
    destruct LK as (used & U). destruct (pieces later) as [bs e]. fold (more_reads c bs).
    rewrite <- (link_session _ _ _ _ bs e _ U).
    destruct (snd (session ih pid i (used ++ bs) e)) as [[ti|x]| |] eqn:SS; [|exact Logic.I|..]; exists (used ++ bs), e; symmetry; exact SS. }
  assert (CP : connect_crypto ih pid i secs now (within limit enc) = Panic ->
     exists t0, d_tcp enc = Some (t0, Ok tt) /\ t0 <= limit /\ hs_of ih secs enc (now + t0) = HPanic).
  { intros H. apply crypto_linked in H as (t0 & E & H); [|auto..]. cbn in E. destruct (d_tcp enc) as [[t r]|]; [|discriminate].
    destruct (N.leb_spec t limit); [|discriminate]. injection E as -> ->. exists t0. split; [reflexivity|]. split; [assumption|exact H]. }
  destruct (crypto_linked ih pid i secs now (within limit enc) L1 L2 W) as [_ CL].
  assert (PL : forall start, connect_plain ih pid i start (within limit plain) <> Panic /\ linked ih pid i (connect_plain ih pid i start (within limit plain))) by (intros; now apply plain_linked).
  unfold get_info. destruct (get_crypto_mode override p requires) as [[]|x]; [| | |exact Logic.I].
  - destruct (connect_crypto ih pid i secs now (within limit enc)) as [r|] eqn:EC; [|auto].
    exact (FIN _ _ r None CL Logic.I eq_refl).
  - destruct (connect_crypto ih pid i secs now (within limit enc)) as [r|] eqn:EC; [|auto].
    destruct (PL (match r with Some (t, Err ECryptoHandshake) => now + t | _ => now end)) as [P1 P2].
    destruct (timeout limit r) as [tt0 tr]. cbv zeta.
    destruct tr as [[ok|[]]|]; try exact (FIN _ _ r None CL Logic.I eq_refl).
    destruct (connect_plain ih pid i _ (within limit plain)) as [r'|]; [|congruence].
    exact (FIN _ _ r r' CL P2 eq_refl).
  - destruct (PL now) as [P1 P2]. destruct (connect_plain ih pid i now (within limit plain)) as [r|]; [|congruence].
    exact (FIN _ _ None r Logic.I P2 eq_refl).
Qed.
