(** Fetching from one peer: the outcomes of [get_info]. *)
From Verif Require Import Base BaseFacts M_Net M_Sha1 M_Torrent M_Peer M_Extensions M_Messages M_Frame M_Rc4 M_Mse S_Mse M_Session M_Connect M_GetInfo
  S_Bencode S_Wire S_Download S_Frame S_Session S_GetInfo P_Frame P_Download P_Session P_Mse P_Mse2 P_GetInfo P_GetInfo2.

(** A handshake ends no earlier than it begins. *)
Lemma hs_loop_after f : forall s dl now reads, match dl with Some d => now <= d | None => True end ->
  match snd (hs_loop f s dl now reads) with HDone t _ _ _ | HFail t _ => now <= t | _ => True end.
Proof.
  induction f as [|f IH]; intros s dl now reads D; [exact Logic.I|]. rewrite hs_loop_S.
  destruct (into_keystream s) as [[ks rest]|]; [cbn; lia|]. cbv zeta.
  destruct (dl_of s dl now) as [dl'|] eqn:ED; [|exact Logic.I].
  assert (D' : match dl' with Some d => now <= d | None => True end).
  { unfold dl_of in ED. destruct (h_timeout s) as [secs|]; [|injection ED as <-; exact D]. unfold instant_add in ED.
    destruct (now / 1000000000 + secs <? 2 ^ 63); [|discriminate]. injection ED as <-. lia. }
  assert (AW : match snd (after_wait f (clear s) dl' now reads) with HDone t _ _ _ | HFail t _ => now <= t | _ => True end).
  { unfold after_wait. 
    assert (X : forall d, now <= d -> match snd (match handle_timeout (clear s) with Err e => ([], HFail d e) | Ok s2 => hs_loop f s2 None d reads end) with
        HDone t _ _ _ | HFail t _ => now <= t | _ => True end).
    { intros d L. destruct (handle_timeout (clear s)) as [s2|e]; [|exact L]. specialize (IH s2 None d reads Logic.I).
      destruct (snd (hs_loop f s2 None d reads)); auto; lia. }
    assert (Y : forall t r reads' , match dl' with Some d => N.max now t <= d | None => True end ->
       match snd (match r with
         | RData b => match handle_input (clear s) b with Err e => ([], HFail (N.max now t) e) | Ok s2 => hs_loop f s2 dl' (N.max now t) reads' end
         | REof => ([], HFail (N.max now t) HDisconnect) | RError => ([], HFail (N.max now t) HRecv) end) with
        HDone t _ _ _ | HFail t _ => now <= t | _ => True end).
    { intros t r reads' L. destruct r as [b| |]; [|cbn; lia..]. destruct (handle_input (clear s) b) as [s2|e]; [|cbn; lia].
      specialize (IH s2 dl' (N.max now t) reads' L). destruct (snd (hs_loop f s2 dl' (N.max now t) reads')); auto; lia. }
    destruct reads as [|[t r] reads], dl' as [d|].
    - apply X, D'.
    - exact Logic.I.
    - destruct (N.leb_spec (N.max now t) d); [apply Y; assumption|apply X, D'].
    - apply Y. exact Logic.I. }
  destruct (after_wait f (clear s) dl' now reads) as [o r]. exact AW.
Qed.

Lemma get_info_authentic ih pid i override p requires limit secs now enc plain l info : length ih = 20%nat -> length pid = 20%nat -> wf_ip i ->
  get_info ih pid i override p requires limit secs now enc plain = Ret (l, SDone (Ok info)) ->
  ti_hash info = ih /\ sha1 (ti_data info) = ih /\ bencoded_dict (ti_data info).
Proof.
  intros L1 L2 W H. pose proof (get_info_session ih pid i override p requires limit secs now enc plain L1 L2 W) as G. rewrite H in G.
  destruct G as (reads & e & G). destruct (session ih pid i reads e) as [out s] eqn:S. cbn [snd] in G. subst s.
  destruct (session_authentic _ _ _ _ _ _ _ L1 L2 W S) as [_ A]. destruct (A info eq_refl) as (A1 & A2 & A3 & _). auto.
Qed.

(** Which kinds of connection the mode and the peer call for *)
Lemma mode_encrypts override p requires : wants_encryption override p requires <-> get_crypto_mode override p requires = Ok Encrypt \/ get_crypto_mode override p requires = Ok Prefer.
Proof.
  unfold wants_encryption, get_crypto_mode. destruct override as [[]|], requires, p; cbn; split; intros H;
    repeat match goal with H : _ \/ _ |- _ => destruct H | H : _ /\ _ |- _ => destruct H end; try discriminate; try congruence; auto 9.
Qed.

Lemma get_info_panic ih pid i override p requires limit secs now enc plain : length ih = 20%nat -> length pid = 20%nat -> wf_ip i ->
  (get_info ih pid i override p requires limit secs now enc plain = Panic <->
   wants_encryption override p requires /\
   exists t0, d_tcp enc = Some (t0, Ok tt) /\ t0 <= limit /\ 2 ^ 63 <= (now + t0) / 1000000000 + secs) /\
  (forall l, get_info ih pid i override p requires limit secs now enc plain <> Ret (l, SPanicked)).
Proof.
  intros L1 L2 W. pose proof (get_info_session ih pid i override p requires limit secs now enc plain L1 L2 W) as G. split; [split|].
  - intros H. rewrite H in G. split.
    + apply mode_encrypts. unfold get_info in H. destruct (get_crypto_mode override p requires) as [[]|x]; auto; [|discriminate H].
      exfalso. destruct (plain_linked ih pid i now (within limit plain) L1 L2 W) as [NP _].
      destruct (connect_plain ih pid i now (within limit plain)) as [r|]; [|congruence].
      destruct (run_connect override p requires limit None r) as [[l t] [[c later]|e]]; [|discriminate]. destruct (pieces later). discriminate.
    + destruct G as (t0 & E & L & P). exists t0. split; [exact E|]. split; [exact L|]. eapply panic_iff, P.
  - intros (M & t0 & E & L & P). apply mode_encrypts in M.
    assert (C : connect_crypto ih pid i secs now (within limit enc) = Panic).
    { apply crypto_linked; auto. exists t0. split; [|apply panic_iff, P]. unfold within. cbn [d_tcp]. rewrite E, (proj2 (N.leb_le _ _) L). reflexivity. }
    unfold get_info. rewrite C. destruct M as [-> | ->]; reflexivity.
  - intros l H. rewrite H in G. destruct G as (reads & e & G). destruct (session ih pid i reads e) as [out s] eqn:S. cbn [snd] in G. subst s.
    destruct (session_authentic _ _ _ _ _ _ _ L1 L2 W S) as [A _]. congruence.
Qed.

Section Serve.
Context (ih pid : bytes) (i : ip) (meta : bytes).
Hypothesis LP : length pid = 20%nat.
Hypothesis W : wf_ip i.
Hypothesis BD : bencoded_dict meta.
Hypothesis SH : sha1 meta = ih.
Hypothesis LB : blen meta <= 20971520.

Lemma get_info_plain override p limit secs now enc plain t0 :
  override = Some Plain \/ (override = None /\ (p = CPNever \/ p = CPIfRequired)) ->
  d_tcp plain = Some (t0, Ok tt) -> t0 <= limit -> serves_plain ih meta (now + limit) (d_reads plain) ->
  get_info ih pid i override p false limit secs now enc plain = Ret ([false], SDone (Ok (mkTI ih meta))).
Proof.
  intros M ET LE S. destruct (plain_serves ih pid i meta LP W BD SH LB now plain t0 limit ET LE S) as (t & c & l & E & LT & F).
  unfold fetched, more_reads in F. unfold get_info, run_connect.
  replace (get_crypto_mode override p false) with (Ok Plain : res peer_error crypto_mode) by (destruct M as [->|(-> & [-> | ->])]; reflexivity).
  rewrite E. unfold timeout. rewrite (proj2 (N.leb_le _ _) LT). destruct (pieces l) as [bs e]. cbn [fst snd] in F. rewrite F. reflexivity.
Qed.
Lemma get_info_encrypted override p requires limit secs now enc plain t0 : wants_encryption override p requires ->
  d_tcp enc = Some (t0, Ok tt) -> (now + t0) / 1000000000 + secs < 2 ^ 63 -> t0 + ns secs <= limit ->
  serves_under_key ih meta (now + t0) secs (now + limit) (d_key enc) (d_reads enc) ->
  get_info ih pid i override p requires limit secs now enc plain = Ret ([true], SDone (Ok (mkTI ih meta))).
Proof.
  intros M ET NO LE S. destruct (crypto_serves ih pid i meta LP W BD SH LB secs now enc t0 limit ET NO LE S) as (t & c & l & E & LT & F).
  unfold fetched, more_reads in F. unfold get_info, run_connect. rewrite E. apply mode_encrypts in M.
  destruct M as [-> | ->]; unfold timeout; rewrite (proj2 (N.leb_le _ _) LT); cbv iota; destruct (pieces l) as [bs e]; cbn [fst snd] in F; rewrite F; reflexivity.
Qed.
Lemma get_info_fallback override p limit secs now enc plain t0 o t x t1 :
  override = Some Prefer \/ (override = None /\ p = CPPrefer) ->
  d_tcp enc = Some (t0, Ok tt) -> t0 <= limit ->
  handshake ih secs (d_pada enc) (d_padc enc) (d_key enc) (now + t0) (d_reads enc) = (o, HFail t x) -> t <= now + limit ->
  d_tcp plain = Some (t1, Ok tt) -> t1 <= limit -> serves_plain ih meta (t + limit) (d_reads plain) ->
  get_info ih pid i override p false limit secs now enc plain = Ret ([true; false], SDone (Ok (mkTI ih meta))).
Proof.
  intros M ET LE H LT EP LP1 S.
  assert (GE : now + t0 <= t).
  { pose proof (hs_loop_after (3 + length (d_reads enc)) (build ih secs (d_pada enc) (d_padc enc) (d_key enc)) None (now + t0) (d_reads enc) Logic.I) as X.
    unfold handshake in H. rewrite H in X. exact X. }
  assert (EC : connect_crypto ih pid i secs now (within limit enc) = Ret (Some (t - now, Err ECryptoHandshake))).
  { unfold connect_crypto, connect_encrypted, within. cbn [d_tcp d_reads d_pada d_padc d_key]. rewrite ET, (proj2 (N.leb_le _ _) LE), H. reflexivity. }
  destruct (plain_serves ih pid i meta LP W BD SH LB t plain t1 limit EP LP1 S) as (t' & c & l & E & LT' & F).
  unfold fetched, more_reads in F. unfold get_info, run_connect.
  replace (get_crypto_mode override p false) with (Ok Prefer : res peer_error crypto_mode) by (destruct M as [->|(-> & ->)]; reflexivity).
  rewrite EC. cbv zeta. replace (now + (t - now)) with t by lia. unfold timeout. rewrite (proj2 (N.leb_le (t - now) limit)) by lia. rewrite E.
  rewrite (proj2 (N.leb_le _ _) LT'). destruct (pieces l) as [bs e]. cbn [fst snd] in F. rewrite F. reflexivity.
Qed.
End Serve.

(** An example *)
Lemma ex_greeting : greeting (sha1 ex_data) (ex_hello ++ ex_frame ex_shake).
Proof.
  exists ex_hello, (be_bytes 8 1048580), (ex_frame ex_shake), ex_shake, (mkEH None (Some [(bs "ut_metadata", 3)]) None (Some 40) None), 3.
  split; [reflexivity|]. split; [exists (bs "-TR0000-bbbbbbbbbbbb"); split; [reflexivity|]; vm_compute; auto|].
  split; [vm_compute; discriminate|]. split; [apply framed_ex; vm_compute; discriminate|].
  split; [apply recv_says; vm_compute; reflexivity|].
  split; [exists [(bs "ut_metadata", 3)]; split; [reflexivity|left; reflexivity]|lia].
Qed.
Definition ex_rest : bytes := [x00; x00; x00; x00] ++ ex_frame [x0e] ++ ex_frame ex_piece.
Definition ex_reads (t : N) : script := [(t + ns 2, RData (firstn 70 (ex_hello ++ ex_frame ex_shake))); (t + ns 3, RData (skipn 70 (ex_hello ++ ex_frame ex_shake)));
   (t + ns 300, RData ex_rest); (t + ns 301, REof)].
Lemma ex_whole : honest_stream (sha1 ex_data) ex_data ((ex_hello ++ ex_frame ex_shake) ++ ex_rest).
Proof. destruct ex_session as (_ & H & _). replace (concat ex_stream) with ((ex_hello ++ ex_frame ex_shake) ++ ex_rest) in H; [exact H|vm_compute; reflexivity]. Qed.
Lemma ex_plain t : serves_plain (sha1 ex_data) ex_data (t + ns 60) (ex_reads t).
Proof.
  set (g := ex_hello ++ ex_frame ex_shake).
  exists [(t + ns 2, RData (firstn 70 g)); (t + ns 3, RData (skipn 70 g))], [(t + ns 300, RData ex_rest); (t + ns 301, REof)], g.
  split; [reflexivity|]. split; [apply only_data_2|]. split; [intros e [<-|[<-|[]]]; unfold ns; cbn [fst]; lia|]. split; [exact ex_greeting|].
  cbn [pieces fst concat]. rewrite data_2, app_nil_r. split; [exists []; now rewrite app_nil_r|].
  exact ex_whole.
Qed.
Definition ex_enc (t key : N) (ours : bytes) : script :=
  let cb := cipher (bs "keyB") (shared (public (be_val ours)) key) (sha1 ex_data) in
  let c := fst (rc4_apply cb (packet4 (bs "padding") ++ (ex_hello ++ ex_frame ex_shake) ++ ex_rest)) in
  [(t + ns 1, RData (firstn 50 (public key ++ bs "PadB"))); (t + ns 2, RData (skipn 50 (public key ++ bs "PadB")));
   (t + ns 31, RData (firstn 100 c)); (t + ns 32, RData (skipn 100 c)); (t + ns 33, RError)].
Lemma ex_encrypted t key ours : serves_encrypted (sha1 ex_data) ex_data t 30 (t + ns 59) ours (ex_enc t key ours).
Proof.
  set (g := ex_hello ++ ex_frame ex_shake). set (k := public key ++ bs "PadB").
  set (c := fst (rc4_apply (cipher (bs "keyB") (shared (public (be_val ours)) key) (sha1 ex_data)) (packet4 (bs "padding") ++ g ++ ex_rest))).
  exists [(t + ns 1, RData (firstn 50 k)); (t + ns 2, RData (skipn 50 k))], [(t + ns 31, RData (firstn 100 c)); (t + ns 32, RData (skipn 100 c))],
    [(t + ns 33, RError)], key, (bs "PadB").
  split; [reflexivity|]. split; [apply only_data_2|]. split; [apply only_data_2|].
  split; [apply split_2; unfold ns; lia|]. split; [intros e [<-|[<-|[]]]; unfold ns; cbn [fst]; lia|].
  rewrite !data_2. split; [reflexivity|]. split; [apply Nat.leb_le; vm_compute; reflexivity|].
  exists (bs "padding"), (g ++ ex_rest), g. rewrite !data_2. split; [vm_compute; reflexivity|].
  split; [apply app_nil_r|]. split; [exact ex_greeting|]. split; [exists ex_rest; reflexivity|]. split; [|exact ex_whole].
  unfold c. rewrite rc4_length, !app_length. lia.
Qed.
Lemma ex_closes skey secs pada padc key now t : now / 1000000000 + secs < 2 ^ 63 -> now <= t -> t <= now + ns secs ->
  exists o, handshake skey secs pada padc key now [(t, REof)] = (o, HFail t HDisconnect).
Proof.
  intros L L1 L2. unfold handshake. change (3 + length [(t, REof)])%nat with 4%nat. rewrite hs_loop_out by reflexivity. unfold dl_of.
  replace (h_timeout (build skey secs pada padc key)) with (Some secs) by reflexivity. unfold instant_add. rewrite (proj2 (N.ltb_lt _ _) L). cbv zeta.
  rewrite hs_loop_wait by reflexivity. unfold after_wait. rewrite N.max_r by exact L1. rewrite (proj2 (N.leb_le _ _) L2). eexists. reflexivity.
Qed.
