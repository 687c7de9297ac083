(** Fetching with encryption succeeds with no other peers than those of [serves_under_key]. *)
From Verif Require Import Base BaseFacts M_Net M_Sha1 M_Torrent M_Peer M_Extensions M_Messages M_Frame M_Rc4 M_Mse S_Mse M_Session M_Connect M_GetInfo
  S_Bencode S_Wire S_Download S_Frame S_Session S_GetInfo P_Frame P_Download P_Session P_Exchange P_Mse P_Mse2 P_GetInfo P_GetInfo2 P_GetInfo3 P_GetInfo4 P_GetInfo5.

(** The reads up to the key-exchange deadline *)
Lemma key_phase d : forall reads : script, exists before, only_data before /\ (forall e, In e before -> fst e <= d) /\
  ((exists after, reads = before ++ after /\ split_at d before after) \/
   (exists t r more, reads = before ++ (t, r) :: more /\ t <= d /\ (r = REof \/ r = RError))).
Proof.
  induction reads as [|[t r] reads (before & OB & TB & IH)].
  - exists []. split; [intros ? ? []|]. split; [intros ? []|]. left. exists []. split; [reflexivity|]. split; [intros ? []|discriminate].
  - destruct (N.leb_spec t d) as [LE|GT].
    + destruct r as [b| |].
      * exists ((t, RData b) :: before). split; [intros t' r' [[= <- <-]|X]; eauto|]. split; [intros e [<-|X]; auto|].
        destruct IH as [(after & -> & SB & SA)|(t1 & r1 & more & -> & L & R)].
        -- left. exists after. split; [reflexivity|]. split; [intros e [<-|X]; auto|exact SA].
        -- right. exists t1, r1, more. auto.
      * exists []. split; [intros ? ? []|]. split; [intros ? []|]. right. exists t, REof, reads. auto.
      * exists []. split; [intros ? ? []|]. split; [intros ? []|]. right. exists t, RError, reads. auto.
    + exists []. split; [intros ? ? []|]. split; [intros ? []|]. left. exists ((t, r) :: reads). split; [reflexivity|]. split; [intros ? []|].
      intros e r' [= <- <-]. exact GT.
Qed.
(** What has been read when the reply is complete *)
Lemma phase2_only : forall reads f s now o t ks rest later, h_output s = None -> h_timeout s = None ->
  hs_loop f s None now reads = (o, HDone t ks rest later) ->
  now <= t /\ exists used s', reads = used ++ later /\ only_data used /\ all_by t used /\
    (used = [] -> s' = s) /\ (used <> [] -> handle_input s (data used) = Ok s') /\ into_keystream s' = Some (ks, rest).
Proof.
  induction reads as [|[t1 r] reads IH]; intros f s now o t ks rest later O T H; (destruct f; [discriminate H|]); rewrite hs_loop_S in H;
    (destruct (into_keystream s) as [[ks0 rest0]|] eqn:K;
     [injection H as <- <- <- <- <-; split; [lia|]; exists [], s; split; [reflexivity|]; split; [intros ? ? []|]; split; [intros ? []|]; split; [auto|]; split; [intros X; now elim X|exact K]|]).
  - unfold dl_of in H. rewrite T, O in H. cbv zeta in H. rewrite clear_id in H by auto. cbn in H. discriminate H.
  - unfold dl_of in H. rewrite T, O in H. cbv zeta in H. rewrite clear_id in H by auto. rewrite pair_nil in H. unfold after_wait in H.
    destruct r as [b| |]; [|discriminate H|discriminate H]. destruct (handle_input s b) as [s1|x] eqn:E1; [|discriminate H].
    pose proof (handle_input_fields _ _ _ E1) as (O1 & T1 & _). rewrite O in O1. rewrite T in T1.
    destruct (IH f s1 _ _ _ _ _ _ O1 T1 H) as (L & used & s' & -> & OD & AB & E0 & E2 & K'). split; [lia|].
    exists ((t1, RData b) :: used), s'. split; [reflexivity|]. split; [intros ? ? [[= <- <-]|X]; eauto|]. split; [intros e [<-|X]; [cbn; lia|auto]|].
    split; [discriminate|]. split; [|exact K']. intros _. rewrite data_cons. cbn [data_of snd]. rewrite handle_input_app, E1. cbn [res_bind].
    destruct used as [|u used]; [|apply E2; discriminate]. rewrite (E0 eq_refl). exact (handle_input_stable _ _ _ E1).
Qed.
Lemma decrypted_split : forall a ks b x, decrypted ks x = a ++ b -> only_data a ->
  exists a' b', x = a' ++ b' /\ only_data a' /\ a = decrypted ks a' /\ b = decrypted (snd (ks_decode ks (data a'))) b' /\ map fst a = map fst a'.
Proof.
  induction a as [|[t r] a IH]; intros ks b x E OD.
  - exists [], x. cbn. rewrite ks_decode_nil. repeat (split; [solve [auto; intros ? ? []]|]). cbn in E. cbn [snd]. auto.
  - apply only_data_cons in OD as ((p & ->) & OD). destruct x as [|[t1 [c| |]] x]; [discriminate E| |discriminate E|discriminate E].
    cbn [decrypted] in E. destruct (ks_decode ks c) as [p1 ks1] eqn:D. cbn [app] in E. injection E as -> -> E.
    destruct (IH ks1 b x E OD) as (a' & b' & -> & OD' & -> & -> & F). exists ((t, RData c) :: a'), b'. split; [reflexivity|].
    split; [intros ? ? [[= <- <-]|X]; eauto|]. split; [cbn [decrypted]; now rewrite D|]. split; [|cbn; now f_equal].
    rewrite data_cons. cbn [data_of snd]. rewrite ks_decode_app, D. destruct (ks_decode ks1 (data a')). reflexivity.
Qed.
Lemma ok_inj {E A} (a b : A) : (Ok a : res E A) = Ok b -> a = b. Proof. now intros [= ->]. Qed.
Lemma some_inj {A B} (a c : A) (b d : B) : Some (a, b) = Some (c, d) -> a = c /\ b = d. Proof. now intros [= -> ->]. Qed.
Section Crypto.
Context (ih pid : bytes) (i : ip).
Hypothesis L1 : length ih = 20%nat.
Hypothesis L2 : length pid = 20%nat.
Hypothesis W : wf_ip i.
(** The handshake is complete *)
Lemma handshake_only secs pada padc key now reads o t ks rest later :
  handshake ih secs pada padc key now reads = (o, HDone t ks rest later) ->
  now / 1000000000 + secs < 2 ^ 63 /\ now + ns secs <= t /\
  exists before used padd, let secret := shared (firstn 96 (data before)) (be_val key) in
    let cb := cipher (bs "keyB") secret ih in let i1 := snd (rc4_apply cb (packet4 padd)) in
    reads = before ++ used ++ later /\ only_data before /\ only_data used /\ split_at (now + ns secs) before (used ++ later) /\ all_by t used /\
    96 <= blen (data before) <= 608 /\ blen padd < 65536 /\ ks = KRc4 (out_state secret ih padc) i1 /\
    exists c0, data used = c0 ++ rest /\ rc4_apply cb c0 = (packet4 padd, i1).
Proof.
  intros H. assert (NO : now / 1000000000 + secs < 2 ^ 63).
  { destruct (N.ltb_spec (now / 1000000000 + secs) (2 ^ 63)) as [L|L]; [exact L|]. apply (panic_iff ih secs pada padc key now reads) in L. rewrite H in L. discriminate L. }
  split; [exact NO|]. destruct (key_phase (now + ns secs) reads) as (before & OB & TB & [(after & -> & SP)|(t1 & r & more & -> & LE & R)]).
  2:{ destruct (closed_early ih secs pada padc key now before t1 r more NO OB TB LE R) as (o' & t' & e & E). rewrite E in H. discriminate H. }
  pose proof (handshake_run ih secs pada padc key now before after NO OB SP) as HR. cbv zeta in HR. rewrite H in HR. clear H.
  destruct ((96 <=? blen (data before)) && (blen (data before) <=? 608)) eqn:RG; [|discriminate HR].
  apply andb_true_iff in RG as [R1 R2]. apply N.leb_le in R1, R2.
  destruct (hs_loop (2 + length after) _ None (now + ns secs) after) as [o1 r1] eqn:HL. injection HR as -> <-.
  set (secret := shared (firstn 96 (data before)) (be_val key)) in *.
  destruct (phase2_only _ _ (start4 secret ih padc) _ _ _ _ _ _ eq_refl eq_refl HL) as (GE & used & s' & -> & OD & AB & E0 & E1 & K). split; [exact GE|].
  assert (NE : used <> []). { intros ->. rewrite (E0 eq_refl) in K. discriminate K. }
  specialize (E1 NE). rewrite handle_input_enter in E1. cbn [start4 h_provide h_state h_input enter app] in E1.
  set (cb := cipher (bs "keyB") secret ih) in *.
  pose proof (verdict4_ok (out_state secret ih padc) cb (data used)) as V. unfold verdict4 in V. cbv zeta in V.
  destruct V as [(padd & payload & LPD & EP & V)|[(_ & e & V)|(_ & ks' & sub & rest' & V)]].
  2:{ rewrite V in E1. discriminate E1. }
  2:{ rewrite V in E1. cbn [res_bind] in E1. apply ok_inj in E1. rewrite <- E1 in K. discriminate K. }
  rewrite V in E1. cbn [res_bind] in E1. apply ok_inj in E1. subst s'. unfold into_keystream, set_input in K. cbn [h_state h_input] in K. apply some_inj in K as [K1 K2]. subst ks rest.
  exists before, used, padd. cbv zeta. split; [reflexivity|]. do 4 (split; [assumption|]). split; [auto|]. split; [exact LPD|]. split; [reflexivity|].
  exists (firstn (length (packet4 padd)) (data used)). split; [symmetry; apply firstn_skipn|]. fold secret. fold cb.
  set (c0 := firstn _ _). assert (LL : length c0 = length (packet4 padd)).
  { unfold c0. rewrite firstn_length. apply Nat.min_l. apply (f_equal (@length _)) in EP. rewrite rc4_length, app_length in EP. lia. }
  destruct (rc4_apply cb c0) as [x j] eqn:X. f_equal; [|rewrite <- (rc4_state cb _ _ LL), X; reflexivity].
  rewrite <- (firstn_skipn (length (packet4 padd)) (data used)) in EP. fold c0 in EP. rewrite (fst_app_rc4 _ _ _ _ _ X) in EP.
  apply app_eq_len in EP as (-> & _); [reflexivity|]. rewrite <- LL, <- (rc4_length cb c0), X. reflexivity.
Qed.
Lemma crypto_only secs now limit d t c later info : connect_crypto ih pid i secs now (within limit d) = Ret (Some (t, Ok (c, later))) -> t <= limit ->
  snd (fetch_from ih (more_reads c (fst (pieces later))) (snd (pieces later))) = SDone (Ok info) ->
  blen (ti_data info) <= 20971520 /\ exists t0, d_tcp d = Some (t0, Ok tt) /\ (now + t0) / 1000000000 + secs < 2 ^ 63 /\ t0 + ns secs <= limit /\
    serves_under_key ih (ti_data info) (now + t0) secs (now + limit) (d_key d) (d_reads d).
Proof.
  unfold connect_crypto, connect_encrypted, within. cbn [d_tcp d_reads d_pada d_padc d_key]. destruct (d_tcp d) as [[t0 r]|]; [|discriminate].
  destruct (N.leb_spec t0 limit) as [LE|]; [|discriminate]. destruct r as [[]|x]; [|discriminate].
  destruct (handshake ih secs (d_pada d) (d_padc d) (d_key d) (now + t0) (d_reads d)) as [o [t1 ks rest lat|? ?| |]] eqn:H; cbn [snd]; try discriminate.
  destruct (handshake_only _ _ _ _ _ _ _ _ _ _ _ H) as (NO & GE & before & used & padd & ER & OB & OU & SP & AB & RG & LPD & -> & c0 & EU & D0). clear H.
  set (secret := shared _ _) in *. set (cb := cipher _ _ _) in *. set (i1 := snd (rc4_apply cb (packet4 padd))) in *. set (ks := KRc4 _ i1).
  destruct (exchange ih pid i t1 [] _) as [[[t2 r]|]|] eqn:E; try discriminate. intros [= <- ->] LT F.
  destruct (exchange_times _ _ _ _ _ _ _ _ _ E) as (GE2 & used2 & EX & OD2 & AB2 & C). clear E. cbn [app] in C.
  rewrite <- (link_session ih pid i (map data_of used2) (fst (pieces later)) (snd (pieces later)) c C) in F.
  destruct (session_only _ _ _ _ _ _ L1 L2 W F) as (LB & HS). split; [exact LB|]. exists t0. split; [reflexivity|]. split; [exact NO|].
  split; [lia|].
  destruct (connect_spec ih pid i (map data_of used2) Silent L1 L2 W) as [_ GC]. rewrite C in GC. destruct GC as [[_ _ _ (h0 & reserved & w0 & f0 & shake & code & EC & HH & HB & FW & FS & _ & HO & _ & HC)] _].
  destruct (decrypted_split _ _ _ _ EX OD2) as (u1 & l1 & EX1 & OU1 & -> & -> & TM).
  assert (DU : data (decrypted ks u1) = fst (ks_decode ks (data u1))) by (apply (decrypted_app u1 ks []), OU1).
  assert (NE : u1 <> []).
  { intros ->. cbn in EC. destruct HH as (peer_id & -> & _). discriminate EC. }
  assert (EX2 : exists u, lat = u ++ l1 /\ data u1 = rest ++ data u /\ only_data u /\ all_by (now + limit) u).
  { assert (A1 : all_by (now + limit) u1).
    { intros e X. apply (in_map fst) in X. rewrite <- TM in X. apply in_map_iff in X as (e' & <- & X). specialize (AB2 e' X). lia. }
    destruct rest as [|b rest].
    - exists u1. auto.
    - destruct u1 as [|e u1]; [now elim NE|]. cbn [app] in EX1. injection EX1 as <- ->. exists u1. split; [reflexivity|]. split; [reflexivity|]. split.
      + intros ? ? X. eapply OU1. right. exact X.
      + intros e X. apply A1. right. exact X. }
  destruct EX2 as (u & -> & EU1 & OU2 & AU).
  exists before, (used ++ u), l1. rewrite <- app_assoc. split; [exact ER|]. split; [exact OB|].
  split; [intros ? ? X; apply in_app_iff in X as [X|X]; eauto|]. split; [exact SP|].
  split; [intros e X; apply in_app_iff in X as [X|X]; [specialize (AB e X); lia|auto]|]. split; [exact RG|].
  fold secret. set (rem := concat (fst (pieces l1))).
  assert (DA : data (used ++ u) = c0 ++ data u1) by (rewrite EU1, app_assoc, <- EU; unfold data; now rewrite map_app, concat_app).
  set (pay1 := fst (rc4_apply i1 (data u1))). set (i2 := snd (rc4_apply i1 (data u1))). set (pay2 := fst (rc4_apply i2 rem)).
  assert (DK : ks_decode ks (data u1) = (pay1, KRc4 (out_state secret ih (d_padc d)) i2)).
  { unfold ks, pay1, i2. cbn [ks_decode]. destruct (rc4_apply i1 (data u1)). reflexivity. }
  assert (D1 : concat (map data_of (decrypted ks u1)) = pay1) by (change (data (decrypted ks u1) = pay1); rewrite DU, DK; reflexivity).
  exists padd, (pay1 ++ pay2), (h0 ++ w0). split; [exact LPD|].
  assert (PA : fst (rc4_apply cb (data (used ++ u) ++ rem)) = packet4 padd ++ pay1 ++ pay2).
  { rewrite DA, <- app_assoc. rewrite (fst_app_rc4 _ _ _ _ _ D0). f_equal. apply fst_app_rc4. unfold pay1, i2. apply surjective_pairing. }
  split; [rewrite <- PA, rc4_inv; reflexivity|]. split; [|split; [|split]].
  - exists h0, reserved, w0, f0, shake, code. repeat (split; [solve [auto]|]). lia.
  - rewrite D1, app_assoc in EC. rewrite EC. eexists. rewrite <- app_assoc. reflexivity.
  - rewrite DA, !app_length. rewrite <- (rc4_length cb c0), D0. cbn [fst]. apply Nat.add_le_mono_l.
    rewrite <- (rc4_length i1 (data u1)). fold pay1. rewrite D1 in EC. rewrite EC, !app_length. lia.
  - rewrite concat_app, D1, pieces_decrypted, DK in HS. cbn [snd ks_decode] in HS. fold rem in HS.
    replace (fst (let (x, inc) := rc4_apply i2 rem in (x, KRc4 (out_state secret ih (d_padc d)) inc))) with pay2 in HS by (unfold pay2; destruct (rc4_apply i2 rem); reflexivity).
    exact HS.
Qed.

Lemma mode_avoids override p requires : get_crypto_mode override p requires = Ok Plain <-> avoids_encryption override p requires.
Proof.
  unfold avoids_encryption, get_crypto_mode. destruct override as [[]|], requires, p; cbn; split; intros H;
    repeat match goal with H : _ \/ _ |- _ => destruct H | H : _ /\ _ |- _ => destruct H end; try discriminate; try congruence; auto 9.
Qed.
Lemma mode_prefers override p requires : get_crypto_mode override p requires = Ok Prefer <-> prefers_encryption override p requires.
Proof.
  unfold prefers_encryption, get_crypto_mode. destruct override as [[]|], requires, p; cbn; split; intros H;
    repeat match goal with H : _ \/ _ |- _ => destruct H | H : _ /\ _ |- _ => destruct H end; try discriminate; try congruence; auto 9.
Qed.
Lemma send_error reg m x : channel_send reg m = Ret (Err x) -> x <> ECryptoHandshake.
Proof. unfold channel_send. destruct (msg_encode m reg) as [[f|e]|]; try discriminate. destruct (frame_encode f); [discriminate|]. intros [= <-]. discriminate. Qed.
Lemma connect_error reads e x : snd (connect ih pid i reads e) = SDone (Err x) -> x <> ECryptoHandshake.
Proof.
  unfold connect. destruct read_exact as [buf reads1| |]; [|intros [= <-]; discriminate|discriminate].
  destruct (handshake_decode buf) as [h|]; [|intros [= <-]; discriminate]. destruct negb; [intros [= <-]; discriminate|].
  destruct negb; [intros [= <-]; discriminate|]. destruct local_registry as [local|]; [|discriminate].
  destruct (channel_send reg_new _) as [[b1|x1]|] eqn:E1; [|intros [= <-]; exact (send_error _ _ _ E1)|discriminate].
  destruct (framed_next _ _ _ _) as [[[r st] buf'] reads2]. destruct r as [f| | |]; [|intros [= <-]; discriminate|intros [= <-]; discriminate|discriminate].
  unfold recv_event. destruct (msg_decode f local) as [m|]; [|intros [= <-]; discriminate]. destruct m as [? |their| ?]; [intros [= <-]; discriminate| |intros [= <-]; discriminate].
  destruct eh_registry as [remote|]; [|intros [= <-]; discriminate]. destruct negb; [intros [= <-]; discriminate|].
  cbv zeta. destruct ext_has; [|discriminate]. destruct (channel_send remote _) as [[b2|x2]|] eqn:E2; [discriminate|intros [= <-]; exact (send_error _ _ _ E2)|discriminate].
Qed.
Lemma exchange_error : forall later now got t x, exchange ih pid i now got later = Ret (Some (t, Err x)) -> x <> ECryptoHandshake.
Proof.
  induction later as [|[t1 [b| |]] later IH]; intros now got t x; cbn [exchange];
    (destruct (snd (connect ih pid i got Silent)) as [[c0|y]| |] eqn:E; [discriminate|cbn [res_bind]; intros [= <- <-]; exact (connect_error _ _ _ E)| |discriminate]).
  - discriminate.
  - apply IH.
  - destruct (snd (connect ih pid i got Closed)) as [[c|y]| |] eqn:E1; try discriminate. intros [= <- <-]. exact (connect_error _ _ _ E1).
  - destruct (snd (connect ih pid i got Broken)) as [[c|y]| |] eqn:E1; try discriminate. intros [= <- <-]. exact (connect_error _ _ _ E1).
Qed.
Lemma handshake_failed secs now limit d t : (forall t0, d_tcp d <> Some (t0, Err ECryptoHandshake)) ->
  connect_crypto ih pid i secs now (within limit d) = Ret (Some (t, Err ECryptoHandshake)) ->
  exists t0 o x, d_tcp d = Some (t0, Ok tt) /\ t0 <= limit /\ handshake ih secs (d_pada d) (d_padc d) (d_key d) (now + t0) (d_reads d) = (o, HFail (now + t) x).
Proof.
  intros NE. unfold connect_crypto, connect_encrypted, within. cbn [d_tcp d_reads d_pada d_padc d_key]. destruct (d_tcp d) as [[t0 r]|]; [|discriminate].
  destruct (N.leb_spec t0 limit) as [LE|]; [|discriminate]. destruct r as [[]|x]; [|intros [= <- ->]; now elim (NE t0)].
  destruct (handshake ih secs (d_pada d) (d_padc d) (d_key d) (now + t0) (d_reads d)) as [o [t1 ks rest lat|t1 x| |]] eqn:H; cbn [snd]; try discriminate.
  - destruct exchange as [[[t2 [c|x]]|]|] eqn:E; try discriminate. intros [= <- ->]. now elim (exchange_error _ _ _ _ _ E).
  - intros [= <-]. assert (GE : now + t0 <= t1).
    { pose proof (hs_loop_after (3 + length (d_reads d)) (build ih secs (d_pada d) (d_padc d) (d_key d)) None (now + t0) (d_reads d) Logic.I) as X.
      unfold handshake in H. rewrite H in X. exact X. }
    exists t0, o, x. split; [reflexivity|]. split; [exact LE|]. replace (now + (t1 - now)) with t1 by lia. exact H.
Qed.
Lemma exact_crypto secs now limit d t c later meta : connect_crypto ih pid i secs now (within limit d) = Ret (Some (t, Ok (c, later))) -> t <= limit ->
  (let (bs, e) := pieces later in snd (fetch_from ih (more_reads c bs) e)) = SDone (Ok (mkTI ih meta)) ->
  blen meta <= 20971520 /\ exists t0, d_tcp d = Some (t0, Ok tt) /\ (now + t0) / 1000000000 + secs < 2 ^ 63 /\ t0 + ns secs <= limit /\
    serves_under_key ih meta (now + t0) secs (now + limit) (d_key d) (d_reads d).
Proof. intros E LT F. apply (crypto_only secs now limit d t c later (mkTI ih meta) E LT). destruct (pieces later). exact F. Qed.
Lemma exact_plain now limit d t c later meta : connect_plain ih pid i now (within limit d) = Ret (Some (t, Ok (c, later))) -> t <= limit ->
  (let (bs, e) := pieces later in snd (fetch_from ih (more_reads c bs) e)) = SDone (Ok (mkTI ih meta)) ->
  blen meta <= 20971520 /\ exists t0, d_tcp d = Some (t0, Ok tt) /\ t0 <= limit /\ serves_plain ih meta (now + limit) (d_reads d).
Proof. intros E LT F. apply (plain_only ih pid i L1 L2 W now limit d t c later (mkTI ih meta) E LT). destruct (pieces later). exact F. Qed.
Lemma get_info_exact override p requires limit secs now enc plain l meta :
  (forall t0, d_tcp enc <> Some (t0, Err ECryptoHandshake)) ->
  (get_info ih pid i override p requires limit secs now enc plain = Ret (l, SDone (Ok (mkTI ih meta))) <->
   bencoded_dict meta /\ sha1 meta = ih /\ blen meta <= 20971520 /\ obtainable ih meta override p requires limit secs now enc plain l).
Proof.
  intros NE. split.
  - intros G. destruct (get_info_authentic _ _ _ _ _ _ _ _ _ _ _ _ _ L1 L2 W G) as (_ & SH & BD). cbn [ti_data] in SH, BD. split; [exact BD|]. split; [exact SH|].
    unfold get_info, run_connect in G. unfold obtainable. destruct (get_crypto_mode override p requires) as [[| |]|] eqn:M; [| | |discriminate G].
    + (* encryption only *)
      destruct (connect_crypto ih pid i secs now (within limit enc)) as [r|] eqn:EC; [|discriminate G]. unfold timeout in G.
      destruct r as [[t a]|]; [|discriminate G]. destruct (N.leb_spec t limit) as [LT|]; [|discriminate G]. destruct a as [[c later]|]; [|discriminate G].
      destruct (exact_crypto secs now limit enc t c later meta EC LT) as (LB & S); [destruct (pieces later); now injection G as <- G|].
      split; [exact LB|]. right; left. split; [destruct (pieces later); now injection G as <- G|]. split; [apply mode_encrypts; auto|exact S].
    + (* encryption first *)
      destruct (connect_crypto ih pid i secs now (within limit enc)) as [r|] eqn:EC; [|discriminate G]. unfold timeout in G.
      destruct r as [[t a]|]; [|discriminate G]. destruct (N.leb_spec t limit) as [LT|]; [|discriminate G]. destruct a as [[c later]|x].
      * destruct (exact_crypto secs now limit enc t c later meta EC LT) as (LB & S); [destruct (pieces later); now injection G as <- G|].
        split; [exact LB|]. right; left. split; [destruct (pieces later); now injection G as <- G|]. split; [apply mode_encrypts; auto|exact S].
      * assert (X : x = ECryptoHandshake) by (destruct x; (reflexivity || discriminate G)). subst x. cbv zeta iota in G.
        destruct (connect_plain ih pid i (now + t) (within limit plain)) as [r|] eqn:EP; [|discriminate G].
        destruct r as [[t2 a]|]; [|discriminate G]. destruct (N.leb_spec t2 limit) as [LT2|]; [|discriminate G]. destruct a as [[c later]|]; [|discriminate G].
        destruct (exact_plain (now + t) limit plain t2 c later meta EP LT2) as (LB & t1 & S1 & S2 & S3); [destruct (pieces later); now injection G as <- G|].
        split; [exact LB|]. right; right. split; [destruct (pieces later); now injection G as <- G|]. split; [apply mode_prefers, M|].
        destruct (handshake_failed secs now limit enc t NE EC) as (t0 & o & x & H1 & H2 & H3). exists t0, o, (now + t), x, t1. repeat (split; [assumption || lia|]). exact S3.
    + (* no encryption *)
      destruct (connect_plain ih pid i now (within limit plain)) as [r|] eqn:EC; [|discriminate G]. unfold timeout in G.
      destruct r as [[t a]|]; [|discriminate G]. destruct (N.leb_spec t limit) as [LT|]; [|discriminate G]. destruct a as [[c later]|]; [|discriminate G].
      destruct (exact_plain now limit plain t c later meta EC LT) as (LB & S); [destruct (pieces later); now injection G as <- G|].
      split; [exact LB|]. left. split; [destruct (pieces later); now injection G as <- G|]. split; [apply mode_avoids, M|exact S].
  - intros (BD & SH & LB & [(-> & (-> & A) & t0 & E & LE & S)|[(-> & A & t0 & E & NO & LE & S)|(-> & (-> & A) & t0 & o & t & x & t1 & E & LE & H & LT & E1 & LE1 & S)]]).
    + exact (get_info_plain ih pid i meta L2 W BD SH LB override p limit secs now enc plain t0 A E LE S).
    + exact (get_info_encrypted ih pid i meta L2 W BD SH LB override p requires limit secs now enc plain t0 A E NO LE S).
    + exact (get_info_fallback ih pid i meta L2 W BD SH LB override p limit secs now enc plain t0 o t x t1 A E LE H LT E1 LE1 S).
Qed.
End Crypto.
