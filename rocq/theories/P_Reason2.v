(** Why fetching the metadata from a peer failed (continues P_Reason). *)
From Verif Require Import Base BaseFacts S_Bencode S_Wire S_Download S_Session S_Mse S_GetInfo S_Reason S_Reason2 M_Net M_Torrent M_Peer M_Session M_Extensions M_Messages M_Frame M_Rc4 M_Mse M_Connect M_GetInfo
  P_Peer P_Frame P_Session P_Mse P_GetInfo P_GetInfo2 P_GetInfo3 P_GetInfo4 P_GetInfo5 P_GetInfo6 P_Reason.

Section Why.
Context (ih pid : bytes) (i : ip).
Hypothesis L1 : length ih = 20%nat.
Hypothesis L2 : length pid = 20%nat.
Hypothesis W : wf_ip i.

Lemma connect_connection reads e : (exists c, snd (connect ih pid i reads e) = SDone (Ok c)) <-> exists size t, connection ih (concat reads) size t.
Proof.
  split.
  - intros (c & E). destruct (connect_spec ih pid i reads e L1 L2 W) as [_ GC]. rewrite E in GC.
    destruct GC as [[GL GS GR (h0 & reserved & w0 & f0 & shake & code & EQ & HH & HB & FW & FS & HZ & HO & HG & HC)] _].
    exists (cn_size c), (total Head (cn_buf c) (cn_reads c)). exists h0, (w0 ++ total Head (cn_buf c) (cn_reads c)), reserved, shake, code. split; [exact EQ|]. split; [exact HH|]. split; [exact HB|].
    split; [exists f0; split; [exists w0; auto|exact FS]|]. split; [exact HO|]. split; [lia|exact HZ].
  - intros (size & t & h & t0 & r & k & c & EC & HH & HB & (f & (w & -> & FW) & FS) & HO & HC & _).
    destruct (connect_honest ih pid i reads e h r w f k c t L2 W EC HH HB FW FS HO HC) as (out & cn & E & _). rewrite E. cbn. eauto.
Qed.
Lemma connect_total reads e : snd (connect ih pid i reads e) <> SPanicked.
Proof. intros H. destruct (connect_spec ih pid i reads e L1 L2 W) as [_ P]. rewrite H in P. exact P. Qed.
Lemma connect_waits reads : snd (connect ih pid i reads Silent) = SWaiting -> undecided ih (concat reads).
Proof.
  intros E. split.
  - intros x N. apply (connect_fails ih pid i reads Silent x L1 L2 W) in N. congruence.
  - intros size t C. assert (X : exists c, snd (connect ih pid i reads Silent) = SDone (Ok c)) by (apply connect_connection; eauto). destruct X. congruence.
Qed.

(** ** The opening *)
Lemma opening_failed : forall later now got t x, exchange ih pid i now got later = Ret (Some (t, Err x)) ->
  snd (connect ih pid i (got ++ fst (pieces later)) (snd (pieces later))) = SDone (Err x).
Proof.
  induction later as [|[t1 [b| |]] later IH]; intros now got t x; cbn [exchange];
    (destruct (snd (connect ih pid i got Silent)) as [[c0|y]| |] eqn:E; [discriminate|cbn [res_bind]; intros [= <- <-]; rewrite connect_more by (rewrite E; discriminate); rewrite E; reflexivity| |discriminate]).
  - discriminate.
  - intros H. apply IH in H. cbn [pieces]. destruct (pieces later) as [bl e]. cbn [fst snd] in *. rewrite <- app_assoc in H. exact H.
  - cbn [pieces fst snd]. rewrite app_nil_r. destruct (snd (connect ih pid i got Closed)) as [[c|y]| |] eqn:E1; try discriminate. intros [= _ <-]. reflexivity.
  - cbn [pieces fst snd]. rewrite app_nil_r. destruct (snd (connect ih pid i got Broken)) as [[c|y]| |] eqn:E1; try discriminate. intros [= _ <-]. reflexivity.
Qed.
Lemma opening_late D : forall later now got, now <= D ->
  match exchange ih pid i now got later with Ret None => True | Ret (Some (t, _)) => D < t | Panic => False end ->
  exists used after, later = used ++ after /\ only_data used /\ split_at D used after /\ snd (connect ih pid i (got ++ map data_of used) Silent) = SWaiting.
Proof.
  assert (EN : forall got e, e <> Silent -> snd (connect ih pid i got Silent) = SWaiting -> exists x, snd (connect ih pid i got e) = SDone (Err x)).
  { intros got e NE E. pose proof (connect_ends ih pid i got e NE) as NW. destruct (snd (connect ih pid i got e)) as [[c|x]| |] eqn:E1; [|eauto|congruence|destruct (connect_total _ _ E1)].
    assert (X : exists c, snd (connect ih pid i got Silent) = SDone (Ok c)) by (apply connect_connection; apply (connect_connection got e); eauto). destruct X. congruence. }
  assert (HERE : forall later got, snd (connect ih pid i got Silent) = SWaiting -> (forall a l, later = a :: l -> D < fst a) ->
    exists used after, later = used ++ after /\ only_data used /\ split_at D used after /\ snd (connect ih pid i (got ++ map data_of used) Silent) = SWaiting).
  { intros later got E H. exists [], later. split; [reflexivity|]. split; [intros ? ? []|]. split; [split; [intros ? []|exact H]|]. cbn. rewrite app_nil_r. exact E. }
  induction later as [|[t1 [b| |]] later IH]; intros now got LN; cbn [exchange];
    (destruct (snd (connect ih pid i got Silent)) as [[c0|y]| |] eqn:E; [cbn [res_bind]; intros H; lia|cbn [res_bind]; intros H; lia| |intros []]).
  - intros _. apply HERE; [exact E|discriminate].
  - intros H. destruct (N.le_gt_cases t1 D) as [LE|GT].
    + destruct (IH (N.max now t1) (got ++ [b]) ltac:(lia) H) as (used & after & -> & OD & [S1 S2] & C). exists ((t1, RData b) :: used), after. split; [reflexivity|]. split; [intros ? ? [[= <- <-]|X]; eauto|].
      split; [split; [intros a [<-|X]; auto|exact S2]|]. cbn [map data_of snd]. rewrite <- app_assoc in C. exact C.
    + apply HERE; [exact E|]. intros a l [= <- <-]. exact GT.
  - destruct (EN got Closed ltac:(discriminate) E) as (x & E1). rewrite E1. intros H. apply HERE; [exact E|]. intros a l [= <- <-]. cbn [fst]. lia.
  - destruct (EN got Broken ltac:(discriminate) E) as (x & E1). rewrite E1. intros H. apply HERE; [exact E|]. intros a l [= <- <-]. cbn [fst]. lia.
Qed.
Lemma exchange_total now got later : exchange ih pid i now got later <> Panic.
Proof. pose proof (exchange_spec ih pid i L1 L2 W later now got) as H. intros E. rewrite E in H. exact H. Qed.
(** A stream whose exchange fails: when connecting, or later. *)
Lemma stream_failed later now t r x : exchange ih pid i now [] later = Ret (Some (t, r)) ->
  match r with Err y => y = x | Ok (c, rest) => snd (fetch_from ih (more_reads c (fst (pieces rest))) (snd (pieces rest))) = SDone (Err x) end ->
  failure ih (all_bytes later) (ends later) x.
Proof.
  intros E H. unfold all_bytes, ends. apply (session_fails ih pid i (fst (pieces later)) (snd (pieces later)) x L1 L2 W). destruct r as [[c rest]|y].
  - destruct (exchange_times _ _ _ _ _ _ _ _ _ E) as (_ & used & -> & OD & _ & C). cbn [app] in C. rewrite pieces_app by exact OD. cbn [fst snd]. rewrite (link_session _ _ _ _ _ _ _ C). exact H.
  - subst y. apply opening_failed in E. cbn [app] in E. unfold session. destruct (connect ih pid i (fst (pieces later)) (snd (pieces later))) as [o s]. cbn [snd] in E. subst s. reflexivity.
Qed.

(** ** An attempt without encryption *)
Definition after_link (r : res peer_error link) : res peer_error link * stage torrent_info :=
  (r, match r with Err x => SDone (Err x) | Ok (c, rest) => snd (fetch_from ih (more_reads c (fst (pieces rest))) (snd (pieces rest))) end).
Lemma plain_why limit now d r x : connect_plain ih pid i now (within limit d) = Ret r ->
  match r with
  | Some (t, a) => if t <=? limit then snd (after_link a) = SDone (Err x) else x = ConnectTimeout
  | None => x = ConnectTimeout
  end -> plain_failed ih limit now d x.
Proof.
  unfold connect_plain, within. cbn [d_tcp d_reads]. destruct (d_tcp d) as [[t0 a]|] eqn:T.
  2:{ intros [= <-] ->. apply pf_tcp, nt_late. rewrite T. discriminate. }
  destruct (N.leb_spec t0 limit) as [LE|GT].
  2:{ intros [= <-] ->. apply pf_tcp, nt_late. rewrite T. intros t r' [= <- <-]. exact GT. }
  destruct a as [[]|y].
  2:{ intros [= <-]. destruct (N.leb_spec t0 limit); [|lia]. cbn. intros [= ->]. apply pf_tcp. eapply nt_error; eauto. }
  pose proof (opening_late (now + limit) (d_reads d) (now + t0) [] ltac:(lia)) as LATE.
  destruct (exchange ih pid i (now + t0) [] (d_reads d)) as [[[t1 a]|]|] eqn:E; [| |destruct (exchange_total _ _ _ E)].
  - intros [= <-]. destruct (N.leb_spec (t1 - now) limit) as [LT|GT].
    + intros H. eapply pf_failure; eauto. eapply stream_failed; [exact E|]. destruct a as [[c rest]|y]; cbn in H; [exact H|congruence].
    + intros ->. eapply pf_late; eauto. destruct (LATE ltac:(lia)) as (used & after & -> & OD & SP & C). exists used, after. repeat (split; [assumption || reflexivity|]). apply connect_waits in C. exact C.
  - intros [= <-] ->. eapply pf_late; eauto. destruct (LATE I) as (used & after & -> & OD & SP & C). exists used, after. repeat (split; [assumption || reflexivity|]). apply connect_waits in C. exact C.
Qed.

(** ** An attempt with encryption *)
Lemma ends_decrypted l : forall ks, snd (pieces (decrypted ks l)) = snd (pieces l).
Proof.
  induction l as [|[t [b| |]] l IH]; intros ks; cbn [decrypted]; try reflexivity. destruct (ks_decode ks b) as [p ks1]. cbn [pieces]. specialize (IH ks1).
  destruct (pieces (decrypted ks1 l)), (pieces l). exact IH.
Qed.
Lemma decrypted_head ks l e r : decrypted ks l = e :: r -> exists e' r', l = e' :: r' /\ fst e' = fst e.
Proof. destruct l as [|[t [b| |]] l]; cbn [decrypted]; [discriminate|destruct (ks_decode ks b)|..]; intros [= <- _]; eexists _, _; (split; [reflexivity|reflexivity]). Qed.
Lemma head_decrypted ks e l : exists e' l', decrypted ks (e :: l) = e' :: l' /\ fst e' = fst e.
Proof. destruct e as [t [b| |]]; cbn [decrypted]; [destruct (ks_decode ks b)|..]; eexists _, _; (split; [reflexivity|reflexivity]). Qed.
Lemma all_bytes_app a b : only_data a -> all_bytes (a ++ b) = data a ++ all_bytes b.
Proof. intros OD. unfold all_bytes. rewrite pieces_app by exact OD. cbn [fst]. rewrite concat_app. reflexivity. Qed.
Lemma ends_app a b : only_data a -> ends (a ++ b) = ends b.
Proof. intros OD. unfold ends. rewrite pieces_app by exact OD. reflexivity. Qed.
Definition rest_of (t : N) (rest : bytes) (later : script) : script := match rest with [] => later | _ => (t, RData rest) :: later end.
Lemma all_bytes_rest t rest later : all_bytes (rest_of t rest later) = rest ++ all_bytes later.
Proof. unfold all_bytes, rest_of. destruct rest; [reflexivity|]. cbn [pieces]. destruct (pieces later). reflexivity. Qed.
Lemma ends_rest t rest later : ends (rest_of t rest later) = ends later.
Proof. unfold ends, rest_of. destruct rest; [reflexivity|]. cbn [pieces]. destruct (pieces later). reflexivity. Qed.
Lemma late_rest D t ks rest later : t <= D ->
  (exists used after, decrypted ks (rest_of t rest later) = used ++ after /\ only_data used /\ split_at D used after /\ snd (connect ih pid i ([] ++ map data_of used) Silent) = SWaiting) ->
  undecided_at ih D (fun b => fst (ks_decode ks (rest ++ b))) later.
Proof.
  intros LT (used & after & ED & OD & [S1 S2] & C). apply connect_waits in C. cbn [app] in C. fold (data used) in C.
  destruct (decrypted_split _ _ _ _ ED OD) as (u1 & l1 & EX & OU & EU & EA & TM).
  assert (DU : data used = fst (ks_decode ks (data u1))) by (rewrite EU; apply (decrypted_app u1 ks []), OU). rewrite DU in C.
  assert (SA : forall e r, l1 = e :: r -> D < fst e).
  { intros e r ->. destruct (head_decrypted (snd (ks_decode ks (data u1))) e r) as (e' & r' & EH & <-). eapply S2. rewrite EA. exact EH. }
  assert (SB : forall e, In e u1 -> fst e <= D).
  { intros e X. apply (in_map fst) in X. rewrite <- TM in X. apply in_map_iff in X as (e' & <- & X). auto. }
  unfold rest_of in EX. destruct rest as [|b rest].
  - exists u1, l1. repeat (split; [assumption|]). split; [split; assumption|exact C].
  - destruct u1 as [|e u1]; cbn [app] in EX.
    + subst l1. specialize (SA _ _ eq_refl). cbn [fst] in SA. lia.
    + injection EX as <- ->. exists u1, l1. split; [reflexivity|]. split; [intros ? ? X; eapply OU; right; exact X|]. split; [split; [intros e X; apply SB; now right|exact SA]|]. exact C.
Qed.
Lemma exchange_ge l : forall n got t a, exchange ih pid i n got l = Ret (Some (t, a)) -> n <= t.
Proof.
  induction l as [|[u [b| |]] l IH]; intros n got t a; cbn [exchange]; (destruct (snd (connect ih pid i got Silent)) as [[c0|z]| |]; [intros [= <- _]; lia|intros [= <- _]; lia| |discriminate]).
  - discriminate.
  - intros E. apply IH in E. lia.
  - destruct (snd (connect ih pid i got Closed)) as [[|]| |]; try discriminate. intros [= <- _]. lia.
  - destruct (snd (connect ih pid i got Broken)) as [[|]| |]; try discriminate. intros [= <- _]. lia.
Qed.
Lemma crypto_why limit secs now d r x : connect_crypto ih pid i secs now (within limit d) = Ret r ->
  match r with
  | Some (t, a) => if t <=? limit then snd (after_link a) = SDone (Err x) else x = ConnectTimeout
  | None => x = ConnectTimeout
  end -> crypto_failed ih limit secs now d x.
Proof.
  unfold connect_crypto, connect_encrypted, within. cbn [d_tcp d_reads d_pada d_padc d_key]. destruct (d_tcp d) as [[t0 a]|] eqn:T.
  2:{ intros [= <-] ->. apply cf_tcp, nt_late. rewrite T. discriminate. }
  destruct (N.leb_spec t0 limit) as [LE|GT].
  2:{ intros [= <-] ->. apply cf_tcp, nt_late. rewrite T. intros t r' [= <- <-]. exact GT. }
  destruct a as [[]|y].
  2:{ intros [= <-]. destruct (N.leb_spec t0 limit); [|lia]. cbn. intros [= ->]. apply cf_tcp. eapply nt_error; eauto. }
  destruct (handshake ih secs (d_pada d) (d_padc d) (d_key d) (now + t0) (d_reads d)) as [o [t1 ks rest lat|t1 y| |]] eqn:H; cbn [snd].
  - fold (rest_of t1 rest lat).
    destruct (N.le_gt_cases t1 (now + limit)) as [LT|GT].
    + pose proof (opening_late (now + limit) (decrypted ks (rest_of t1 rest lat)) t1 [] LT) as LATE.
      destruct (exchange ih pid i t1 [] (decrypted ks (rest_of t1 rest lat))) as [[[t2 a]|]|] eqn:E; [| |destruct (exchange_total _ _ _ E)].
      * intros [= <-]. destruct (N.leb_spec (t2 - now) limit) as [LT2|GT2].
        -- intros HS. assert (FA : failure ih (all_bytes (decrypted ks (rest_of t1 rest lat))) (ends (decrypted ks (rest_of t1 rest lat))) x).
           { eapply stream_failed; [exact E|]. destruct a as [[c rr]|y]; cbn in HS; [exact HS|congruence]. }
           destruct (handshake_only ih pid L1 L2 _ _ _ _ _ _ _ _ _ _ _ H) as (NO & GE & before & used & padd & ER & OB & OU & SP & AB & RG & LPD & EK & c0 & EU & D0).
           eapply (cf_failure ih limit secs now d t0 _ (ends lat) x T); [lia| |].
           2:{ unfold ends in FA at 1. rewrite ends_decrypted in FA. fold (ends (rest_of t1 rest lat)) in FA. rewrite ends_rest in FA. exact FA. }
           exists before, (used ++ lat), padd. split; [exact ER|]. split; [exact OB|]. split; [exact SP|]. split; [exact RG|]. split; [exact LPD|]. split; [|now apply ends_app].
           unfold all_bytes at 2. rewrite pieces_decrypted. fold (all_bytes (rest_of t1 rest lat)). rewrite all_bytes_rest, all_bytes_app by exact OU. rewrite EU, <- app_assoc.
           set (cb := cipher _ _ _) in *. set (i1 := snd (rc4_apply cb (packet4 padd))) in *. set (z := rest ++ all_bytes lat).
           assert (KD : fst (ks_decode ks z) = fst (rc4_apply i1 z)) by (rewrite EK; cbn [ks_decode]; destruct (rc4_apply i1 z); reflexivity). rewrite KD.
           rewrite <- (fst_app_rc4 _ _ _ _ _ D0), rc4_inv. reflexivity.
        -- intros ->. eapply cf_late; eauto. cbn. right. apply (late_rest _ t1); [exact LT|]. apply LATE. lia.
      * intros [= <-] ->. eapply cf_late; eauto. cbn. right. apply (late_rest _ t1); [exact LT|]. now apply LATE.
    + intros HR HS. assert (X : x = ConnectTimeout).
      { destruct (exchange ih pid i t1 [] (decrypted ks (rest_of t1 rest lat))) as [[[t2 a]|]|] eqn:E; [|injection HR as <-; exact HS|discriminate HR]. injection HR as <-.
        pose proof (exchange_ge _ _ _ _ _ E).
        destruct (N.leb_spec (t2 - now) limit); [lia|exact HS]. }
      subst x. eapply cf_late; eauto. cbn. left. exact GT.
  - intros [= <-]. destruct (N.leb_spec (t1 - now) limit) as [LT|GT].
    + cbn. intros [= <-]. eapply cf_handshake; eauto. lia.
    + intros ->. eapply cf_late; eauto. cbn. lia.
  - intros [= <-] ->. eapply cf_late; eauto. exact I.
  - discriminate.
Qed.
Lemma crypto_linked secs now d t c later : connect_crypto ih pid i secs now d = Ret (Some (t, Ok (c, later))) -> exists used, snd (connect ih pid i used Silent) = SDone (Ok c).
Proof.
  unfold connect_crypto, connect_encrypted. destruct (d_tcp d) as [[t0 [[]|y]]|]; try discriminate. destruct (handshake _ _ _ _ _ _ _) as [o [t1 ks rest lat| | |]]; cbn [snd]; try discriminate.
  destruct exchange as [[[t2 a]|]|] eqn:E; try discriminate. intros [= <- ->]. destruct (exchange_times _ _ _ _ _ _ _ _ _ E) as (_ & used & _ & _ & _ & C). eexists. exact C.
Qed.
Lemma mode_excludes override p requires e : get_crypto_mode override p requires = Err e -> e = CantRequireCrypto /\ excludes override p requires.
Proof. unfold get_crypto_mode, excludes. destruct override as [[]|], requires, p; cbn; intros [= <-]; auto 6. Qed.
Lemma get_info_why override p requires limit secs now enc plain l x :
  (forall t0, d_tcp enc <> Some (t0, Err ECryptoHandshake)) ->
  get_info ih pid i override p requires limit secs now enc plain = Ret (l, SDone (Err x)) ->
  fetch_failed ih override p requires limit secs now enc plain l x.
Proof.
  intros NE G. unfold get_info, run_connect in G.
  assert (FIN : forall c later, (let (bs, e) := pieces later in Ret (l, snd (fetch_from ih (more_reads c bs) e))) = Ret (l, SDone (Err x)) -> snd (after_link (Ok (c, later))) = SDone (Err x)).
  { intros c later. cbn [after_link snd]. destruct (pieces later). cbn [fst snd]. congruence. }
  destruct (get_crypto_mode override p requires) as [[| |]|e] eqn:M.
  - destruct (connect_crypto ih pid i secs now (within limit enc)) as [r|] eqn:EC; [|discriminate G]. unfold timeout in G.
    assert (R : l = [true] /\ match r with Some (t, a) => if t <=? limit then snd (after_link a) = SDone (Err x) else x = ConnectTimeout | None => x = ConnectTimeout end).
    { destruct r as [[t a]|]; [|injection G as <- <-; auto]. destruct (t <=? limit); [|injection G as <- <-; auto]. destruct a as [[c later]|y]; [|injection G as <- <-; auto].
      cbn [after_link snd]. destruct (pieces later). cbn [fst snd]. injection G as <- G. auto. }
    destruct R as (-> & R). apply fx_crypto; [apply mode_encrypts; auto|eapply crypto_why; eauto|]. intros PE. apply mode_prefers in PE. congruence.
  - destruct (connect_crypto ih pid i secs now (within limit enc)) as [r|] eqn:EC; [|discriminate G]. unfold timeout in G.
    assert (D : (exists t, r = Some (t, Err ECryptoHandshake) /\ t <= limit) \/
      (l = [true] /\ x <> ECryptoHandshake /\ match r with Some (t, a) => if t <=? limit then snd (after_link a) = SDone (Err x) else x = ConnectTimeout | None => x = ConnectTimeout end)).
    { destruct r as [[t a]|]; [|injection G as <- <-; right; split; [reflexivity|]; split; [discriminate|reflexivity]].
      destruct (N.leb_spec t limit) as [LT|]; [|injection G as <- <-; right; split; [reflexivity|]; split; [discriminate|reflexivity]]. destruct a as [[c later]|y].
      - right. cbn [after_link snd]. destruct (pieces later) as [bl e] eqn:EP. cbn [fst snd]. injection G as <- G. split; [reflexivity|]. split; [|exact G]. intros ->.
        assert (LK : exists used, snd (connect ih pid i used Silent) = SDone (Ok c)).
        { eapply crypto_linked, EC. }
        destruct LK as (used & CU). change (snd (fetch_from ih (more_reads c bl) e) = SDone (Err ECryptoHandshake)) in G. rewrite <- (link_session _ _ _ _ _ _ _ CU) in G.
        apply session_fails in G; auto. clear -G L1 L2 W.
        assert (CU : forall t0 e0, ~ cut t0 e0 ECryptoHandshake) by (intros t0 e0 X; inversion X).
        assert (NM : forall t0 e0, ~ no_message t0 e0 ECryptoHandshake) by (intros t0 e0 X; inversion X; subst; eapply CU; eauto).
        inversion G as [? NC| | |? ? ? ? ? ? ? ? ? ? ? ? N1|? ? ? ? ? ? ? ? ? ? ? ? ? ? ? RF|]; subst.
        + inversion NC; subst; eapply NM; eauto.
        + eapply NM; eauto.
        + inversion RF.
      - destruct y; try (injection G as <- <-; right; split; [reflexivity|]; split; [discriminate|reflexivity]). left. eauto. }
    destruct D as [(t & -> & LT)|(-> & NX & R)].
    + destruct (N.leb_spec t limit) as [_|]; [|lia]. cbv zeta iota in G.
      destruct (connect_plain ih pid i (now + t) (within limit plain)) as [r|] eqn:EP; [|discriminate G].
      assert (R : l = [true; false] /\ match r with Some (t, a) => if t <=? limit then snd (after_link a) = SDone (Err x) else x = ConnectTimeout | None => x = ConnectTimeout end).
      { destruct r as [[t2 a]|]; [|injection G as <- <-; auto]. destruct (t2 <=? limit); [|injection G as <- <-; auto]. destruct a as [[c later]|y]; [|injection G as <- <-; auto].
        cbn [after_link snd]. destruct (pieces later). cbn [fst snd]. injection G as <- G. auto. }
      destruct R as (-> & R). destruct (handshake_failed ih pid i L1 L2 secs now limit enc t NE EC) as (t0 & o & y & H1 & H2 & H3).
      eapply fx_both; eauto; [apply mode_prefers, M|lia|eapply plain_why; eauto].
    + apply fx_crypto; [apply mode_encrypts; auto|eapply crypto_why; eauto|auto].
  - destruct (connect_plain ih pid i now (within limit plain)) as [r|] eqn:EC; [|discriminate G]. unfold timeout in G.
    assert (R : l = [false] /\ match r with Some (t, a) => if t <=? limit then snd (after_link a) = SDone (Err x) else x = ConnectTimeout | None => x = ConnectTimeout end).
    { destruct r as [[t a]|]; [|injection G as <- <-; auto]. destruct (t <=? limit); [|injection G as <- <-; auto]. destruct a as [[c later]|y]; [|injection G as <- <-; auto].
      cbn [after_link snd]. destruct (pieces later). cbn [fst snd]. injection G as <- G. auto. }
    destruct R as (-> & R). apply fx_plain; [apply mode_avoids, M|eapply plain_why; eauto].
  - injection G as <- <-. destruct (mode_excludes _ _ _ _ M) as (-> & X). now constructor.
Qed.
End Why.
