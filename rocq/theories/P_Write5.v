(** Why fetching the metadata from a peer failed, writes to it included. *)
From Verif Require Import Base BaseFacts S_Bencode S_Wire S_Download S_Session S_Mse S_GetInfo S_Reason S_Reason2 M_Net M_Torrent M_Peer M_Session M_Extensions M_Messages M_Frame M_Rc4 M_Mse M_Connect M_GetInfo M_Write S_Write S_Write2 S_Write3
  P_Peer P_Frame P_Session P_Mse P_GetInfo P_GetInfo2 P_GetInfo3 P_GetInfo4 P_GetInfo5 P_GetInfo6 P_Reason P_Reason2 P_Write P_Write2 P_Write3 P_Write4.

Section Why.
Context (ih pid : bytes) (i : ip).
Hypothesis L1 : length ih = 20%nat.
Hypothesis L2 : length pid = 20%nat.
Hypothesis W : wf_ip i.

Lemma once_why l n limit ws crypto r1 r2 x : affected (same_link ws) ws crypto r1 r2 -> r2 <> Panic ->
  match r1 with Panic => Panic | Ret r => finish_w ih (l, n, snd (once limit r)) end = Ret (l, SDone (Err x)) ->
  (exists r, r2 = Ret r /\ match r with
    | Some (t, a) => if t <=? limit then snd (after_link ih a) = SDone (Err x) else x = ConnectTimeout
    | None => x = ConnectTimeout
    end) \/ write_failed ws x \/ (crypto = true /\ In WFail ws /\ x = ECryptoHandshake).
Proof.
  intros A NP. unfold once, timeout.
  assert (LATE : forall t (r : outcome (timed (res peer_error link))) y, (forall t' z, r = Ret (Some (t', z)) -> t <= t') -> r <> Panic -> limit < t -> y = ConnectTimeout ->
    exists r0, r = Ret r0 /\ match r0 with Some (t, a) => if t <=? limit then snd (after_link ih a) = SDone (Err y) else y = ConnectTimeout | None => y = ConnectTimeout end).
  { intros t r y T NP' LT ->. destruct r as [r|]; [|congruence]. exists r. split; [reflexivity|]. destruct r as [[t' a]|]; [|reflexivity]. specialize (T t' a eq_refl). destruct (N.leb_spec t' limit); [lia|reflexivity]. }
  assert (ERR : forall y, Ret (l, SDone (Err y)) = Ret (l, SDone (Err x) : stage torrent_info) -> x = y) by (intros y E; congruence).
  destruct A as [t c1 c2 S|t y| | |t r I1 T|t r -> I1 T|r I1].
  - destruct (N.leb_spec t limit) as [LE|LT]; cbn [snd finish_w]; [|intros E; apply ERR in E; subst x; left; eexists; split; [reflexivity|]; cbv beta iota; destruct (N.leb_spec t limit); [lia|reflexivity]].
    destruct c1 as [[c1 ws1] l1], c2 as [c2 l2]. destruct S as (S1 & S2 & S3). cbn [fst snd] in *. subst c2 l2.
    assert (AL : snd (after_link ih (Ok (c1, l1))) = snd (fetch_from ih (mkConn (cn_local c1) (cn_remote c1) (cn_ext c1) (cn_size c1) (cn_st c1) (cn_buf c1) (cn_reads c1 ++ fst (pieces l1))) (snd (pieces l1)))) by reflexivity.
    destruct (pieces l1) as [bl e]. cbn [fst snd] in AL. rewrite fetch_cut. destruct (fetch_from ih _ e) as [out s]. cbn [fst snd] in *.
    destruct (cut_tri ws1 out) as [H|[[I1 (o & H)]|[I1 (o & H)]]]; rewrite H; cbn [snd].
    + intros E; assert (ES : s = SDone (Err x)) by congruence. left. eexists. split; [reflexivity|]. cbn beta iota. destruct (N.leb_spec t limit); [exact (eq_trans AL ES)|lia].
    + intros E; apply ERR in E; subst x. right; left. left. split; [exact (S3 _ I1)|reflexivity].
    + discriminate.
  - destruct (N.leb_spec t limit) as [LE|LT]; cbn [snd finish_w]; intros E; apply ERR in E; subst x; left; eexists; (split; [reflexivity|]); cbv beta iota; destruct (N.leb_spec t limit); try lia; reflexivity.
  - cbn [snd finish_w]. intros E; apply ERR in E; subst x. left. eexists. split; reflexivity.
  - discriminate.
  - destruct (N.leb_spec t limit) as [LE|LT]; cbn [snd finish_w]; intros E; apply ERR in E; subst x; [right; left; left; auto|left; eapply LATE; eauto].
  - destruct (N.leb_spec t limit) as [LE|LT]; cbn [snd finish_w]; intros E; apply ERR in E; subst x; [right; right; auto|left; eapply LATE; eauto].
  - cbn [snd finish_w]. intros E; apply ERR in E; subst x. right; left. right. auto.
Qed.
Lemma plain_why_w l n limit now d x :
  match connect_plain_w ih pid i now (within_w limit d) with Panic => Panic | Ret r => finish_w ih (l, n r, snd (once limit r)) end = Ret (l, SDone (Err x)) ->
  plain_failed_w ih limit now d x.
Proof.
  intros H. pose proof (plain_affected ih pid i now (within limit (fst d)) (snd d)) as A. change (within limit (fst d), snd d) with (within_w limit d) in A.
  assert (NP : connect_plain ih pid i now (within limit (fst d)) <> Panic).
  { unfold connect_plain. destruct (d_tcp _) as [[t0 [[]|y]]|]; try discriminate. pose proof (exchange_total ih pid i L1 L2 W (now + t0) [] (d_reads (within limit (fst d)))) as T.
    destruct (exchange _ _ _ _ _ _) as [[[]|]|]; congruence. }
  assert (H' : match connect_plain_w ih pid i now (within_w limit d) with Panic => Panic | Ret r => finish_w ih (l, 0, snd (once limit r)) end = Ret (l, SDone (Err x))).
  { destruct (connect_plain_w ih pid i now (within_w limit d)); exact H. }
  destruct (once_why l 0 limit _ _ _ _ x A NP H') as [(r & E & R)|[F|(F & _)]]; [left|right; exact F|discriminate F].
  eapply plain_why; eauto.
Qed.
Lemma crypto_why_w l n limit secs now d x : (forall t0, d_tcp (fst d) = Some (t0, Ok tt) -> (now + t0) / 1000000000 + secs < 2 ^ 63) ->
  match connect_crypto_w ih pid i secs now (within_w limit d) with Panic => Panic | Ret r => finish_w ih (l, n r, snd (once limit r)) end = Ret (l, SDone (Err x)) ->
  crypto_failed_w ih limit secs now d x.
Proof.
  intros CF H. pose proof (crypto_affected ih pid i secs now (within limit (fst d)) (snd d)) as A. change (within limit (fst d), snd d) with (within_w limit d) in A.
  assert (NP : connect_crypto ih pid i secs now (within limit (fst d)) <> Panic).
  { intros E. destruct (get_info_panic ih pid i (Some Encrypt) CPNever false limit secs now (fst d) (fst d) L1 L2 W) as [G _].
    assert (X : get_info ih pid i (Some Encrypt) CPNever false limit secs now (fst d) (fst d) = Panic) by (unfold get_info; cbn; rewrite E; reflexivity).
    apply G in X. destruct X as (_ & t0 & T & _ & X). specialize (CF t0 T). lia. }
  assert (H' : match connect_crypto_w ih pid i secs now (within_w limit d) with Panic => Panic | Ret r => finish_w ih (l, 0, snd (once limit r)) end = Ret (l, SDone (Err x))).
  { destruct (connect_crypto_w ih pid i secs now (within_w limit d)); exact H. }
  destruct (once_why l 0 limit _ _ _ _ x A NP H') as [(r & E & R)|[F|(_ & F)]]; [left|right; left; exact F|right; right; exact F].
  eapply crypto_why; eauto.
Qed.
Lemma get_info_w_why override p requires limit secs now enc plain l x :
  (forall t0, d_tcp (fst enc) <> Some (t0, Err ECryptoHandshake)) ->
  (forall t0, d_tcp (fst enc) = Some (t0, Ok tt) -> (now + t0) / 1000000000 + secs < 2 ^ 63) ->
  get_info_w ih pid i override p requires limit secs now enc plain = Ret (l, SDone (Err x)) ->
  fetch_failed_w ih override p requires limit secs now enc plain l x.
Proof.
  intros NE CF G. destruct (get_crypto_mode override p requires) as [[| |]|e] eqn:M.
  - rewrite (get_info_w_crypto _ _ _ _ _ _ _ _ _ _ _ M) in G.
    assert (l = [true]) as -> by (destruct (connect_crypto_w ih pid i secs now (within_w limit enc)) as [r|]; [destruct (finish_w_list ih [true] (fst (once limit r)) (snd (once limit r))); congruence|discriminate G]).
    apply fw_crypto; [apply mode_encrypts; auto|exact (crypto_why_w _ _ _ _ _ _ _ CF G)|]. intros PE. apply mode_prefers in PE. congruence.
  - rewrite (get_info_w_prefer _ _ _ _ _ _ _ _ _ _ _ M) in G.
    pose proof (crypto_why_w [true] (fun _ => 0) limit secs now enc x CF) as CW.
    destruct (connect_crypto_w ih pid i secs now (within_w limit enc)) as [r|] eqn:EC; [|discriminate G].
    assert (D : (exists t, r = Some (t, Err ECryptoHandshake) /\ t <= limit) \/ (finish_w ih ([true], fst (once limit r), snd (once limit r)) = Ret (l, SDone (Err x)) /\ snd (once limit r) <> Err ECryptoHandshake)).
    { revert G. unfold once, timeout. destruct r as [[t a]|]; [|intros G; right; split; [exact G|discriminate]]. destruct (N.leb_spec t limit) as [LE|]; [|intros G; right; split; [exact G|discriminate]].
      destruct a as [c|y]; [intros G; right; split; [exact G|discriminate]|]. destruct y; try (intros G; right; split; [exact G|discriminate]). left. eauto. }
    destruct D as [(t & -> & LE)|(G2 & NC)].
    + unfold timeout in G. destruct (N.leb_spec t limit) as [_|]; [|lia].
      assert (l = [true; false]) as ->.
      { destruct (connect_plain_w ih pid i (now + t) (within_w limit plain)) as [r|]; [|discriminate G]. destruct (finish_w_list ih [true; false] (t + fst (once limit r)) (snd (once limit r))). congruence. }
      destruct (proj1 (failed_w ih pid i L1 L2 limit secs now enc t) NE EC) as (t0 & o & y & ws & H1 & H2 & H3).
      eapply fw_both; eauto; [apply mode_prefers, M|lia|exact (plain_why_w _ _ _ _ _ _ G)].
    + assert (l = [true]) as -> by (destruct (finish_w_list ih [true] (fst (once limit r)) (snd (once limit r))); congruence).
      apply fw_crypto; [apply mode_encrypts; auto|apply CW; exact G2|]. intros _ ->. apply NC. exact (finish_w_crypto _ _ _ _ _ G2).
  - rewrite (get_info_w_plain _ _ _ _ _ _ _ _ _ _ _ M) in G.
    assert (l = [false]) as -> by (destruct (connect_plain_w ih pid i now (within_w limit plain)) as [r|]; [destruct (finish_w_list ih [false] (fst (once limit r)) (snd (once limit r))); congruence|discriminate G]).
    apply fw_plain; [apply mode_avoids, M|exact (plain_why_w _ _ _ _ _ _ G)].
  - unfold get_info_w in G. rewrite M in G. injection G as <- <-. destruct (mode_excludes _ _ _ _ M) as (-> & X). now constructor.
Qed.
End Why.
