(** Exactly when metadata is obtained, the outcomes of the writes included. *)
From Verif Require Import Base BaseFacts M_Net M_Torrent M_Extensions M_Messages M_Frame M_Peer M_Session M_Rc4 M_Mse M_Connect M_GetInfo M_Write S_Write M_Sha1 S_Bencode S_Download
  S_Mse S_GetInfo S_Write2 P_Session P_GetInfo P_GetInfo2 P_GetInfo3 P_GetInfo5 P_GetInfo6 P_Write P_Write2 P_Write3.

Lemma connect_grows ih pid i r m e : exists o, fst (connect ih pid i (r ++ m) e) = fst (connect ih pid i r Silent) ++ o.
Proof.
  assert (H : forall x, exists o, fst (connect ih pid i x e) = handshake_bytes (mkHS (ext_from SUPPORTED_EXTENSIONS) ih pid) :: o).
  { intros x. unfold connect. destruct read_exact as [buf reads1| |]; [|eexists; reflexivity..]. destruct (handshake_decode buf) as [h|]; [|eexists; reflexivity]. destruct negb; [eexists; reflexivity|].
    destruct negb; [eexists; reflexivity|]. destruct local_registry as [local|]; [|eexists; reflexivity]. destruct (channel_send reg_new _) as [[b1|x1]|]; [|eexists; reflexivity..].
    destruct (framed_next _ _ _ _) as [[[[f| | |] st] buf'] reads2]; try (eexists; reflexivity). destruct (recv_event local f) as [[| |]|]; try (eexists; reflexivity).
    destruct eh_registry as [remote|]; [|eexists; reflexivity]. destruct negb; [eexists; reflexivity|]. cbv zeta. destruct ext_has; [|eexists; reflexivity].
    destruct (channel_send remote _) as [[b2|x2]|]; eexists; reflexivity. }
  specialize (H (r ++ m)).
  unfold connect in *. pose proof (read_exact_more e m r 68 []) as R.
  destruct (read_exact 68 [] r Silent) as [b rs| |]; [|contradiction|exact H]. rewrite R in *. clear R.
  destruct (handshake_decode b) as [h|x]; [|exists []; reflexivity].
  destruct (negb (bytes_eqb (hs_hash h) ih)); [exists []; reflexivity|].
  destruct (negb (ext_has (ext_and (ext_from SUPPORTED_EXTENSIONS) (hs_ext h)) Bep10)); [exists []; reflexivity|].
  destruct local_registry as [local|]; [|exists []; reflexivity].
  destruct (channel_send reg_new (ExtHandshake (mkEH None (Some (reg_to_m local)) (Some CLIENT) None (Some i)))) as [[b1|x]|]; [|exists []; reflexivity..]. clear H.
  pose proof (framed_next_more e m rs Head []) as F.
  destruct (framed_next Head [] rs Silent) as [[[fr st'] b'] rs']. destruct fr; cbn [fst].
  - exists []. rewrite app_nil_r. rewrite F. destruct (recv_event local f) as [msg|x]; [|reflexivity]. destruct msg; try reflexivity.
    destruct (eh_registry h0) as [remote|x]; [|reflexivity]. destruct (negb (reg_contains remote Metadata)); [reflexivity|].
    destruct (ext_has _ Fast); [|reflexivity]. destruct (channel_send remote (Core HaveNone)) as [[?|?]|]; reflexivity.
  - exists []. rewrite F. reflexivity.
  - contradiction.
  - destruct (framed_next Head [] (rs ++ m) e) as [[[[f| | |] st] buf'] reads2]; try (eexists; reflexivity). destruct (recv_event local f) as [[| |]|]; try (eexists; reflexivity).
    destruct eh_registry as [remote|]; [|eexists; reflexivity]. destruct negb; [eexists; reflexivity|]. cbv zeta. destruct ext_has; [|eexists; reflexivity].
    destruct (channel_send remote _) as [[b2|x2]|]; eexists; reflexivity.
Qed.
Lemma cut_ok_inv {A} : forall out ws (s : stage A) o x, cut ws out s = (o, SDone (Ok x)) -> succeed ws (length out) /\ s = SDone (Ok x).
Proof.
  induction out as [|b out IH]; intros ws s o x; cbn [cut length]; [intros [= _ ->]; split; [intros j L; inversion L|reflexivity]|].
  destruct ws as [|[] ws]; cbn [write_next]; try discriminate.
  - destruct (cut [] out s) as [o' s'] eqn:E. intros [= _ ->]. destruct (IH _ _ _ _ E) as [_ ->]. split; [|reflexivity]. intros j _. now destruct j.
  - destruct (cut ws out s) as [o' s'] eqn:E. intros [= _ ->]. destruct (IH _ _ _ _ E) as [S ->]. split; [|reflexivity]. intros [|j] L; [reflexivity|]. apply S. lia.
Qed.
Lemma nth_skipn {A} (d : A) : forall a l j, nth j (skipn a l) d = nth (a + j) l d.
Proof. induction a as [|a IH]; intros l j; [reflexivity|]. destruct l as [|x l]; [now destruct j|]. apply IH. Qed.
Lemma succeed_app ws a b : succeed ws (a + b) <-> succeed ws a /\ succeed (skipn a ws) b.
Proof.
  unfold succeed. split.
  - intros H. split; [intros j L; apply H; lia|]. intros j L. rewrite nth_skipn. apply H. lia.
  - intros [H1 H2] j L. destruct (Nat.lt_ge_cases j a) as [L1|L1]; [now apply H1|]. specialize (H2 (j - a)%nat ltac:(lia)). rewrite nth_skipn in H2. now replace (a + (j - a))%nat with j in H2 by lia.
Qed.
Lemma succeed_le ws a b : (a <= b)%nat -> succeed ws b -> succeed ws a.
Proof. intros L H j Lj. apply H. lia. Qed.
Lemma cut_h_ok_inv : forall out ws r o t ks rest later w, cut_h ws out r = (o, HDone t ks rest later, w) ->
  succeed ws (length out) /\ r = HDone t ks rest later /\ w = skipn (length out) ws /\ o = out.
Proof.
  induction out as [|[t0 b] out IH]; intros ws r o t ks rest later w; cbn [cut_h length]; [intros [= <- -> <-]; split; [intros j L; inversion L|auto]|].
  destruct ws as [|[] ws]; cbn [write_next]; try discriminate.
  - destruct (cut_h [] out r) as [[o' r'] w'] eqn:E. intros [= <- -> <-]. destruct (IH _ _ _ _ _ _ _ _ E) as (_ & -> & -> & ->). split; [|rewrite skipn_nil; auto]. intros j _. now destruct j.
  - destruct (cut_h ws out r) as [[o' r'] w'] eqn:E. intros [= <- -> <-]. destruct (IH _ _ _ _ _ _ _ _ E) as (S & -> & -> & ->). split; [|auto]. intros [|j] L; [reflexivity|]. apply S. lia.
Qed.

Lemma hs_after fuel s deadline now reads : (forall d, deadline = Some d -> now <= d) -> forall ws o t x w,
  cut_h ws (fst (hs_loop fuel s deadline now reads)) (snd (hs_loop fuel s deadline now reads)) = (o, HFail t x, w) -> now <= t.
Proof.
  intros DL. assert (OUT : forall t, In t (map fst (fst (hs_loop fuel s deadline now reads))) -> now <= t).
  { revert s deadline now reads DL. induction fuel as [|fuel IH]; intros s deadline now reads DL; cbn [hs_loop]; [intros t []|].
    destruct (into_keystream s) as [[ks rest]|]; [intros t []|].
    set (s1 := mkShaker (h_state s) None (h_padc_len s) (h_skey s) None (h_input s) (h_provide s)).
    set (out := match h_output s with Some b => [(now, b)] | None => [] end).
    assert (O1 : forall t, In t (map fst out) -> now <= t) by (intros t; subst out; destruct (h_output s); cbn; intros []; [lia|contradiction]).
    match goal with |- context [match ?x with Ret _ => _ | Panic => _ end] => destruct x as [dl|] eqn:EDL end; [|exact O1].
    assert (DL1 : forall d, dl = Some d -> now <= d).
    { destruct (h_timeout s) as [sc|]; [|injection EDL as <-; exact DL]. unfold instant_add in EDL. destruct (_ <? _); [|discriminate EDL]. injection EDL as <-. intros d [= <-]. lia. }
    match goal with |- context [let (out', r) := ?x in _] => match type of x with (list (N * bytes) * hs_out)%type => set (rest := x) end end.
    enough (R : forall t, In t (map fst (fst rest)) -> now <= t).
    { destruct rest as [o r]. cbn [fst]. intros t. rewrite map_app. intros X. apply in_app_or in X as [X|X]; auto. }
    assert (IH' : forall s2 dl2 n2 reads2, now <= n2 -> (forall d, dl2 = Some d -> n2 <= d) -> forall t, In t (map fst (fst (hs_loop fuel s2 dl2 n2 reads2))) -> now <= t).
    { intros s2 dl2 n2 reads2 LE D2 t X. specialize (IH s2 dl2 n2 reads2 D2 t X). lia. }
    assert (EX : forall d, now <= d -> forall t, In t (map fst (fst (match handle_timeout s1 with Ok s2 => hs_loop fuel s2 None d reads | Err e => ([], HFail d e) end))) -> now <= t).
    { intros d LE. destruct (handle_timeout s1); [|intros t []]. apply IH'; [exact LE|discriminate]. }
    assert (RD : forall t1 r reads1, now <= t1 -> (forall d, dl = Some d -> t1 <= d) -> forall t, In t (map fst (fst (
       match r with RData b => match handle_input s1 b with Ok s2 => hs_loop fuel s2 dl t1 reads1 | Err e => ([], HFail t1 e) end | REof => ([], HFail t1 HDisconnect) | RError => ([], HFail t1 HRecv) end))) -> now <= t).
    { intros t1 r reads1 LE D1. destruct r as [b| |]; [|intros t []..]. destruct (handle_input s1 b); [|intros t []]. now apply IH'. }
    subst rest. destruct reads as [|[t1 r] reads1]; destruct dl as [d|].
    - apply EX. auto.
    - intros t [].
    - destruct (N.leb_spec (N.max now t1) d) as [LE|]; [apply RD; [lia|]; intros d1 [= <-]; exact LE|apply EX; auto].
    - apply RD; [lia|discriminate]. }
  destruct (hs_times fuel s deadline now reads DL) as [_ OV]. destruct (hs_loop fuel s deadline now reads) as [out r]. cbn [fst snd] in *. clear DL.
  intros ws o t x w. destruct (cut_h_tri ws out) as [H|[[_ (o' & t1 & w' & IT & H)]|[_ (o' & w' & H)]]]; rewrite H; [|intros [= <- <- <- <-]; auto|discriminate].
  intros [= <- -> <-]. exact OV.
Qed.
Section E.
Context (ih pid : bytes) (i : ip).
Definition opening_messages (got : list bytes) (later : script) : nat := length (fst (connect ih pid i (got ++ fst (pieces later)) (snd (pieces later)))).
Lemma exchange_succeed ws : forall later now got t c l, exchange ih pid i now got later = Ret (Some (t, Ok (c, l))) ->
  (succeed ws (opening_messages got later) -> exchange_w ih pid i ws now got later = Ret (Some (t, Ok (c, skipn (opening_messages got later) ws, l)))) /\
  (forall z, exchange_w ih pid i ws now got later = Ret (Some (t, Ok z)) -> succeed ws (opening_messages got later)).
Proof.
  assert (DONE : forall later now got c, snd (connect ih pid i got Silent) = SDone (Ok c) ->
     (succeed ws (opening_messages got later) -> snd (connect_w ih pid i ws got Silent) = SDone (Ok (c, skipn (opening_messages got later) ws))) /\
     (forall (rw : outcome (timed (res peer_error link_w))) z, match snd (connect_w ih pid i ws got Silent) with SPanicked => Panic | SDone r => Ret (Some (now, let? c := r in Ok (c, later))) | SWaiting => rw end = Ret (Some (now, Ok z)) ->
        (snd (connect_w ih pid i ws got Silent) = SWaiting -> rw <> Ret (Some (now, Ok z))) -> succeed ws (opening_messages got later))).
  { intros later now got c C. assert (L : opening_messages got later = length (fst (connect ih pid i got Silent))).
    { unfold opening_messages. rewrite connect_more_out; [reflexivity|]. rewrite C. discriminate. }
    rewrite L. rewrite connect_cut, C. cbn [carry]. split.
    - intros S. rewrite (proj1 (cut_spec _ _ _) S). reflexivity.
    - intros rw z. destruct (cut ws (fst (connect ih pid i got Silent)) _) as [o s] eqn:E. cbn [snd]. destruct s as [[x|x]| |]; try discriminate.
      + intros _ _. exact (proj1 (cut_ok_inv _ _ _ _ _ E)).
      + intros H1 H2. now elim (H2 eq_refl). }
  assert (STALL : forall later now now' got c z, snd (connect ih pid i got Silent) = SDone (Ok c) -> snd (connect_w ih pid i ws got Silent) = SWaiting ->
     exchange_w ih pid i ws now got later <> Ret (Some (now', Ok z))).
  { intros later now now' got c z C ST. rewrite exchange_stalled; [discriminate|]. intros m e. rewrite connect_cut in ST |- *. rewrite connect_more_out; [|rewrite C; discriminate]. rewrite C in ST. cbn [carry] in ST.
    destruct (cut_tri ws (fst (connect ih pid i got Silent))) as [H|[[_ (o & H)]|[_ (o & H)]]]; rewrite H in ST |- *; cbn [snd] in *; [discriminate ST|discriminate ST|reflexivity]. }
  induction later as [|[t1 [b| |]] later IH]; intros now got t c l E; cbn [exchange] in E; destruct (snd (connect ih pid i got Silent)) as [[c0|x]| |] eqn:C; try discriminate E.
  - cbn [res_bind] in E. injection E as <- <- <-. destruct (DONE [] now got c0 C) as [D1 D2]. cbn [exchange_w]. split; [intros S; now rewrite (D1 S)|]. intros z Z. apply (D2 _ _ Z). intros ST. discriminate.
  - cbn [res_bind] in E. injection E as <- <- <-. destruct (DONE ((t1, RData b) :: later) now got c0 C) as [D1 D2]. cbn [exchange_w]. split; [intros S; now rewrite (D1 S)|]. intros z Z. apply (D2 _ _ Z). intros ST.
    pose proof (STALL ((t1, RData b) :: later) now now got c0 z C ST) as X. cbn [exchange_w] in X. rewrite ST in X. exact X.
  - specialize (IH _ _ _ _ _ E). assert (OM : opening_messages (got ++ [b]) later = opening_messages got ((t1, RData b) :: later)).
    { unfold opening_messages. cbn [pieces]. destruct (pieces later). cbn [fst snd]. now rewrite <- app_assoc. }
    rewrite OM in IH. destruct IH as [I1 I2]. cbn [exchange_w]. rewrite connect_cut, C. cbn [carry]. split.
    + intros S. assert (S1 : succeed ws (length (fst (connect ih pid i got Silent)))).
      { eapply succeed_le; [|exact S]. unfold opening_messages. destruct (connect_grows ih pid i got (fst (pieces ((t1, RData b) :: later))) (snd (pieces ((t1, RData b) :: later)))) as (o & ->). rewrite app_length. lia. }
      rewrite (proj1 (cut_spec _ _ _) S1). cbn [snd]. exact (I1 S).
    + intros z. destruct (cut_tri ws (fst (connect ih pid i got Silent))) as [H|[[_ (o & H)]|[_ (o & H)]]]; rewrite H; cbn [snd]; [apply I2|discriminate|apply I2].
  - cbn [res_bind] in E. injection E as <- <- <-. destruct (DONE ((t1, REof) :: later) now got c0 C) as [D1 D2]. cbn [exchange_w]. split; [intros S; now rewrite (D1 S)|]. intros z Z. apply (D2 _ _ Z). intros ST.
    pose proof (STALL ((t1, REof) :: later) now now got c0 z C ST) as X. cbn [exchange_w] in X. rewrite ST in X. exact X.
  - destruct (snd (connect ih pid i got Closed)) as [[]| |]; discriminate E.
  - cbn [res_bind] in E. injection E as <- <- <-. destruct (DONE ((t1, RError) :: later) now got c0 C) as [D1 D2]. cbn [exchange_w]. split; [intros S; now rewrite (D1 S)|]. intros z Z. apply (D2 _ _ Z). intros ST.
    pose proof (STALL ((t1, RError) :: later) now now got c0 z C ST) as X. cbn [exchange_w] in X. rewrite ST in X. exact X.
  - destruct (snd (connect ih pid i got Broken)) as [[]| |]; discriminate E.
Qed.
Lemma messages_split now later t c l : exchange ih pid i now [] later = Ret (Some (t, Ok (c, l))) ->
  messages ih pid i later = (opening_messages [] later + length (fst (fetch_from ih (more_reads c (fst (pieces l))) (snd (pieces l)))))%nat.
Proof.
  intros E. destruct (exchange_times _ _ _ _ _ _ _ _ _ E) as (_ & used & -> & OD & _ & C). cbn [app] in C.
  unfold messages, opening_messages. rewrite (pieces_app used l OD). cbn [fst snd app].
  pose proof (connect_more ih pid i (map data_of used) (fst (pieces l)) (snd (pieces l)) ltac:(rewrite C; discriminate)) as M. rewrite C in M. cbn [more_stage] in M.
  unfold session. destruct (connect ih pid i (map data_of used ++ fst (pieces l)) (snd (pieces l))) as [out st]. cbn [fst snd] in *. subst st.
  destruct (fetch_from ih (more_reads c (fst (pieces l))) (snd (pieces l))) as [o s]. cbn [fst]. apply app_length.
Qed.
Lemma finish_w_exact l t c w later s : finish_w ih (l, t, Ok (c, w, later)) = Ret (l, SDone (Ok s)) <->
  finish0 ih (l, t, Ok (c, later)) = Ret (l, SDone (Ok s)) /\ succeed w (length (fst (fetch_from ih (more_reads c (fst (pieces later))) (snd (pieces later))))).
Proof.
  unfold finish_w, finish0. destruct (pieces later) as [bs e]. cbn [fst snd]. fold (more_reads c bs). rewrite fetch_cut. destruct (fetch_from ih (more_reads c bs) e) as [out st]. cbn [fst snd].
  split.
  - destruct (cut w out st) as [o s'] eqn:E. cbn [snd]. intros [= ->]. destruct (cut_ok_inv _ _ _ _ _ E) as [S ->]. auto.
  - intros [[= ->] S]. rewrite (proj1 (cut_spec _ _ _) S). reflexivity.
Qed.
(** One attempt, given the times *)
Lemma attempt_exact l limit now start reads ws s :
  match (match exchange_w ih pid i ws start [] reads with Panic => Panic | Ret None => Ret None | Ret (Some (t, r)) => Ret (Some (t - now, r)) end) with
  | Panic => Panic | Ret r => finish_w ih (l, fst (once limit r), snd (once limit r)) end = Ret (l, SDone (Ok s)) <->
  match (match exchange ih pid i start [] reads with Panic => Panic | Ret None => Ret None | Ret (Some (t, r)) => Ret (Some (t - now, r)) end) with
  | Panic => Panic | Ret r => finish0 ih (l, fst (once limit r), snd (once limit r)) end = Ret (l, SDone (Ok s)) /\ succeed ws (messages ih pid i reads).
Proof.
  pose proof (exchange_affected ih pid i ws reads start []) as A. split.
  - intros H. pose proof (affected_time _ _ _ now _ _ A) as AT. pose proof (once_ok ih l limit _ _ _ _ s AT H) as H0. split; [exact H0|]. clear AT.
    destruct (exchange ih pid i start [] reads) as [[[t [[c later]|x]]|]|] eqn:EX; try discriminate H0; [|unfold once, timeout in H0; destruct (_ <=? _); discriminate H0].
    destruct (exchange_succeed ws _ _ _ _ _ _ EX) as [E1 E2]. rewrite (messages_split _ _ _ _ _ EX).
    destruct (exchange_w ih pid i ws start [] reads) as [[[t' [[[c' w'] later']|x]]|]|] eqn:EW; try discriminate H; [|unfold once, timeout in H; destruct (_ <=? _); discriminate H].
    assert (t' = t) as -> by (inversion A; reflexivity). specialize (E2 _ eq_refl). specialize (E1 E2). injection E1 as -> -> ->.
    apply succeed_app. split; [exact E2|]. unfold once, timeout in H. destruct (t - now <=? limit); [|discriminate H]. cbn [fst snd] in H. apply finish_w_exact in H. exact (proj2 H).
  - intros [H S]. destruct (exchange ih pid i start [] reads) as [[[t [[c later]|x]]|]|] eqn:EX; try discriminate H; [|unfold once, timeout in H; destruct (_ <=? _); discriminate H].
    rewrite (messages_split _ _ _ _ _ EX) in S. apply succeed_app in S as [S1 S2]. rewrite (proj1 (exchange_succeed ws _ _ _ _ _ _ EX) S1).
    unfold once, timeout in *. destruct (t - now <=? limit); [|discriminate H]. cbn [fst snd] in *. apply finish_w_exact. auto.
Qed.
Lemma plain_exact l limit now d s :
  match connect_plain_w ih pid i now (within_w limit d) with Panic => Panic | Ret r => finish_w ih (l, fst (once limit r), snd (once limit r)) end = Ret (l, SDone (Ok s)) <->
  match connect_plain ih pid i now (within limit (fst d)) with Panic => Panic | Ret r => finish0 ih (l, fst (once limit r), snd (once limit r)) end = Ret (l, SDone (Ok s)) /\
  succeed (snd d) (messages ih pid i (d_reads (fst d))).
Proof.
  unfold connect_plain_w, connect_plain, within_w. cbn [fst snd]. unfold within. cbn [d_tcp d_reads]. destruct (d_tcp (fst d)) as [[t0 r]|].
  - destruct (t0 <=? limit).
    + destruct r as [[]|x]; [apply attempt_exact|]. split; [|intros [H _]; revert H]; unfold once, timeout; destruct (t0 <=? limit); discriminate.
    + split; [discriminate|intros [H _]; discriminate H].
  - split; [discriminate|intros [H _]; discriminate H].
Qed.
Lemma crypto_exact l limit secs now d s :
  match connect_crypto_w ih pid i secs now (within_w limit d) with Panic => Panic | Ret r => finish_w ih (l, fst (once limit r), snd (once limit r)) end = Ret (l, SDone (Ok s)) <->
  match connect_crypto ih pid i secs now (within limit (fst d)) with Panic => Panic | Ret r => finish0 ih (l, fst (once limit r), snd (once limit r)) end = Ret (l, SDone (Ok s)) /\
  forall t0, d_tcp (fst d) = Some (t0, Ok tt) -> succeed (snd d) (messages_encrypted ih pid i secs (now + t0) (fst d)).
Proof.
  unfold connect_crypto_w, connect_crypto, connect_encrypted, within_w. cbn [fst snd]. unfold within. cbn [d_tcp d_reads d_pada d_padc d_key]. destruct (d_tcp (fst d)) as [[t0 r]|].
  - destruct (t0 <=? limit).
    + destruct r as [[]|x]; [|split; [|intros [H _]; revert H]; unfold once, timeout; destruct (t0 <=? limit); discriminate].
      rewrite handshake_cut. assert (U : (forall t1, Some (t0, @Ok peer_error unit tt) = Some (t1, Ok tt) -> succeed (snd d) (messages_encrypted ih pid i secs (now + t1) (fst d))) <-> succeed (snd d) (messages_encrypted ih pid i secs (now + t0) (fst d))).
      { split; [intros H; now apply H|]. now intros H t1 [= <-]. }
      match goal with |- ?A <-> ?B /\ ?C => enough (Z : A <-> B /\ succeed (snd d) (messages_encrypted ih pid i secs (now + t0) (fst d))) by tauto end. clear U. unfold messages_encrypted.
      destruct (handshake ih secs (d_pada (fst d)) (d_padc (fst d)) (d_key (fst d)) (now + t0) (d_reads (fst d))) as [out r]. cbn [fst snd].
      destruct r as [t ks rest later|t x| |].
      * rewrite succeed_app. destruct (cut_h_tri (snd d) out) as [H|[[_ (o & t1 & w & _ & H)]|[_ (o & w & H)]]]; rewrite H.
        -- pose proof (cut_h_ok_inv _ _ _ _ _ _ _ _ _ (H (HDone t ks rest later))) as (S & _). 
           match goal with |- context [exchange_w ih pid i ?ws t [] ?rd] => pose proof (attempt_exact l limit now t rd ws s) as AE end. tauto.
        -- assert (NS : ~ succeed (snd d) (length out)). { intros S. specialize (H HWait). rewrite (proj1 (cut_h_spec _ _ _) S) in H. discriminate H. }
           split; [unfold once, timeout; destruct (_ <=? limit); discriminate|tauto].
        -- assert (NS : ~ succeed (snd d) (length out)). { intros S. specialize (H HPanic). rewrite (proj1 (cut_h_spec _ _ _) S) in H. discriminate H. }
           split; [discriminate|tauto].
      * split; [|intros [H _]; revert H; unfold once, timeout; destruct (_ <=? limit); discriminate].
        destruct (cut_h_tri (snd d) out) as [H|[[_ (o & t1 & w & _ & H)]|[_ (o & w & H)]]]; rewrite H; unfold once, timeout; try (destruct (_ <=? limit)); discriminate.
      * split; [|intros [H _]; discriminate H].
        destruct (cut_h_tri (snd d) out) as [H|[[_ (o & t1 & w & _ & H)]|[_ (o & w & H)]]]; rewrite H; unfold once, timeout; try (destruct (_ <=? limit)); discriminate.
      * split; [|intros [H _]; discriminate H].
        destruct (cut_h_tri (snd d) out) as [H|[[_ (o & t1 & w & _ & H)]|[_ (o & w & H)]]]; rewrite H; unfold once, timeout; try (destruct (_ <=? limit)); discriminate.
    + split; [discriminate|intros [H _]; discriminate H].
  - split; [discriminate|intros [H _]; discriminate H].
Qed.
Hypothesis L1 : length ih = 20%nat.
Hypothesis L2 : length pid = 20%nat.
Hypothesis W : wf_ip i.
Lemma finish0_list l l' t t' r s : finish0 ih (l, t, r) = Ret (l, s) -> finish0 ih (l', t', r) = Ret (l', s).
Proof. unfold finish0. destruct r as [[c later]|x]; [destruct (pieces later)|]; congruence. Qed.
Lemma finish0_first l t r l' s : finish0 ih (l, t, r) = Ret (l', s) -> l' = l.
Proof. unfold finish0. destruct r as [[c later]|x]; [destruct (pieces later)|]; congruence. Qed.
Definition good (meta : bytes) : Prop := bencoded_dict meta /\ sha1 meta = ih /\ blen meta <= 20971520.
Lemma plain_0_exact l limit now d meta t :
  match connect_plain ih pid i now (within limit d) with Panic => Panic | Ret r => finish0 ih (l, t + fst (once limit r), snd (once limit r)) end = Ret (l, SDone (Ok (mkTI ih meta))) <->
  good meta /\ exists t0, d_tcp d = Some (t0, Ok tt) /\ t0 <= limit /\ serves_plain ih meta (now + limit) (d_reads d).
Proof.
  pose proof (get_info_exact ih pid i L1 L2 W (Some Plain) CPNever false limit 0 now (mkDial None [] [] 0 []) d [false] meta ltac:(discriminate)) as E. rewrite get_info_0_plain in E by reflexivity.
  assert (Z : match connect_plain ih pid i now (within limit d) with Panic => Panic | Ret r => finish0 ih (l, t + fst (once limit r), snd (once limit r)) end = Ret (l, SDone (Ok (mkTI ih meta))) <->
    match connect_plain ih pid i now (within limit d) with Panic => Panic | Ret r => finish0 ih ([false], fst (once limit r), snd (once limit r)) end = Ret ([false], SDone (Ok (mkTI ih meta)))).
  { destruct (connect_plain ih pid i now (within limit d)) as [r|]; [|split; discriminate]. split; apply finish0_list. }
  rewrite Z, E. clear. unfold good, obtainable. split.
  - intros (B1 & B2 & B3 & [(_ & _ & H)|[(H & _)|(H & _)]]); [auto|discriminate H..].
  - intros ((B1 & B2 & B3) & H). repeat (split; [assumption|]). left. split; [reflexivity|]. split; [split; auto|exact H].
Qed.
Lemma crypto_0_exact l limit secs now d meta :
  match connect_crypto ih pid i secs now (within limit d) with Panic => Panic | Ret r => finish0 ih (l, fst (once limit r), snd (once limit r)) end = Ret (l, SDone (Ok (mkTI ih meta))) <->
  good meta /\ exists t0, d_tcp d = Some (t0, Ok tt) /\ (now + t0) / 1000000000 + secs < 2 ^ 63 /\ t0 + ns secs <= limit /\
    serves_under_key ih meta (now + t0) secs (now + limit) (d_key d) (d_reads d).
Proof.
  assert (Z : match connect_crypto ih pid i secs now (within limit d) with Panic => Panic | Ret r => finish0 ih (l, fst (once limit r), snd (once limit r)) end = Ret (l, SDone (Ok (mkTI ih meta))) <->
    get_info ih pid i (Some Encrypt) CPNever false limit secs now d (mkDial None [] [] 0 []) = Ret ([true], SDone (Ok (mkTI ih meta)))).
  { rewrite get_info_0_crypto by reflexivity. destruct (connect_crypto ih pid i secs now (within limit d)) as [r|]; [|split; discriminate]. split; apply finish0_list. }
  rewrite Z. clear Z. unfold good. split.
  - intros G. destruct (get_info_authentic _ _ _ _ _ _ _ _ _ _ _ _ _ L1 L2 W G) as (_ & SH & BD). cbn [ti_data] in SH, BD.
    rewrite get_info_0_crypto in G by reflexivity. destruct (connect_crypto ih pid i secs now (within limit d)) as [r|] eqn:EC; [|discriminate G]. unfold once, timeout in G.
    destruct r as [[t a]|]; [|discriminate G]. destruct (N.leb_spec t limit) as [LT|]; [|discriminate G]. cbn [fst snd] in G. destruct a as [[c later]|]; [|discriminate G].
    destruct (exact_crypto ih pid i L1 L2 W secs now limit d t c later meta EC LT) as (LB & S); [unfold finish0 in G; destruct (pieces later); now injection G|]. auto.
  - intros ((BD & SH & LB) & t0 & E & NO & LE & S).
    apply (get_info_encrypted ih pid i meta L2 W BD SH LB (Some Encrypt) CPNever false limit secs now d (mkDial None [] [] 0 []) t0); auto. left. reflexivity.
Qed.
Lemma exchange_w_error ws : forall later now got t x, exchange_w ih pid i ws now got later = Ret (Some (t, Err x)) -> x <> ECryptoHandshake.
Proof.
  intros later now got t x E. pose proof (exchange_affected ih pid i ws later now got) as A. rewrite E in A. inversion A as [|t1 x1 X1 X2| | |t1 r I1 T X1|t1 r C|]; try discriminate; subst. exact (exchange_error ih pid i _ _ _ _ _ (eq_sym X2)).
Qed.
Lemma failed_w limit secs now d t : ((forall t0, d_tcp (fst d) <> Some (t0, Err ECryptoHandshake)) ->
   connect_crypto_w ih pid i secs now (within_w limit d) = Ret (Some (t, Err ECryptoHandshake)) ->
   exists t0 o x ws, d_tcp (fst d) = Some (t0, Ok tt) /\ t0 <= limit /\
    handshake_w ih secs (d_pada (fst d)) (d_padc (fst d)) (d_key (fst d)) (snd d) (now + t0) (d_reads (fst d)) = (o, HFail (now + t) x, ws)) /\
  ((exists t0 o x ws, d_tcp (fst d) = Some (t0, Ok tt) /\ t0 <= limit /\
    handshake_w ih secs (d_pada (fst d)) (d_padc (fst d)) (d_key (fst d)) (snd d) (now + t0) (d_reads (fst d)) = (o, HFail (now + t) x, ws)) ->
   connect_crypto_w ih pid i secs now (within_w limit d) = Ret (Some (t, Err ECryptoHandshake))).
Proof.
  unfold connect_crypto_w, within_w. cbn [fst snd]. unfold within. cbn [d_tcp d_reads d_pada d_padc d_key]. split.
  - intros NE. destruct (d_tcp (fst d)) as [[t0 r]|]; [|discriminate]. destruct (N.leb_spec t0 limit) as [LE|]; [|discriminate]. destruct r as [[]|x]; [|intros [= <- ->]; now elim (NE t0)].
    destruct (handshake_w ih secs (d_pada (fst d)) (d_padc (fst d)) (d_key (fst d)) (snd d) (now + t0) (d_reads (fst d))) as [[o [t1 ks rest lat|t1 x| |]] ws] eqn:H; try discriminate.
    + destruct exchange_w as [[[t2 [c|x]]|]|] eqn:E; try discriminate. intros [= <- ->]. now elim (exchange_w_error _ _ _ _ _ _ E).
    + intros [= <-]. exists t0, o, x, ws. split; [reflexivity|]. split; [exact LE|]. enough (GE : now <= t1) by (replace (now + (t1 - now)) with t1 by lia; exact H).
      rewrite handshake_cut in H. destruct (handshake ih secs (d_pada (fst d)) (d_padc (fst d)) (d_key (fst d)) (now + t0) (d_reads (fst d))) as [out r] eqn:HS. cbn [fst snd] in H.
      assert (OV : now + t0 <= t1); [|lia].
      pose proof (hs_after (3 + length (d_reads (fst d))) (build ih secs (d_pada (fst d)) (d_padc (fst d)) (d_key (fst d))) None (now + t0) (d_reads (fst d))) as X.
      fold (handshake ih secs (d_pada (fst d)) (d_padc (fst d)) (d_key (fst d)) (now + t0) (d_reads (fst d))) in X. rewrite HS in X. exact (X ltac:(discriminate) _ _ _ _ _ H).
  - intros (t0 & o & x & ws & -> & LE & H). rewrite (proj2 (N.leb_le _ _) LE), H. now replace (now + t - now) with t by lia.
Qed.
(** The whole fetch *)
Lemma get_info_w_both override p requires limit secs now enc plain l meta :
  ((forall t0, d_tcp (fst enc) <> Some (t0, Err ECryptoHandshake)) -> get_info_w ih pid i override p requires limit secs now enc plain = Ret (l, SDone (Ok (mkTI ih meta))) ->
   bencoded_dict meta /\ sha1 meta = ih /\ blen meta <= 20971520 /\ obtainable_w ih pid i meta override p requires limit secs now enc plain l) /\
  (bencoded_dict meta /\ sha1 meta = ih /\ blen meta <= 20971520 /\ obtainable_w ih pid i meta override p requires limit secs now enc plain l ->
   get_info_w ih pid i override p requires limit secs now enc plain = Ret (l, SDone (Ok (mkTI ih meta)))).
Proof.
  assert (FST : forall l1 l2 r t s, @finish_w ih (l1, t, r) = Ret (l2, s) -> l2 = l1) by (intros l1 l2 r t s E; destruct (finish_w_list ih l1 t r) as (s' & E'); congruence).
  assert (PL : forall st t, let A := match connect_plain_w ih pid i st (within_w limit plain) with Panic => Panic | Ret r => finish_w ih ([false], t + fst (once limit r), snd (once limit r)) end in
     A = Ret ([false], SDone (Ok (mkTI ih meta))) <-> good meta /\ exists t0, d_tcp (fst plain) = Some (t0, Ok tt) /\ t0 <= limit /\ serves_plain ih meta (st + limit) (d_reads (fst plain)) /\ succeed (snd plain) (messages ih pid i (d_reads (fst plain)))).
  { intros st t A. subst A. pose proof (plain_exact [false] limit st plain (mkTI ih meta)) as E. pose proof (plain_0_exact [false] limit st (fst plain) meta 0) as E0. cbn [N.add] in E0.
    transitivity (match connect_plain_w ih pid i st (within_w limit plain) with Panic => Panic | Ret r => finish_w ih ([false], fst (once limit r), snd (once limit r)) end = Ret ([false], SDone (Ok (mkTI ih meta)))); [destruct (connect_plain_w _ _ _ _ _); reflexivity|].
    rewrite E, E0. clear. split; [intros ((G & t0 & A1 & A2 & A3) & A4); split; [exact G|]; exists t0; auto|intros (G & t0 & A1 & A2 & A3 & A4); split; [split; [exact G|]; exists t0; auto|exact A4]]. }
  assert (CR : let A := match connect_crypto_w ih pid i secs now (within_w limit enc) with Panic => Panic | Ret r => finish_w ih ([true], fst (once limit r), snd (once limit r)) end in
     A = Ret ([true], SDone (Ok (mkTI ih meta))) <-> good meta /\ exists t0, d_tcp (fst enc) = Some (t0, Ok tt) /\ (now + t0) / 1000000000 + secs < 2 ^ 63 /\ t0 + ns secs <= limit /\
       serves_under_key ih meta (now + t0) secs (now + limit) (d_key (fst enc)) (d_reads (fst enc)) /\ succeed (snd enc) (messages_encrypted ih pid i secs (now + t0) (fst enc))).
  { intros A. subst A. rewrite (crypto_exact [true] limit secs now enc (mkTI ih meta)), crypto_0_exact. split.
    - intros ((G & t0 & A1 & A2 & A3 & A4) & A5). split; [exact G|]. exists t0. auto 9.
    - intros (G & t0 & A1 & A2 & A3 & A4 & A5). split; [split; [exact G|]; exists t0; auto|]. intros t1 E. rewrite A1 in E. now injection E as <-. }
  cbv zeta in PL, CR. unfold obtainable_w, good in *. destruct (get_crypto_mode override p requires) as [[| |]|] eqn:M.
  - rewrite (get_info_w_crypto _ _ _ _ _ _ _ _ _ _ _ M). split.
    + intros NE G. assert (l = [true]) as -> by (destruct (connect_crypto_w ih pid i secs now (within_w limit enc)); [exact (FST _ _ _ _ _ G)|discriminate G]).
      apply CR in G as ((B1 & B2 & B3) & S). repeat (split; [assumption|]). right; left. split; [reflexivity|]. split; [apply mode_encrypts; auto|exact S].
    + intros (B1 & B2 & B3 & [(_ & X & _)|[(-> & _ & S)|(_ & X & _)]]); [apply mode_avoids in X; congruence| |apply mode_prefers in X; congruence]. apply CR. auto.
  - rewrite (get_info_w_prefer _ _ _ _ _ _ _ _ _ _ _ M). split.
    + intros NE G. destruct (connect_crypto_w ih pid i secs now (within_w limit enc)) as [r|] eqn:EC; [|discriminate G].
      assert (D : (exists t, r = Some (t, Err ECryptoHandshake) /\ t <= limit) \/ finish_w ih ([true], fst (once limit r), snd (once limit r)) = Ret (l, SDone (Ok (mkTI ih meta)))).
      { unfold timeout in G. destruct r as [[t [c|x]]|]; auto. { destruct (t <=? limit); auto. } destruct (N.leb_spec t limit); [|auto]. destruct x; auto. left. exists t. auto. }
      destruct D as [(t & -> & LT)|D].
      * unfold timeout in G. rewrite (proj2 (N.leb_le _ _) LT) in G. specialize (PL (now + t) t).
        destruct (connect_plain_w ih pid i (now + t) (within_w limit plain)) as [r|] eqn:EP; [|discriminate G]. pose proof (FST _ _ _ _ _ G) as ->.
        assert (G' : finish_w ih ([false], t + fst (once limit r), snd (once limit r)) = Ret ([false], SDone (Ok (mkTI ih meta)))).
        { revert G. unfold finish_w. destruct (snd (once limit r)) as [[[c ws] later]|x]; [destruct (pieces later)|]; congruence. }
        apply PL in G' as ((B1 & B2 & B3) & S). repeat (split; [assumption|]). right; right. split; [reflexivity|]. split; [apply mode_prefers, M|].
        apply (proj1 (failed_w limit secs now enc t) NE) in EC as (t0 & o & x & ws & H1 & H2 & H3). exists t0, o, (now + t), x, ws. repeat (split; [assumption || lia|]). exact S.
      * pose proof (FST _ _ _ _ _ D) as ->. apply CR in D as ((B1 & B2 & B3) & S). repeat (split; [assumption|]). right; left. split; [reflexivity|]. split; [apply mode_encrypts; auto|exact S].
    + intros (B1 & B2 & B3 & [(_ & X & _)|[(-> & _ & S)|(-> & _ & t0 & o & t & x & ws & E & LE & H & LT & S)]]); [apply mode_avoids in X; congruence| |].
      * pose proof (proj2 CR (conj (conj B1 (conj B2 B3)) S)) as G. destruct (connect_crypto_w ih pid i secs now (within_w limit enc)) as [r|]; [|discriminate G].
        unfold once, timeout in G |- *. destruct r as [[t [c|x]]|]; [|destruct (t <=? limit); discriminate G|discriminate G]. destruct (t <=? limit); [exact G|discriminate G].
      * assert (GE : now + t0 <= t).
        { rewrite handshake_cut in H. eapply (hs_after (3 + length (d_reads (fst enc))) (build ih secs (d_pada (fst enc)) (d_padc (fst enc)) (d_key (fst enc))) None (now + t0) (d_reads (fst enc))); [discriminate|exact H]. }
        assert (EC : connect_crypto_w ih pid i secs now (within_w limit enc) = Ret (Some (t - now, Err ECryptoHandshake))).
        { apply (failed_w limit secs now enc (t - now)). exists t0, o, x, ws. replace (now + (t - now)) with t by lia. auto. }
        rewrite EC. unfold timeout. rewrite (proj2 (N.leb_le (t - now) limit)) by lia. replace (now + (t - now)) with t by lia.
        pose proof (proj2 (PL t (t - now)) (conj (conj B1 (conj B2 B3)) S)) as G. destruct (connect_plain_w ih pid i t (within_w limit plain)) as [r|]; [|discriminate G].
        revert G. unfold finish_w. destruct (snd (once limit r)) as [[[c w] later]|y]; [destruct (pieces later)|]; congruence.
  - rewrite (get_info_w_plain _ _ _ _ _ _ _ _ _ _ _ M). specialize (PL now 0). cbn [N.add] in PL. split.
    + intros NE G. assert (l = [false]) as -> by (destruct (connect_plain_w ih pid i now (within_w limit plain)); [exact (FST _ _ _ _ _ G)|discriminate G]).
      apply PL in G as ((B1 & B2 & B3) & S). repeat (split; [assumption|]). left. split; [reflexivity|]. split; [apply mode_avoids, M|exact S].
    + intros (B1 & B2 & B3 & [(-> & _ & S)|[(_ & X & _)|(_ & X & _)]]); [apply PL; auto|apply mode_encrypts in X as [X|X]; congruence|apply mode_prefers in X; congruence].
  - unfold get_info_w. rewrite M. split; [discriminate|]. intros (_ & _ & _ & [(_ & X & _)|[(_ & X & _)|(_ & X & _)]]); [apply mode_avoids in X; congruence|apply mode_encrypts in X as [X|X]; congruence|apply mode_prefers in X; congruence].
Qed.
Lemma get_info_w_exact override p requires limit secs now enc plain l meta :
  (forall t0, d_tcp (fst enc) <> Some (t0, Err ECryptoHandshake)) ->
  (get_info_w ih pid i override p requires limit secs now enc plain = Ret (l, SDone (Ok (mkTI ih meta))) <->
   bencoded_dict meta /\ sha1 meta = ih /\ blen meta <= 20971520 /\ obtainable_w ih pid i meta override p requires limit secs now enc plain l).
Proof. intros NE. destruct (get_info_w_both override p requires limit secs now enc plain l meta) as [A B]. split; auto. Qed.
Lemma once_panic l limit ws crypto r1 r2 : affected (same_link ws) ws crypto r1 r2 -> r2 <> Panic ->
  (forall l', match r2 with Panic => Panic | Ret r => finish0 ih (l', fst (once limit r), snd (once limit r)) end <> Ret (l', SPanicked)) ->
  exists r, r1 = Ret r /\ forall t, finish_w ih (l, t, snd (once limit r)) <> Ret (l, SPanicked).
Proof.
  intros A NP NS. destruct A as [t c1 c2 S|t x| | |t r I1 T|t r -> I1 T|r I1]; try congruence; (eexists; split; [reflexivity|]; intros t'; unfold once, timeout).
  - specialize (NS l). unfold once, timeout in NS. destruct (t <=? limit); [|discriminate]. cbn [fst snd] in *. destruct c1 as [[c1 ws1] l1], c2 as [c2 l2]. destruct S as (S1 & S2 & S3). cbn [fst snd] in *. subst c2 l2.
    unfold finish_w, finish0 in *. destruct (pieces l1) as [bs e]. rewrite fetch_cut. destruct (fetch_from ih _ e) as [out s]. cbn [fst snd] in *.
    destruct (cut_tri ws1 out) as [H|[[_ (o & H)]|[_ (o & H)]]]; rewrite H; cbn [snd]; try discriminate. exact NS.
  - destruct (t <=? limit); discriminate.
  - discriminate.
  - destruct (t <=? limit); discriminate.
  - destruct (t <=? limit); discriminate.
  - discriminate.
Qed.
(** The fetch panics at most where the key-exchange deadline is out of the clock's range. *)
Lemma get_info_w_panic override p requires limit secs now enc plain :
  (get_info_w ih pid i override p requires limit secs now enc plain = Panic ->
   wants_encryption override p requires /\
   exists t0, d_tcp (fst enc) = Some (t0, Ok tt) /\ t0 <= limit /\ 2 ^ 63 <= (now + t0) / 1000000000 + secs) /\
  (forall l, get_info_w ih pid i override p requires limit secs now enc plain <> Ret (l, SPanicked)).
Proof.
  assert (PL : forall l st, exists r, connect_plain_w ih pid i st (within_w limit plain) = Ret r /\ forall t, finish_w ih (l, t, snd (once limit r)) <> Ret (l, SPanicked)).
  { intros l st. pose proof (plain_affected ih pid i st (within limit (fst plain)) (snd plain)) as A. destruct (once_panic l limit _ _ _ _ A) as (r & E & N); [apply plain_linked; auto| |exists r; auto].
    intros l' E. destruct (get_info_panic ih pid i (Some Plain) CPNever false limit secs st (fst enc) (fst plain) L1 L2 W) as [_ G]. apply (G [false]). rewrite get_info_0_plain by reflexivity.
    destruct (connect_plain ih pid i st (within limit (fst plain))) as [r|]; [|discriminate E]. exact (finish0_list _ _ _ _ _ _ E). }
  assert (CR : forall l, (connect_crypto ih pid i secs now (within limit (fst enc)) = Panic) \/
     exists r, connect_crypto_w ih pid i secs now (within_w limit enc) = Ret r /\ forall t, finish_w ih (l, t, snd (once limit r)) <> Ret (l, SPanicked)).
  { intros l. pose proof (crypto_affected ih pid i secs now (within limit (fst enc)) (snd enc)) as A.
    destruct (connect_crypto ih pid i secs now (within limit (fst enc))) as [r0|] eqn:E0; [right|left; reflexivity]. rewrite <- E0 in A. destruct (once_panic l limit _ _ _ _ A) as (r & E & N); [congruence| |exists r; auto].
    intros l' E. destruct (get_info_panic ih pid i (Some Encrypt) CPNever false limit secs now (fst enc) (fst plain) L1 L2 W) as [_ G]. apply (G [true]). rewrite get_info_0_crypto by reflexivity.
    rewrite E0 in E |- *. exact (finish0_list _ _ _ _ _ _ E). }
  assert (TM : connect_crypto ih pid i secs now (within limit (fst enc)) = Panic -> exists t0, d_tcp (fst enc) = Some (t0, Ok tt) /\ t0 <= limit /\ 2 ^ 63 <= (now + t0) / 1000000000 + secs).
  { intros E. destruct (get_info_panic ih pid i (Some Encrypt) CPNever false limit secs now (fst enc) (fst plain) L1 L2 W) as [[G _] _]. apply G. rewrite get_info_0_crypto by reflexivity. now rewrite E. }
  destruct (get_crypto_mode override p requires) as [[]|x] eqn:M.
  - rewrite (get_info_w_crypto _ _ _ _ _ _ _ _ _ _ _ M). split.
    + intros E. split; [apply mode_encrypts; auto|]. destruct (CR [true]) as [C|(r & C & N)]; [auto|]. rewrite C in E. destruct (finish_w_list ih [true] (fst (once limit r)) (snd (once limit r))). congruence.
    + intros l E. destruct (connect_crypto_w ih pid i secs now (within_w limit enc)) as [r|] eqn:EC; [|discriminate E]. destruct (finish_w_list ih [true] (fst (once limit r)) (snd (once limit r))) as (s & E2). assert (l = [true]) as -> by congruence.
      destruct (CR [true]) as [C|(r' & C & N)]; [|injection C as <-; exact (N _ E)].
      pose proof (crypto_affected ih pid i secs now (within limit (fst enc)) (snd enc)) as A. change (within limit (fst enc), snd enc) with (within_w limit enc) in A. rewrite EC, C in A.
      inversion A; subst; revert E; unfold once, timeout; try (destruct (_ <=? limit)); discriminate.
  - rewrite (get_info_w_prefer _ _ _ _ _ _ _ _ _ _ _ M). split.
    + intros E. split; [apply mode_encrypts; auto|]. destruct (CR [true]) as [C|(r & C & N)]; [auto|]. rewrite C in E. exfalso. destruct (finish_w_list ih [true] (fst (once limit r)) (snd (once limit r))) as (s & F).
      destruct (timeout limit r) as [t [[c|x]|]]; try congruence. destruct x; try congruence.
      match type of E with match connect_plain_w ih pid i ?st _ with _ => _ end = _ => destruct (PL [true; false] st) as (r' & C' & _) end. rewrite C' in E. destruct (finish_w_list ih [true; false] (t + fst (once limit r')) (snd (once limit r'))). congruence.
    + intros l E. destruct (connect_crypto_w ih pid i secs now (within_w limit enc)) as [r|] eqn:EC; [|discriminate E].
      assert (F : forall t l', finish_w ih (l', t, snd (once limit r)) <> Ret (l', SPanicked)).
      { intros t0 l' X. destruct (CR l') as [C|(r' & C & N)]; [|injection C as <-; exact (N _ X)].
        pose proof (crypto_affected ih pid i secs now (within limit (fst enc)) (snd enc)) as A. change (within limit (fst enc), snd enc) with (within_w limit enc) in A. rewrite EC, C in A.
        inversion A; subst; revert X; unfold once, timeout; try (destruct (_ <=? limit)); discriminate. }
      assert (F' : forall t l' l2, finish_w ih (l', t, snd (once limit r)) <> Ret (l2, SPanicked)).
      { intros t0 l' l2 X. destruct (finish_w_list ih l' t0 (snd (once limit r))) as (s & E2). assert (l2 = l') as -> by congruence. exact (F _ _ X). }
      destruct (timeout limit r) as [t [[c|x]|]]; try exact (F' _ _ _ E). destruct x; try exact (F' _ _ _ E).
      match type of E with match connect_plain_w ih pid i ?st _ with _ => _ end = _ => destruct (PL [true; false] st) as (r' & C' & N') end. rewrite C' in E.
      destruct (finish_w_list ih [true; false] (t + fst (once limit r')) (snd (once limit r'))) as (s & E2). assert (l = [true; false]) as -> by congruence. exact (N' _ E).
  - rewrite (get_info_w_plain _ _ _ _ _ _ _ _ _ _ _ M). destruct (PL [false] now) as (r & -> & N). destruct (finish_w_list ih [false] (fst (once limit r)) (snd (once limit r))) as (s & E2). split; [congruence|].
    intros l E. assert (l = [false]) as -> by congruence. exact (N _ E).
  - unfold get_info_w. rewrite M. split; discriminate.
Qed.
End E.

(** Without bad writes *)
Lemma succeed_nil k : succeed [] k.
Proof. intros j _. now destruct j. Qed.
Lemma get_info_w_nil ih pid i override p requires limit secs now enc plain :
  get_info_w ih pid i override p requires limit secs now (enc, []) (plain, []) = get_info ih pid i override p requires limit secs now enc plain.
Proof. apply all_succeed; intros w []. Qed.
Lemma obtainable_nil ih pid i meta override p requires limit secs now enc plain l : obtainable ih meta override p requires limit secs now enc plain l ->
  obtainable_w ih pid i meta override p requires limit secs now (enc, []) (plain, []) l.
Proof.
  unfold obtainable, obtainable_w. cbn [fst snd]. intros [(-> & A & t0 & E & LE & S)|[(-> & A & t0 & E & NO & LE & S)|(-> & A & t0 & o & t & x & t1 & E & LE & H & LT & E1 & LE1 & S)]].
  - left. repeat (split; [assumption || reflexivity|]). exists t0. repeat (split; [assumption|]). apply succeed_nil.
  - right; left. repeat (split; [assumption || reflexivity|]). exists t0. repeat (split; [assumption|]). apply succeed_nil.
  - right; right. repeat (split; [assumption || reflexivity|]). exists t0, o, t, x, (skipn (length o) []). repeat (split; [assumption|]). split.
    + apply (handshake_cut_spec _ _ _ _ _ _ _ _ _ H). apply succeed_nil.
    + split; [exact LT|]. exists t1. repeat (split; [assumption|]). apply succeed_nil.
Qed.
