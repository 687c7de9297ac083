(** Lemmas for C42-C46, C73: the handshake as a whole, the stream, fallback. *)
From Verif Require Import Base BaseFacts M_Sha1 M_Rc4 M_Mse S_Mse P_Mse M_Torrent M_Peer M_Session M_Connect M_Config P_Session.

Ltac conjs := repeat match goal with |- _ /\ _ => split end.

Lemma packet4_pre8 padd x : firstn 8 (packet4 padd ++ x) = zeros 8. Proof. reflexivity. Qed.
Lemma packet4_pre12 padd x : firstn 4 (skipn 8 (packet4 padd ++ x)) = be_bytes 4 2. Proof. reflexivity. Qed.
Lemma app_eq_len {A} (a b c d : list A) : length a = length c -> a ++ b = c ++ d -> a = c /\ b = d.
Proof.
  revert c; induction a as [|x a IH]; intros [|y c] L E; try discriminate L; [auto|]. injection L as L. injection E as -> E.
  destruct (IH _ L E) as (-> & ->). auto.
Qed.
Lemma packet4_inj a b x y : blen a < 65536 -> blen b < 65536 -> packet4 a ++ x = packet4 b ++ y -> a = b /\ x = y.
Proof.
  intros LA LB E. unfold packet4, with_len in E. rewrite <- !app_assoc in E. apply app_inv_head in E. apply app_inv_head in E.
  apply app_eq_len in E as (E1 & E2); [|now rewrite !be_bytes_length]. apply be_bytes_inj in E1; try exact LA; try exact LB.
  apply app_eq_len in E2; auto. unfold blen in E1. lia.
Qed.
Definition unfinished (p : bytes) : Prop :=
  blen p < 8 \/ (blen p < 12 /\ firstn 8 p = zeros 8) \/ exists more padd, blen padd < 65536 /\ more <> [] /\ p ++ more = packet4 padd.
Lemma firstn_le_app {A} (a b : list A) n : (n <= length a)%nat -> firstn n (a ++ b) = firstn n a.
Proof. intros L. rewrite firstn_app. replace (n - length a)%nat with 0%nat by lia. cbn. apply app_nil_r. Qed.
Lemma skipn_le_app {A} (a b : list A) n : (n <= length a)%nat -> skipn n (a ++ b) = skipn n a ++ b.
Proof. intros L. rewrite skipn_app. replace (n - length a)%nat with 0%nat by lia. reflexivity. Qed.
Lemma conforming_not_wrong p padd payload : conforming_reply p padd payload -> ~ wrong_reply p.
Proof. intros (_ & ->) [(_ & W)|(_ & W)]; apply W; reflexivity. Qed.
Lemma unfinished_not_wrong p : unfinished p -> ~ wrong_reply p.
Proof.
  intros U W. destruct U as [L|[(L & Z)|(more & padd & _ & _ & E)]].
  - destruct W as [(L' & _)|(L' & _)]; lia.
  - destruct W as [(L' & N)|(L' & _)]; [auto|lia].
  - destruct W as [(L' & N)|(L' & N)]; apply N; unfold blen in L'.
    + rewrite <- (firstn_le_app p more) by lia. rewrite E, <- (app_nil_r (packet4 padd)). reflexivity.
    + transitivity (firstn 4 (skipn 8 (p ++ more))).
      * rewrite skipn_le_app by lia. symmetry. apply firstn_le_app. rewrite skipn_length. lia.
      * rewrite E, <- (app_nil_r (packet4 padd)). reflexivity.
Qed.
Lemma conforming_not_unfinished p padd payload : conforming_reply p padd payload -> ~ unfinished p.
Proof.
  intros (L & ->) U. destruct U as [L'|[(L' & _)|(more & padd' & LP & NE & E)]].
  - rewrite blen_app, packet4_length in L'. lia.
  - rewrite blen_app, packet4_length in L'. lia.
  - rewrite <- app_assoc, <- (app_nil_r (packet4 padd')) in E. apply packet4_inj in E as (_ & E); auto.
    apply app_eq_nil in E as (_ & E). contradiction.
Qed.

(** *** The whole handshake *)
Section Run.
Variables (skey : bytes) (secs : N) (pada : bytes) (padc : N) (key : bytes) (now : N) (before after : script).
Hypothesis NO : now / 1000000000 + secs < 2 ^ 63.
Hypothesis OB : only_data before.
Hypothesis OA : only_data after.
Hypothesis SP : split_at (now + ns secs) before after.
Let d := now + ns secs.
Let p1 := public (be_val key) ++ pada.
Let p2 := data before.
Let secret := shared (firstn 96 p2) (be_val key).
Let i := cipher (bs "keyB") secret skey.
Let p := fst (rc4_apply i (data after)).

Lemma start4_stable : stable (start4 secret skey padc). Proof. reflexivity. Qed.
Lemma run_cases : 96 <= blen p2 <= 608 -> exists r,
  handshake skey secs pada padc key now (before ++ after) = ([(now, p1); (d, packet3 secret skey padc)], r) /\
  ((exists padd payload t rest later, conforming_reply p padd payload /\
      r = HDone t (KRc4 (out_state secret skey padc) (snd (rc4_apply i (packet4 padd)))) rest later /\ only_data later /\
      fst (rc4_apply (snd (rc4_apply i (packet4 padd))) (rest ++ data later)) = payload /\
      rest ++ data later = skipn (length (packet4 padd)) (data after)) \/
   (wrong_reply p /\ exists t e, r = HFail t e) \/
   (unfinished p /\ r = HWait)).
Proof.
  intros LEN. pose proof (handshake_run skey secs pada padc key now before after NO OB SP) as H. cbv zeta in H.
  assert ((96 <=? blen (data before)) && (blen (data before) <=? 608) = true) as RNG.
  { apply andb_true_iff. split; apply N.leb_le; apply LEN. }
  rewrite RNG in H. clear RNG.
  pose proof (phase2 after (2 + length after) (start4 secret skey padc) d [] start4_stable eq_refl eq_refl OA ltac:(cbn [length]; lia)) as Q.
  rewrite app_nil_r in Q. rewrite handle_input_enter in Q. cbn [start4 h_provide h_state h_input enter] in Q.
  change ([] ++ data after) with (data after) in Q. change (data before) with p2 in H. change (shared (firstn 96 p2) (be_val key)) with secret in H.
  change (now + ns secs) with d in H. change (cipher (bs "keyB") secret skey) with i in Q.
  pose proof (verdict4_ok (out_state secret skey padc) i (data after)) as V. unfold verdict4 in V. cbv zeta in V. change (fst (rc4_apply i (data after))) with p in V.
  destruct V as [(padd & payload & LP & EP & V)|[(W & e & V)|(U & ks & sub & rest & V)]]; rewrite V in Q; cbn [res_bind] in Q.
  - unfold into_keystream, set_input in Q. cbn [h_state h_input] in Q. destruct Q as (t & rest & later & Q & RT & OL). rewrite app_nil_r in Q. rewrite Q in H.
    eexists. split; [rewrite H; reflexivity|]. left. exists padd, payload, t, rest, later. split; [split; auto|]. conjs; auto.
    rewrite RT. unfold p in EP. rewrite <- (firstn_skipn (length (packet4 padd)) (data after)) in EP.
    assert (LL : length (firstn (length (packet4 padd)) (data after)) = length (packet4 padd)).
    { rewrite firstn_length. apply Nat.min_l. apply (f_equal (@length _)) in EP. rewrite firstn_skipn, rc4_length, app_length in EP. lia. }
    destruct (rc4_apply i (firstn (length (packet4 padd)) (data after))) as [x i1] eqn:X.
    rewrite (fst_app_rc4 _ _ _ _ _ X) in EP. apply app_eq_len in EP as (_ & EP).
    + rewrite <- EP. f_equal. f_equal. rewrite <- (rc4_state i _ _ LL), X. reflexivity.
    + rewrite <- (rc4_length i (firstn (length (packet4 padd)) (data after))), X in LL. exact LL.
  - destruct Q as (t & Q). rewrite Q in H. eexists. split; [rewrite H; reflexivity|]. right; left. split; eauto.
    destruct W as [W|(W1 & _ & W2)]; [left; auto|right; auto].
  - unfold into_keystream, set_input in Q. cbn [h_state] in Q. destruct Q as (t & Q).
    replace (2 + length after - length after)%nat with 2%nat in Q by lia.
    assert (E : hs_loop (2 + length after) (start4 secret skey padc) None d after = ([], HWait)) by (rewrite Q; reflexivity).
    rewrite E in H. eexists. split; [rewrite H; reflexivity|]. right; right. auto.
Qed.
Lemma run_badlen : ~ (96 <= blen p2 <= 608) ->
  handshake skey secs pada padc key now (before ++ after) = ([(now, p1)], HFail d (Packet2Len (blen p2))).
Proof.
  intros LEN. pose proof (handshake_run skey secs pada padc key now before after NO OB SP) as H. cbv zeta in H.
  assert ((96 <=? blen (data before)) && (blen (data before) <=? 608) = false) as RNG.
  { apply andb_false_iff. destruct (N.leb_spec 96 (blen (data before))); [|auto]. destruct (N.leb_spec (blen (data before)) 608); [|auto].
    exfalso. apply LEN. unfold p2. lia. }
  rewrite RNG in H. exact H.
Qed.
Lemma run_established :
  (exists o t ks rest later, handshake skey secs pada padc key now (before ++ after) = (o, HDone t ks rest later)) <->
  96 <= blen p2 <= 608 /\ exists padd payload, conforming_reply p padd payload.
Proof.
  destruct (N.leb_spec 96 (blen p2)) as [L1|L1]; [destruct (N.leb_spec (blen p2) 608) as [L2|L2]|].
  - destruct (run_cases (conj L1 L2)) as (r & H & C). split.
    + intros (o & t & ks & rest & later & E). split; [auto|].
      destruct C as [(padd & payload & _ & _ & _ & CF & _)|[(W & t' & e & R)|(U & R)]]; [eauto| |]; subst r; rewrite H in E; discriminate E.
    + intros (_ & padd & payload & CF). destruct C as [(padd' & payload' & t & rest & later & _ & R & _)|[(W & _)|(U & _)]].
      * rewrite H, R. eauto 10.
      * exfalso. eapply conforming_not_wrong; eauto.
      * exfalso. eapply conforming_not_unfinished; eauto.
  - rewrite run_badlen by lia. split; [intros (? & ? & ? & ? & ? & E); discriminate E|lia].
  - rewrite run_badlen by lia. split; [intros (? & ? & ? & ? & ? & E); discriminate E|lia].
Qed.
Lemma run_refused :
  (exists o t e, handshake skey secs pada padc key now (before ++ after) = (o, HFail t e)) <->
  ~ (96 <= blen p2 <= 608) \/ wrong_reply p.
Proof.
  destruct (N.leb_spec 96 (blen p2)) as [L1|L1]; [destruct (N.leb_spec (blen p2) 608) as [L2|L2]|].
  - destruct (run_cases (conj L1 L2)) as (r & H & C). split.
    + intros (o & t & e & E). right.
      destruct C as [(padd & payload & t' & rest & later & _ & R & _)|[(W & _)|(U & R)]]; [|auto|]; subst r; rewrite H in E; discriminate E.
    + intros [X|W]; [lia|]. destruct C as [(padd' & payload' & t & rest & later & CF & R & _)|[(_ & t & e & R)|(U & R)]].
      * exfalso. eapply conforming_not_wrong; eauto.
      * subst r. rewrite H. eauto.
      * exfalso. eapply unfinished_not_wrong; eauto.
  - rewrite run_badlen by lia. split; [intros _; left; lia|eauto].
  - rewrite run_badlen by lia. split; [intros _; left; lia|eauto].
Qed.
(** Independence of segmentation *)
Lemma run_end :
  exists r, snd (handshake skey secs pada padc key now (before ++ after)) = r /\
  match (if (96 <=? blen p2) && (blen p2 <=? 608) then handle_input (start4 secret skey padc) (data after) else Err (Packet2Len (blen p2))) with
  | Err e => exists t, r = HFail t e
  | Ok s' => match into_keystream s' with
             | Some (ks, total) => exists t rest later, r = HDone t ks rest later /\ rest ++ data later = total
             | None => r = HWait
             end
  end.
Proof.
  eexists. split; [reflexivity|]. pose proof (handshake_run skey secs pada padc key now before after NO OB SP) as H. cbv zeta in H.
  change (data before) with p2 in H. change (shared (firstn 96 p2) (be_val key)) with secret in H.
  destruct ((96 <=? blen p2) && (blen p2 <=? 608)); [|rewrite H; cbn [snd]; eauto].
  pose proof (phase2 after (2 + length after) (start4 secret skey padc) d [] start4_stable eq_refl eq_refl OA ltac:(cbn [length]; lia)) as Q.
  change (now + ns secs) with d in H. rewrite app_nil_r in Q. destruct (handle_input (start4 secret skey padc) (data after)) as [s'|e] eqn:HI.
  - destruct (into_keystream s') as [[ks total]|] eqn:K.
    + destruct Q as (t & rest & later & Q & RT & OL). rewrite app_nil_r in Q. rewrite Q in H. rewrite H. cbn [snd]. eauto.
    + destruct Q as (t & Q). replace (2 + length after - length after)%nat with 2%nat in Q by lia.
      assert (E : snd (hs_loop (2 + length after) (start4 secret skey padc) None d after) = HWait).
      { rewrite Q. change 2%nat with (S 1). destruct (handle_input_fields _ _ _ HI) as (O1 & T1 & _).
        rewrite hs_loop_wait by auto. reflexivity. }
      destruct hs_loop as [o r]. cbn [snd] in E. subst r. rewrite H. reflexivity.
  - destruct Q as (t & Q). rewrite Q in H. rewrite H. cbn [snd]. eauto.
Qed.
End Run.
Lemma segmentation skey secs pada padc key now b1 a1 b2 a2 : now / 1000000000 + secs < 2 ^ 63 ->
  only_data b1 -> only_data a1 -> only_data b2 -> only_data a2 ->
  split_at (now + ns secs) b1 a1 -> split_at (now + ns secs) b2 a2 -> data b1 = data b2 -> data a1 = data a2 ->
  map snd (fst (handshake skey secs pada padc key now (b1 ++ a1))) = map snd (fst (handshake skey secs pada padc key now (b2 ++ a2))) /\
  same_end (snd (handshake skey secs pada padc key now (b1 ++ a1))) (snd (handshake skey secs pada padc key now (b2 ++ a2))).
Proof.
  intros NO OB1 OA1 OB2 OA2 S1 S2 EB EA. split.
  - destruct (N.leb_spec 96 (blen (data b1))) as [L1|L1]; [destruct (N.leb_spec (blen (data b1)) 608) as [L2|L2]|].
    + destruct (run_cases skey secs pada padc key now b1 a1 NO OB1 OA1 S1 (conj L1 L2)) as (r1 & -> & _).
      rewrite EB in L1, L2.
      destruct (run_cases skey secs pada padc key now b2 a2 NO OB2 OA2 S2 (conj L1 L2)) as (r2 & -> & _). cbn [fst map snd]. rewrite EB. reflexivity.
    + rewrite (run_badlen _ _ _ _ _ _ _ _ NO OB1 S1) by lia. rewrite EB in L2. rewrite (run_badlen _ _ _ _ _ _ _ _ NO OB2 S2) by lia. reflexivity.
    + rewrite (run_badlen _ _ _ _ _ _ _ _ NO OB1 S1) by lia. rewrite EB in L1. rewrite (run_badlen _ _ _ _ _ _ _ _ NO OB2 S2) by lia. reflexivity.
  - destruct (run_end skey secs pada padc key now b1 a1 NO OB1 OA1 S1) as (r1 & -> & R1).
    destruct (run_end skey secs pada padc key now b2 a2 NO OB2 OA2 S2) as (r2 & -> & R2).
    rewrite EB, EA in R1. match type of R1 with match ?X with _ => _ end => destruct X as [s'|e] end.
    + destruct (into_keystream s') as [[ks total]|].
      * destruct R1 as (t1 & x1 & l1 & -> & E1), R2 as (t2 & x2 & l2 & -> & E2). split; congruence.
      * subst. exact I.
    + destruct R1 as (t1 & ->), R2 as (t2 & ->). reflexivity.
Qed.

(** The peer closes the connection, or it fails *)
Lemma closed_early skey secs pada padc key now before t r more : now / 1000000000 + secs < 2 ^ 63 -> only_data before ->
  (forall e, In e before -> fst e <= now + ns secs) -> t <= now + ns secs -> (r = REof \/ r = RError) ->
  exists o t' e, handshake skey secs pada padc key now (before ++ (t, r) :: more) = (o, HFail t' e).
Proof.
  intros NO OB TB LT R. unfold handshake. rewrite app_length. cbn [length].
  change (3 + (length before + S (length more)))%nat with (S (2 + (length before + S (length more)))).
  rewrite hs_loop_out by reflexivity. unfold dl_of. cbn [build h_timeout h_output]. unfold instant_add.
  rewrite (proj2 (N.ltb_lt _ _) NO). cbv zeta.
  destruct (phase1 before (be_val key) (now + ns secs) (S (2 + (length before + S (length more)))) (clear (build skey secs pada padc key)) now ((t, r) :: more))
    as (t' & LT' & ->); auto; try lia; [cbn [length]; lia|].
  replace (S (2 + (length before + S (length more))) - length before)%nat with (S (3 + length more)) by lia.
  rewrite hs_loop_wait by reflexivity. unfold after_wait. rewrite (proj2 (N.leb_le _ _)) by lia.
  destruct R as [->| ->]; eauto.
Qed.
Lemma closed_late skey secs pada padc key now before after t r more : now / 1000000000 + secs < 2 ^ 63 -> only_data before -> only_data after ->
  split_at (now + ns secs) before (after ++ (t, r) :: more) -> (r = REof \/ r = RError) ->
  (exists o t' e, handshake skey secs pada padc key now (before ++ after ++ (t, r) :: more) = (o, HFail t' e)) \/
  (96 <= blen (data before) <= 608 /\ exists padd payload,
    conforming_reply (fst (rc4_apply (cipher (bs "keyB") (shared (firstn 96 (data before)) (be_val key)) skey) (data after))) padd payload).
Proof.
  intros NO OB OA SP R. pose proof (handshake_run skey secs pada padc key now before _ NO OB SP) as H. cbv zeta in H. rewrite H. clear H.
  destruct (N.leb_spec 96 (blen (data before))) as [L1|L1]; [|left; cbn [andb]; eauto].
  destruct (N.leb_spec (blen (data before)) 608) as [L2|L2]; [|left; cbn [andb]; eauto]. cbn [andb].
  set (secret := shared (firstn 96 (data before)) (be_val key)).
  pose proof (phase2 after (2 + length (after ++ (t, r) :: more)) (start4 secret skey padc) (now + ns secs) ((t, r) :: more) eq_refl eq_refl eq_refl OA
    ltac:(rewrite app_length; cbn [length]; lia)) as Q.
  rewrite handle_input_enter in Q. cbn [start4 h_provide h_state h_input enter] in Q. change ([] ++ data after) with (data after) in Q.
  pose proof (verdict4_ok (out_state secret skey padc) (cipher (bs "keyB") secret skey) (data after)) as V. unfold verdict4 in V. cbv zeta in V.
  destruct V as [(padd & payload & LP & EP & V)|[(W & e & V)|(U & ks & sub & rest & V)]]; rewrite V in Q; cbn [res_bind] in Q.
  - right. split; [auto|]. exists padd, payload. split; auto.
  - left. destruct Q as (t' & ->). eauto.
  - left. unfold into_keystream, set_input in Q. cbn [h_state] in Q. destruct Q as (t' & ->).
    replace (2 + length (after ++ (t, r) :: more) - length after)%nat with (S (2 + length more)) by (rewrite app_length; cbn [length]; lia).
    rewrite hs_loop_wait by reflexivity. unfold after_wait. destruct R as [->| ->]; eauto.
Qed.

(** *** Key agreement with a responder *)
Lemma responder skey secs pada padc key now before after xb padb padd payload :
  now / 1000000000 + secs < 2 ^ 63 -> padc <= 512 -> (length padb <= 512)%nat -> blen padd < 65536 ->
  only_data before -> only_data after -> split_at (now + ns secs) before after ->
  data before = public xb ++ padb ->
  let secret := shared (public (be_val key)) xb in
  let cb := cipher (bs "keyB") secret skey in
  data after = fst (rc4_apply cb (packet4 padd ++ payload)) ->
  exists p3 t o rest later,
    handshake skey secs pada padc key now (before ++ after) =
      ([(now, public (be_val key) ++ pada); (now + ns secs, p3)], HDone t (KRc4 o (snd (rc4_apply cb (packet4 padd)))) rest later) /\
    reads_packet3 secret skey p3 2 [] o /\ only_data later /\
    fst (rc4_apply (snd (rc4_apply cb (packet4 padd))) (rest ++ data later)) = payload.
Proof.
  intros NO LC LB LD OB OA SP E2 secret cb E4.
  assert (FP : firstn 96 (data before) = public xb) by (rewrite E2; apply firstn_pre, key_length).
  assert (SE : shared (firstn 96 (data before)) (be_val key) = secret) by (rewrite FP; apply shared_comm).
  assert (LEN : 96 <= blen (data before) <= 608).
  { rewrite E2, blen_app. unfold blen, public. rewrite key_length. lia. }
  destruct (run_cases skey secs pada padc key now before after NO OB OA SP LEN) as (r & H & C). rewrite SE in *.
  assert (PL : fst (rc4_apply cb (data after)) = packet4 padd ++ payload) by (rewrite E4, rc4_inv; reflexivity).
  change (cipher (bs "keyB") secret skey) with cb in C. rewrite PL in C.
  assert (CF : conforming_reply (packet4 padd ++ payload) padd payload) by (split; auto).
  destruct C as [(padd' & payload' & t & rest & later & (L' & EQ) & R & OL & PY & _)|[(W & _)|(U & _)]].
  - apply packet4_inj in EQ as (-> & ->); auto. rewrite H, R.
    exists (packet3 secret skey padc), t, (out_state secret skey padc), rest, later. conjs; auto. apply reads_packet3_ok, LC.
  - exfalso. eapply conforming_not_wrong; eauto.
  - exfalso. eapply conforming_not_unfinished; eauto.
Qed.

(** *** The stream *)
Lemma poll_flush_spec sock : forall s, let (o, s') := poll_flush s sock in
  o ++ e_wbuf s' = e_wbuf s /\ e_ks s' = e_ks s /\ e_rbuf s' = e_rbuf s.
Proof.
  induction sock as [|n sock IH]; intros s; cbn [poll_flush].
  - destruct (e_wbuf s) eqn:W; auto.
  - destruct (e_wbuf s) as [|x w] eqn:W; [auto|]. unfold splitN.
    specialize (IH (mkES (e_ks s) (e_rbuf s) (skipn (N.to_nat n) (x :: w)))).
    destruct (poll_flush _ sock) as [o s']. cbn [e_ks e_rbuf e_wbuf] in IH. destruct IH as (E & K & R). conjs; auto.
    rewrite <- app_assoc, E. apply firstn_skipn.
Qed.
Lemma stream_transparent l : forall s, let (t, s') := perform s l in
  exists o i, (forall o0 i0, e_ks s = KRc4 o0 i0 ->
    e_ks s' = KRc4 o i /\
    (exists eaten, e_rbuf s ++ received t = eaten ++ e_rbuf s' /\ rc4_apply i0 eaten = (read t, i)) /\
    e_wbuf s ++ fst (rc4_apply o0 (written t)) = sent t ++ e_wbuf s' /\ o = snd (rc4_apply o0 (written t))).
Proof.
  intros s. destruct (e_ks s) as [|o0 i0] eqn:K.
  { destruct (perform s l). exists (mkRc4 [] 0 0), (mkRc4 [] 0 0). discriminate. }
  revert s o0 i0 K. induction l as [|[n sock|b|sock] l IH]; intros s o0 i0 K; cbn [perform].
  - exists o0, i0. intros o1 i1 E. injection E as <- <-. cbn [received read written sent]. conjs; auto.
    + exists []. rewrite app_nil_r. auto.
    + cbn [rc4_apply fst]. apply app_nil_r.
  - unfold poll_read. destruct (e_rbuf s) as [|x rb] eqn:RB.
    + destruct sock as [b|].
      * rewrite K. cbn [ks_decode]. destruct (rc4_apply i0 b) as [q i1] eqn:D.
        specialize (IH (mkES (KRc4 o0 i1) [] (e_wbuf s)) o0 i1 eq_refl). destruct (perform _ l) as [t s']. destruct IH as (o & i & IH).
        exists o, i. intros o2 i2 E. injection E as <- <-. destruct (IH _ _ eq_refl) as (A & (eaten & B1 & B2) & C & D2).
        cbn [received read written sent opt e_rbuf e_wbuf] in *. conjs; auto. exists (b ++ eaten). split.
        -- cbn [app] in *. rewrite <- app_assoc. congruence.
        -- rewrite rc4_app, D, B2. reflexivity.
      * specialize (IH s o0 i0 K). destruct (perform s l) as [t s']. destruct IH as (o & i & IH). exists o, i. intros o2 i2 E.
        destruct (IH _ _ E) as (A & (eaten & B1 & B2) & C & D2). cbn [received read written sent opt] in *. conjs; auto.
        exists eaten. rewrite RB in B1. auto.
    + unfold splitN. set (k := N.to_nat (N.min n (blen (x :: rb)))). rewrite K. cbn [ks_decode].
      destruct (rc4_apply i0 (firstn k (x :: rb))) as [q i1] eqn:D.
      specialize (IH (mkES (KRc4 o0 i1) (skipn k (x :: rb)) (e_wbuf s)) o0 i1 eq_refl). destruct (perform _ l) as [t s']. destruct IH as (o & i & IH).
      exists o, i. intros o2 i2 E. injection E as <- <-. destruct (IH _ _ eq_refl) as (A & (eaten & B1 & B2) & C & D2).
      cbn [received read written sent opt e_rbuf e_wbuf] in *. conjs; auto. exists (firstn k (x :: rb) ++ eaten). split.
      * transitivity ((firstn k (x :: rb) ++ skipn k (x :: rb)) ++ received t); [now rewrite firstn_skipn|]. rewrite <- !app_assoc. now rewrite B1.
      * rewrite rc4_app, D, B2. reflexivity.
  - unfold poll_write. rewrite K. cbn [ks_encode]. destruct (rc4_apply o0 b) as [c o1] eqn:D.
    specialize (IH (mkES (KRc4 o1 i0) (e_rbuf s) (e_wbuf s ++ c)) o1 i0 eq_refl). destruct (perform _ l) as [t s']. destruct IH as (o & i & IH).
    exists o, i. intros o2 i2 E. injection E as <- <-. destruct (IH _ _ eq_refl) as (A & (eaten & B1 & B2) & C & D2).
    cbn [received read written sent opt e_rbuf e_wbuf] in *. conjs; auto.
    + exists eaten. auto.
    + rewrite <- C, (fst_app_rc4 _ _ _ _ _ D), app_assoc. reflexivity.
    + rewrite (snd_app_rc4 _ _ _ _ _ D). exact D2.
  - pose proof (poll_flush_spec sock s) as F. destruct (poll_flush s sock) as [o1 s1]. destruct F as (F1 & F2 & F3).
    specialize (IH s1 o0 i0 ltac:(congruence)). destruct (perform s1 l) as [t s']. destruct IH as (o & i & IH).
    exists o, i. intros o2 i2 E. injection E as <- <-. destruct (IH o0 i0 ltac:(congruence)) as (A & (eaten & B1 & B2) & C & D2).
    cbn [received read written sent opt] in *. conjs; auto.
    + exists eaten. rewrite <- F3. auto.
    + rewrite <- F1, <- !app_assoc. f_equal. exact C.
Qed.
Lemma no_false_eof s n sock s' : poll_read s n sock = (Some [], s') -> n = 0 \/ (e_rbuf s = [] /\ sock = Some []).
Proof.
  unfold poll_read. destruct (e_rbuf s) as [|x rb].
  - destruct sock as [b|]; [|discriminate]. destruct (ks_decode (e_ks s) b) as [q k] eqn:D. intros E. assert (q = []) as -> by congruence.
    right. split; auto. pose proof (ks_decode_length (e_ks s) b) as L. rewrite D in L. cbn [fst length] in L. destruct b; [reflexivity|discriminate].
  - unfold splitN. destruct (ks_decode (e_ks s) _) as [q k] eqn:D. intros E. assert (q = []) as -> by congruence. left.
    pose proof (f_equal (fun p => length (fst p)) D) as L. cbn [fst length] in L. rewrite ks_decode_length, firstn_length in L.
    unfold blen in L. cbn [length] in L. lia.
Qed.
(** Flushing with a socket that takes at least a byte at a time empties the buffer. *)
Lemma flush_empties sock : forall s, Forall (fun n => 0 < n) sock -> (length (e_wbuf s) <= length sock)%nat ->
  e_wbuf (snd (poll_flush s sock)) = [].
Proof.
  induction sock as [|n sock IH]; intros s F L; cbn [poll_flush].
  - destruct (e_wbuf s) eqn:W; [exact W|cbn [length] in L; lia].
  - destruct (e_wbuf s) as [|x w] eqn:W; [exact W|]. unfold splitN. inversion F as [|? ? P1 F']; subst.
    specialize (IH (mkES (e_ks s) (e_rbuf s) (skipn (N.to_nat n) (x :: w))) F').
    destruct (poll_flush _ sock) as [o s']. cbn [snd e_wbuf] in *. apply IH. rewrite skipn_length. cbn [length] in *. lia.
Qed.

(** *** Fallback *)
Section Fallback.
Context {C : Type}.
Variables (requires_finish : N -> keystream -> bytes -> script -> timed (res peer_error C)).
Lemma fallback now tcp t0 hs t e limit plain enc : tcp = Some (t0, Ok tt) -> hs (now + t0) = HFail t e ->
  connect_encrypted now tcp hs requires_finish = Ret enc -> t <= now + limit ->
  exists t' r, run_connect None CPPrefer false limit enc plain = ([true; false], t', r).
Proof.
  intros -> H E L. unfold connect_encrypted in E. rewrite H in E. injection E as <-.
  unfold run_connect. cbn [get_crypto_mode pref_mode ok_or]. unfold timeout at 1. rewrite (proj2 (N.leb_le _ _)) by lia.
  destruct (timeout limit plain). eauto.
Qed.
Lemma no_fallback now tcp t0 hs limit plain enc : tcp = Some (t0, Ok tt) -> hs (now + t0) = HWait ->
  connect_encrypted now tcp hs requires_finish = Ret enc ->
  run_connect None CPPrefer false limit enc plain = ([true], limit, Err ConnectTimeout).
Proof. intros -> H E. unfold connect_encrypted in E. rewrite H in E. injection E as <-. reflexivity. Qed.
End Fallback.
Lemma silent_after_key skey secs pada padc key now before : now / 1000000000 + secs < 2 ^ 63 -> only_data before ->
  (forall e, In e before -> fst e <= now + ns secs) -> 96 <= blen (data before) <= 608 ->
  snd (handshake skey secs pada padc key now before) = HWait.
Proof.
  intros NO OB TB LEN. assert (SP : split_at (now + ns secs) before []) by (split; [auto|discriminate]).
  assert (OA : only_data []) by (intros ? ? []).
  destruct (run_cases skey secs pada padc key now before [] NO OB OA SP LEN) as (r & H & C). rewrite app_nil_r in H. rewrite H. cbn [snd].
  destruct C as [(padd & payload & _ & _ & _ & (_ & E) & _)|[(W & _)|(_ & R)]]; [| |exact R]; exfalso.
  - apply (f_equal blen) in E. rewrite blen_app, packet4_length in E. change (blen (fst (rc4_apply (cipher (bs "keyB") (shared (firstn 96 (data before)) (be_val key)) skey) (data [])))) with 0 in E. lia.
  - destruct W as [(L & _)|(L & _)]; change (blen (fst (rc4_apply (cipher (bs "keyB") (shared (firstn 96 (data before)) (be_val key)) skey) (data [])))) with 0 in L; lia.
Qed.

(** *** The clock *)
Lemma handle_timeout_none s s2 : h_timeout s = None -> handle_timeout s = Ok s2 -> h_timeout s2 = None.
Proof.
  intros T H. unfold handle_timeout in H. destruct (h_state s).
  2,3: injection H as <-; exact T.
  match type of H with (if ?c then _ else _) = _ => destruct c end; [discriminate|]. cbv zeta in H.
  do 3 match type of H with (let (_, _) := ?e in _) = _ => destruct e end.
  apply (f_equal (fun r => match r with Ok s => h_timeout s | Err _ => None end)) in H. cbn [h_timeout] in H. congruence.
Qed.
Lemma hs_loop_no_panic f : forall s dl now reads, h_timeout s = None -> snd (hs_loop f s dl now reads) <> HPanic.
Proof.
  induction f as [|f IH]; intros s dl now reads T; [discriminate|]. rewrite hs_loop_S.
  destruct (into_keystream s) as [[ks rest]|]; [discriminate|]. unfold dl_of. rewrite T. cbv zeta.
  assert (W : snd (after_wait f (clear s) dl now reads) <> HPanic).
  { unfold after_wait.
    assert (R : forall t r reads', snd (match r with
        | RData b => match handle_input (clear s) b with Ok s2 => hs_loop f s2 dl t reads' | Err e => ([], HFail t e) end
        | REof => ([], HFail t HDisconnect) | RError => ([], HFail t HRecv) end) <> HPanic).
    { intros t r reads'. destruct r; try discriminate. destruct (handle_input (clear s) b) eqn:HI; [|discriminate]. apply IH.
      apply handle_input_fields in HI as (_ & T1 & _). rewrite T1. reflexivity. }
    assert (X : forall d, snd (match handle_timeout (clear s) with Ok s2 => hs_loop f s2 None d reads | Err e => ([], HFail d e) end) <> HPanic).
    { intros d. destruct (handle_timeout (clear s)) eqn:HT; [|discriminate]. apply IH. eapply handle_timeout_none; [|exact HT]. reflexivity. }
    destruct reads as [|[t r] reads'], dl as [d|]; try discriminate; auto. destruct (N.max now t <=? d); auto. }
  destruct (after_wait f (clear s) dl now reads). exact W.
Qed.
Lemma panic_iff skey secs pada padc key now reads :
  snd (handshake skey secs pada padc key now reads) = HPanic <-> 2 ^ 63 <= now / 1000000000 + secs.
Proof.
  unfold handshake. change (3 + length reads)%nat with (S (2 + length reads)). rewrite hs_loop_out by reflexivity.
  unfold dl_of. cbn [build h_timeout h_output]. unfold instant_add. destruct (N.ltb_spec (now / 1000000000 + secs) (2 ^ 63)) as [L|L]; cbv zeta.
  - split; [|lia]. intros E. exfalso.
    pose proof (hs_loop_no_panic (S (2 + length reads)) (clear (build skey secs pada padc key)) (Some (now + ns secs)) now reads eq_refl) as W.
    destruct hs_loop. exact (W E).
  - split; auto.
Qed.

(** *** For the statements of C_Mse *)
Lemma only_data_2 t1 a t2 b : only_data [(t1, RData a); (t2, RData b)].
Proof. intros t r [E|[E|[]]]; injection E as <- <-; eauto. Qed.
Lemma data_2 t1 t2 n p : data [(t1, RData (firstn n p)); (t2, RData (skipn n p))] = p.
Proof. unfold data, data_of. cbn [map snd concat]. rewrite app_nil_r. apply firstn_skipn. Qed.
Lemma split_2 d t1 r1 t2 r2 t3 r3 l : t1 <= d -> t2 <= d -> d < t3 -> split_at d [(t1, r1); (t2, r2)] ((t3, r3) :: l).
Proof. intros A B C. split; [intros e [<-|[<-|[]]]; assumption|]. intros e r E. injection E as <- _. exact C. Qed.
Lemma transparent l s o0 i0 t s' : e_ks s = KRc4 o0 i0 -> perform s l = (t, s') ->
  exists o i, e_ks s' = KRc4 o i /\
    (exists eaten, e_rbuf s ++ received t = eaten ++ e_rbuf s' /\ rc4_apply i0 eaten = (read t, i)) /\
    e_wbuf s ++ fst (rc4_apply o0 (written t)) = sent t ++ e_wbuf s' /\ o = snd (rc4_apply o0 (written t)).
Proof. intros K H. pose proof (stream_transparent l s) as X. rewrite H in X. destruct X as (o & i & X). exists o, i. auto. Qed.
Lemma stall skey secs pada padc key now t0 before (finish : N -> keystream -> bytes -> script -> timed (res peer_error unit)) limit plain enc :
  (now + t0) / 1000000000 + secs < 2 ^ 63 -> only_data before -> (forall e, In e before -> fst e <= now + t0 + ns secs) ->
  96 <= blen (data before) <= 608 ->
  connect_encrypted now (Some (t0, Ok tt)) (fun t => snd (handshake skey secs pada padc key t before)) finish = Ret enc ->
  run_connect None CPPrefer false limit enc plain = ([true], limit, Err ConnectTimeout).
Proof. intros NO OB TB LEN E. eapply no_fallback; [reflexivity| |exact E]. cbv beta. apply silent_after_key; auto. Qed.
Lemma prefer_refuted : ~ forall skey secs pada padc key reads (finish : N -> keystream -> bytes -> script -> timed (res peer_error unit)) limit plain enc,
  (forall t, 0 / 1000000000 + secs < 2 ^ 63 -> forall ks rest later, snd (handshake skey secs pada padc key 0 reads) <> HDone t ks rest later) ->
  connect_encrypted 0 (Some (0, Ok tt)) (fun t => snd (handshake skey secs pada padc key t reads)) finish = Ret enc ->
  exists l t r, run_connect None CPPrefer false limit enc plain = (l, t, r) /\ In false l.
Proof.
  intros H. set (reads := [(1, RData (public 5))]).
  assert (OB : only_data reads) by (intros t r [E|[]]; injection E as <- <-; eauto).
  assert (TB : forall e, In e reads -> fst e <= 0 + ns 30) by (intros e [<-|[]]; vm_compute; discriminate).
  assert (LEN : 96 <= blen (data reads) <= 608).
  { unfold reads, data, data_of. cbn [map snd concat]. rewrite app_nil_r. unfold blen, public. rewrite key_length. split; vm_compute; discriminate. }
  assert (NO : 0 / 1000000000 + 30 < 2 ^ 63) by reflexivity.
  pose proof (silent_after_key (bs "k") 30 [] 0 [x05] 0 reads NO OB TB LEN) as W.
  destruct (H (bs "k") 30 [] 0 [x05] reads (fun _ _ _ _ => None) (ns 60) (Some (1, Ok tt)) None) as (l & t & r & R & IN).
  - intros t _ ks rest later. rewrite W. discriminate.
  - unfold connect_encrypted. change (0 + 0) with 0. rewrite W. reflexivity.
  - cbn in R. assert (l = [true]) as -> by congruence. destruct IN as [E|[]]. discriminate E.
Qed.
Lemma silent_fallback {C} skey secs pada padc key now t0 (finish : N -> keystream -> bytes -> script -> timed (res peer_error C)) limit plain enc :
  (now + t0) / 1000000000 + secs < 2 ^ 63 -> t0 + ns secs <= limit ->
  connect_encrypted now (Some (t0, Ok tt)) (fun t => snd (handshake skey secs pada padc key t [])) finish = Ret enc ->
  exists t' r, run_connect None CPPrefer false limit enc plain = ([true; false], t', r).
Proof.
  intros NO L E.
  assert (OB : only_data []) by (intros ? ? []).
  assert (SP : split_at (now + t0 + ns secs) [] []) by (split; [intros ? []|discriminate]).
  assert (BL : ~ (96 <= blen (data []) <= 608)) by (intros (X & _); vm_compute in X; apply X; reflexivity).
  eapply fallback; [reflexivity| |exact E|].
  - cbv beta. pose proof (run_badlen skey secs pada padc key (now + t0) [] [] NO OB SP BL) as R. cbn [app] in R. rewrite R. reflexivity.
  - lia.
Qed.
Lemma huge_timeout : M_Config.as_seconds (M_Config.TInt (2 ^ 63 - 1)) = Some (2 ^ 63 - 1) /\
  forall skey pada padc key now reads, ns 1 <= now -> snd (handshake skey (2 ^ 63 - 1) pada padc key now reads) = HPanic.
Proof.
  split; [reflexivity|]. intros skey pada padc key now reads H. apply panic_iff. unfold ns in H.
  assert (1 <= now / 1000000000) by (apply N.div_le_lower_bound; lia). lia.
Qed.
Lemma same_exchange skey secs pada padc key now before after xb padb padd payload :
  now / 1000000000 + secs < 2 ^ 63 -> padc <= 512 -> (length padb <= 512)%nat -> blen padd < 65536 ->
  only_data before -> only_data after -> split_at (now + ns secs) before after ->
  data before = public xb ++ padb ->
  let secret := shared (public (be_val key)) xb in
  let cb := cipher (bs "keyB") secret skey in
  data after = fst (rc4_apply cb (packet4 padd ++ payload)) ->
  exists p3 t o i rest later,
    handshake skey secs pada padc key now (before ++ after) = ([(now, public (be_val key) ++ pada); (now + ns secs, p3)], HDone t (KRc4 o i) rest later) /\
    reads_packet3 secret skey p3 2 [] o /\
    forall ops tr s, perform (mkES (KRc4 o i) rest []) ops = (tr, s) -> received tr = data later -> e_rbuf s = [] ->
      read tr = payload /\
      fst (rc4_apply o (sent tr ++ e_wbuf s)) = written tr /\
      forall pid peer_ip reads e, concat reads = read tr -> session skey pid peer_ip reads e = session skey pid peer_ip [payload] e.
Proof.
  intros NO LC LB LD OB OA SP E2 secret cb E4.
  destruct (responder skey secs pada padc key now before after xb padb padd payload NO LC LB LD OB OA SP E2 E4) as (p3 & t & o & rest & later & H & R3 & OL & PY).
  exists p3, t, o, (snd (rc4_apply cb (packet4 padd))), rest, later. conjs; auto.
  intros ops tr s PF RC RB. destruct (transparent ops (mkES (KRc4 o (snd (rc4_apply cb (packet4 padd)))) rest []) o (snd (rc4_apply cb (packet4 padd))) tr s eq_refl PF) as (o' & i' & _ & (eaten & EA & DE) & SW & _).
  cbn [e_rbuf e_wbuf app] in EA, SW. rewrite RC, RB, app_nil_r in EA. subst eaten. fold secret cb in PY. rewrite DE in PY. cbn [fst] in PY.
  conjs; auto.
  - rewrite <- SW, rc4_inv. reflexivity.
  - intros pid peer_ip reads e CR. apply P_Session.session_seg. cbn [concat]. rewrite app_nil_r. congruence.
Qed.

(** *** More fuel than [2 + length reads] changes nothing *)
Lemma handle_input_timeout s b s' : handle_input s b = Ok s' -> h_timeout s' = h_timeout s.
Proof.
  unfold handle_input. destruct (h_state s) as [x|ks sub|ks]; try (intros H; injection H as <-; reflexivity).
  match goal with |- res_bind ?e _ = _ -> _ => destruct e as [[st rest]|] end; [|discriminate].
  cbn [res_bind]. intros H. injection H as <-. reflexivity.
Qed.
Lemma handle_timeout_timeout s s' : handle_timeout s = Ok s' -> h_timeout s' = h_timeout s.
Proof.
  unfold handle_timeout. destruct (h_state s) as [x|ks sub|ks]; try (intros H; injection H as <-; reflexivity).
  cbv zeta. destruct (negb _); [discriminate|].
  do 3 match goal with |- (let (_, _) := ?e in _) = _ -> _ => destruct e end.
  intros H. apply (f_equal (fun r => match r with Ok s => h_timeout s | Err _ => None end)) in H. symmetry. exact H.
Qed.
Definition pending (s : shaker) (deadline : option N) : nat :=
  match h_timeout s, deadline with None, None => 0 | _, _ => 1 end.
Lemma loop_fuel_S reads : forall fuel s deadline now, (length reads + pending s deadline < fuel)%nat ->
  hs_loop (S fuel) s deadline now reads = hs_loop fuel s deadline now reads.
Proof.
  assert (G : forall n, forall reads fuel s deadline now, (length reads + pending s deadline <= n)%nat -> (n < fuel)%nat ->
    hs_loop (S fuel) s deadline now reads = hs_loop fuel s deadline now reads).
  2:{ intros. eapply G; [reflexivity|assumption]. }
  induction n as [|n IH]; intros rs [|fuel] s deadline now L LF; try lia.
  - destruct rs; [|cbn [length] in L; lia]. unfold pending in L. cbn [length] in L.
    destruct (h_timeout s) eqn:T; [lia|]. destruct deadline; [lia|].
    cbn [hs_loop]. rewrite T. reflexivity.
  - assert (IH' : forall reads s deadline now, (length reads + pending s deadline <= n)%nat ->
      hs_loop (S fuel) s deadline now reads = hs_loop fuel s deadline now reads) by (intros; apply IH; [assumption|lia]).
    enough (X : forall F, (forall reads s deadline now, (length reads + pending s deadline <= n)%nat ->
      hs_loop F s deadline now reads = hs_loop fuel s deadline now reads) -> hs_loop (S F) s deadline now rs = hs_loop (S fuel) s deadline now rs)
      by (apply X; exact IH').
    clear IH IH' LF. intros F IH. cbn [hs_loop].
    destruct (into_keystream s) as [[ks rest]|]; [reflexivity|].
    set (out := match h_output s with Some b => _ | None => _ end).
    destruct (match h_timeout s with Some _ => _ | None => _ end) as [d'|] eqn:ED; [|reflexivity].
    assert (PE : (match d' with Some _ => 1 | None => 0 end <= pending s deadline)%nat).
    { unfold pending. destruct (h_timeout s); [destruct d'; lia|]. injection ED as <-. destruct deadline; lia. }
    set (s' := mkShaker (h_state s) None (h_padc_len s) (h_skey s) None (h_input s) (h_provide s)).
    assert (RD : forall t r reads', (length reads' + match d' with Some _ => 1 | None => 0 end <= n)%nat ->
      match r with
      | RData b => match handle_input s' b with Ok s2 => hs_loop F s2 d' t reads' | Err e => ([], HFail t e) end
      | REof => ([], HFail t HDisconnect)
      | RError => ([], HFail t HRecv)
      end = match r with
      | RData b => match handle_input s' b with Ok s2 => hs_loop fuel s2 d' t reads' | Err e => ([], HFail t e) end
      | REof => ([], HFail t HDisconnect)
      | RError => ([], HFail t HRecv)
      end).
    { intros t [b| |] reads' LR; try reflexivity. destruct (handle_input s' b) as [s2|e] eqn:HI; [|reflexivity].
      apply IH. unfold pending. rewrite (handle_input_timeout _ _ _ HI). cbn [h_timeout s']. destruct d'; lia. }
    assert (EX : forall d, d' = Some d ->
      match handle_timeout s' with Ok s2 => hs_loop F s2 None d rs | Err e => ([], HFail d e) end =
      match handle_timeout s' with Ok s2 => hs_loop fuel s2 None d rs | Err e => ([], HFail d e) end).
    { intros d ->. destruct (handle_timeout s') as [s2|e] eqn:HT; [|reflexivity].
      apply IH. unfold pending. rewrite (handle_timeout_timeout _ _ HT). cbn [h_timeout s']. lia. }
    destruct rs as [|[t r] rs'].
    + destruct d' as [d|]; [|reflexivity]. rewrite (EX d eq_refl). reflexivity.
    + cbn [length] in L. destruct d' as [d|].
      * destruct (N.max now t <=? d); [rewrite RD by lia|rewrite (EX d eq_refl)]; reflexivity.
      * rewrite RD by lia. reflexivity.
Qed.
Lemma loop_fuel reads s deadline now fuel : (2 + length reads <= fuel)%nat ->
  hs_loop fuel s deadline now reads = hs_loop (2 + length reads) s deadline now reads.
Proof.
  intros L. replace fuel with ((fuel - (2 + length reads)) + (2 + length reads))%nat by lia.
  induction (fuel - (2 + length reads))%nat as [|k IH]; [reflexivity|].
  rewrite Nat.add_succ_l, loop_fuel_S; [exact IH|]. unfold pending. destruct (h_timeout s), deadline; lia.
Qed.

Lemma unreachable {C} (finish : N -> keystream -> bytes -> script -> timed (res peer_error C)) now t0 hs limit plain enc :
  connect_encrypted now (Some (t0, Err EConnect)) hs finish = Ret enc -> t0 <= limit ->
  run_connect None CPPrefer false limit enc plain = ([true], t0, Err EConnect).
Proof.
  intros [= <-] L. cbn [run_connect get_crypto_mode pref_mode ok_or timeout]. unfold run_connect. cbn.
  destruct (N.leb_spec t0 limit); [reflexivity|lia].
Qed.
