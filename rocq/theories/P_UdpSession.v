(** Lemmas for C_Udp: sessions. *)
From Verif Require Import Base M_Session BaseFacts M_Net M_Util M_Utf8 S_Wire P_Wire M_Tracker M_Udp S_Udp P_Udp S_UdpSession.

Lemma urun_app urldata v6 is1 is2 st : urun urldata v6 st (is1 ++ is2) =
  let (st1, o1) := urun urldata v6 st is1 in
  let (st2, o2) := urun urldata v6 st1 is2 in (st2, o1 ++ o2).
Proof.
  revert st; induction is1 as [|i is1 IH]; intros st; cbn [urun app].
  - destruct (urun urldata v6 st is2); reflexivity.
  - destruct (ustep urldata v6 st i) as [st1 o1]. rewrite IH.
    destruct (urun urldata v6 st1 is1) as [st2 o2]. destruct (urun urldata v6 st2 is2) as [st3 o3].
    now rewrite app_assoc.
Qed.

Lemma obtained_app tr cid t r : obtained tr cid t -> obtained (tr ++ r) cid t.
Proof.
  intros (pre & t1 & req & txn & again & d & post & -> & H). exists pre, t1, req, txn, again, d, (post ++ r).
  split; [|exact H]. now rewrite <- app_assoc, <- !app_comm_cons, <- app_assoc, <- app_comm_cons.
Qed.
Lemma last_call_app tr a r : last_call tr a -> (forall t' a', ~ In (OCalled t' a') r) -> last_call (tr ++ r) a.
Proof.
  intros (pre & t & post & -> & H) N. exists pre, t, (post ++ r). rewrite <- app_assoc, <- app_comm_cons. split; auto.
  intros t' a' I. apply in_app_or in I as [I|I]; [eapply H|eapply N]; eauto.
Qed.
Lemma repeats_snoc m l t : repeats m l -> repeats m (l ++ [OSent t m]).
Proof. intros R. apply Forall_app. split; auto. repeat constructor. eauto. Qed.

Section Session.
Context (urldata : bytes) (v6 : bool).
Let step := ustep urldata v6.

(** Everything returned so far is justified by what was observed before. *)
Definition sound (tr : list uobs) : Prop := forall pre t r post,
  tr = pre ++ OReturned t (Ok r) :: post -> justified urldata v6 pre r.
Lemma sound_app tr o : sound tr -> (forall pre t r post, o = pre ++ OReturned t (Ok r) :: post -> justified urldata v6 (tr ++ pre) r) ->
  sound (tr ++ o).
Proof.
  clear step.
  intros S N pre t r post E. revert pre E. induction tr as [|x tr IH] using rev_ind; intros pre E.
  - eapply N. exact E.
  - destruct (Nat.lt_ge_cases (length pre) (length (tr ++ [x]))) as [L|L].
    + assert (E' : exists q, tr ++ [x] = pre ++ OReturned t (Ok r) :: q).
      { clear -E L. revert E L. generalize (tr ++ [x]). intros l. revert pre. induction l as [|y l IH]; intros [|z pre] E L; cbn in *; try lia.
        - injection E as -> _. exists l. reflexivity.
        - injection E as -> E. destruct (IH pre E ltac:(lia)) as [q ->]. exists q. reflexivity. }
      destruct E' as [q E']. eapply S; eauto.
    + assert (E' : exists q, pre = (tr ++ [x]) ++ q /\ o = q ++ OReturned t (Ok r) :: post).
      { clear -E L. revert E L. generalize (tr ++ [x]). intros l. revert pre. induction l as [|y l IH]; intros pre E L; cbn in *.
        - exists pre. auto.
        - destruct pre as [|z pre]; cbn in *; [lia|]. injection E as -> E. destruct (IH pre E ltac:(lia)) as (q & -> & ->). exists q. auto. }
      destruct E' as (q & -> & Eo). eapply N. exact Eo.
Qed.

Lemma sound_app0 tr o : sound tr -> (forall t r, ~ In (OReturned t (Ok r)) o) -> sound (tr ++ o).
Proof.
  intros S N. apply sound_app; auto. intros pre t r post ->. exfalso. apply (N t r). apply in_or_app. right. left. reflexivity.
Qed.

Definition live (tr : list uobs) (c : option connection) : Prop := match c with
  | Some cx => exists t0, obtained tr (cx_id cx) t0 /\ cx_expires cx = t0 + 60 * second
  | None => True
  end.

(** The invariant. *)
Definition inv (tr : list uobs) (st : usession) : Prop :=
  live tr (us_conn st) /\
  match us_phase st with
  | UIdle => True
  | UConnecting txn msg n sent a =>
      txn < 2 ^ 32 /\ ann_ok a /\ msg = connection_request txn /\ last_call tr a /\
      exists pre t again, tr = pre ++ OSent t msg :: again /\ repeats msg again
  | UAnnouncing cx txn msg n sent a =>
      txn < 2 ^ 32 /\ ann_ok a /\ cx_id cx < 2 ^ 64 /\ msg = announce_request (cx_id cx) txn a urldata /\
      exists pre t again, tr = pre ++ OSent t msg :: again /\ repeats msg again /\
        (exists t0, obtained pre (cx_id cx) t0 /\ cx_expires cx = t0 + 60 * second) /\ last_call pre a
  end.

Lemma integers_bound l s : integers l s -> Forall (fun kn => snd kn < 256 ^ N.of_nat (fst kn)) l.
Proof. induction 1; constructor; auto. cbn [fst snd]. subst. apply be_bound. Qed.
Lemma reply_bound d txn cid : connect_reply d txn cid -> cid < 2 ^ 64.
Proof.
  intros (b & r & _ & I). apply integers_bound in I. inversion I as [|? ? _ I1]; subst. inversion I1 as [|? ? _ I2]; subst.
  inversion I2 as [|? ? H _]; subst. exact H.
Qed.
Lemma obtained_bound tr cid t : obtained tr cid t -> cid < 2 ^ 64.
Proof. intros (? & ? & ? & ? & ? & ? & ? & _ & _ & _ & R). eapply reply_bound; eauto. Qed.
Lemma live_app tr c r : live tr c -> live (tr ++ r) c.
Proof. destruct c as [cx|]; cbn; auto. intros (t0 & O & E). exists t0. split; auto. now apply obtained_app. Qed.

(** Observations of one step that contain no call. *)
Definition quiet (o : list uobs) : Prop := forall t' a', ~ In (OCalled t' a') o.

Lemma begin_announce_inv i c cx a tr st o :
  ui_txn i < 2 ^ 32 -> ann_ok a -> live tr c -> (exists t0, obtained tr (cx_id cx) t0 /\ cx_expires cx = t0 + 60 * second) ->
  last_call tr a -> begin_announce urldata i c cx a = (st, o) -> inv (tr ++ o) st /\ (forall t r, ~ In (OReturned t (Ok r)) o).
Proof.
  unfold begin_announce, send_or_fail, finish. intros HT HA HL HO HC. destruct (ui_send i); intros [= <- <-].
  - split; [|intros t r [X|[]]; discriminate X]. split; cbn [us_conn us_phase]; [now apply live_app|].
    split; auto. split; auto. split; [destruct HO as (t0 & O & _); eapply obtained_bound; eauto|].
    split; auto. exists tr, (ui_at i), []. repeat split; auto. constructor.
  - split; [|intros t r [X|[]]; discriminate X]. split; cbn [us_conn us_phase]; auto. now apply live_app.
Qed.
Lemma begin_connect_inv i c a tr st o :
  ui_txn i < 2 ^ 32 -> ann_ok a -> live tr c -> last_call tr a -> begin_connect i c a = (st, o) ->
  inv (tr ++ o) st /\ (forall t r, ~ In (OReturned t (Ok r)) o).
Proof.
  unfold begin_connect, send_or_fail, finish. intros HT HA HL HC. destruct (ui_send i); intros [= <- <-].
  - split; [|intros t r [X|[]]; discriminate X]. split; cbn [us_conn us_phase]; [now apply live_app|].
    split; auto. split; auto. split; auto. split; [apply last_call_app; auto; intros t' a' [X|[]]; discriminate X|].
    exists tr, (ui_at i), []. repeat split; auto. constructor.
  - split; [|intros t r [X|[]]; discriminate X]. split; cbn [us_conn us_phase]; auto. now apply live_app.
Qed.
Lemma begin_round_inv i c a tr st o :
  ui_txn i < 2 ^ 32 -> ann_ok a -> live tr c -> last_call tr a -> begin_round urldata i c a = (st, o) ->
  inv (tr ++ o) st /\ (forall t r, ~ In (OReturned t (Ok r)) o).
Proof.
  unfold begin_round. intros HT HA HL HC. destruct c as [cx|]; [|apply begin_connect_inv; auto].
  destruct (ui_at i <? cx_expires cx); [apply begin_announce_inv|apply begin_connect_inv]; auto.
Qed.

Lemma idle_inv tr c t r o : live tr c -> inv (tr ++ o) (fst (finish t c r)).
Proof. intros L. split; cbn [finish fst us_conn us_phase]; auto. now apply live_app. Qed.

Lemma step_inv tr st i st' o : inv tr st -> sound tr -> input_ok i -> step st i = (st', o) ->
  inv (tr ++ o) st' /\ sound (tr ++ o).
Proof.
  intros [L P] S [HT HA]. unfold step, ustep. destruct st as [c p]. cbn [us_conn us_phase] in *.
  destruct p as [|txn msg n sent a|cx txn msg n sent a].
  - (* idle *)
    destruct (ui_what i) as [a| | |] eqn:W;
      try (intros [= <- <-]; rewrite app_nil_r; split; auto; split; auto).
    destruct (begin_round urldata i c a) as [st1 o1] eqn:B. intros [= <- <-].
    change (OCalled (ui_at i) a :: o1) with ([OCalled (ui_at i) a] ++ o1). rewrite app_assoc.
    apply begin_round_inv with (tr := tr ++ [OCalled (ui_at i) a]) in B as [IV N]; auto.
    + split; auto. apply sound_app0; auto. apply sound_app0; auto. intros t r [X|[]]; discriminate X.
    + now apply live_app.
    + exists tr, (ui_at i), []. split; auto.
  - (* connecting *)
    pose proof P as P0. destruct P as (HX & HAN & EM & LC & pre & t1 & again & ET & RP).
    destruct (ui_what i) as [a'|[d|]| |] eqn:W.
    + intros [= <- <-]. rewrite app_nil_r. split; auto. split; auto.
    + destruct (response_from_bytes connection_response d) as [[[got cid]|m]|e] eqn:R; cbn [res_bind response_ok].
      * destruct (N.eqb_spec got txn) as [->|NE]; cbn [negb].
        -- destruct (begin_announce urldata i (Some (mkCx cid (ui_at i + secs 60))) (mkCx cid (ui_at i + secs 60)) a) as [st1 o1] eqn:B.
           intros [= <- <-]. change (OReceived (ui_at i) d :: o1) with ([OReceived (ui_at i) d] ++ o1). rewrite app_assoc.
           assert (O : obtained (tr ++ [OReceived (ui_at i) d]) cid (ui_at i)).
           { exists pre, t1, msg, txn, again, d, []. subst tr msg. rewrite <- app_assoc.
             split; [reflexivity|]. split; [now apply connect_request_ok|]. split; auto. now apply connect_success. }
           apply begin_announce_inv with (tr := tr ++ [OReceived (ui_at i) d]) in B as [IV N]; auto.
           ++ split; auto. apply sound_app0; auto. apply sound_app0; auto. intros t r [X|[]]; discriminate X.
           ++ cbn [live cx_id cx_expires]. eauto.
           ++ cbn [cx_id cx_expires]. eauto.
           ++ apply last_call_app; auto. intros t' a' [X|[]]; discriminate X.
        -- unfold finish. intros [= <- <-]. split; [split; cbn [us_conn us_phase]; auto; now apply live_app|].
           apply sound_app0; auto. intros t r [X|[X|[]]]; discriminate X.
      * unfold finish. intros [= <- <-]. split; [split; cbn [us_conn us_phase]; auto; now apply live_app|].
        apply sound_app0; auto. intros t r [X|[X|[]]]; discriminate X.
      * unfold finish. intros [= <- <-]. split; [split; cbn [us_conn us_phase]; auto; now apply live_app|].
        apply sound_app0; auto. intros t r [X|[X|[]]]; discriminate X.
    + unfold finish. intros [= <- <-]. split; [split; cbn [us_conn us_phase]; auto; now apply live_app|].
      apply sound_app0; auto. intros t r [X|[]]; discriminate X.
    + destruct (sent + wait_time n <=? ui_at i).
      * unfold send_or_fail, finish. destruct (ui_send i); intros [= <- <-].
        -- split; [|apply sound_app0; auto; intros t r [X|[]]; discriminate X].
           split; cbn [us_conn us_phase]; [now apply live_app|]. do 3 (split; auto). split.
           ++ apply last_call_app; auto. intros t' a' [X|[]]; discriminate X.
           ++ exists pre, t1, (again ++ [OSent (ui_at i) msg]). subst tr.
              rewrite <- app_assoc, <- app_comm_cons. split; auto. now apply repeats_snoc.
        -- split; [split; cbn [us_conn us_phase]; auto; now apply live_app|].
           apply sound_app0; auto. intros t r [X|[]]; discriminate X.
      * intros [= <- <-]. rewrite app_nil_r. split; auto. split; auto.
    + intros [= <- <-]. rewrite app_nil_r. split; auto. split; auto.
  - (* announcing *)
    pose proof P as P0. destruct P as (HX & HAN & HCB & EM & pre & t1 & again & ET & RP & HO & LC).
    destruct (ui_what i) as [a'|[d|]| |] eqn:W.
    + intros [= <- <-]. rewrite app_nil_r. split; auto. split; auto.
    + destruct (response_from_bytes (udp_announce_response v6) d) as [[[got resp]|m]|e] eqn:R; cbn [res_bind response_ok].
      * destruct (N.eqb_spec got txn) as [->|NE]; cbn [negb]; unfold finish; intros [= <- <-].
        -- split; [split; cbn [us_conn us_phase]; auto; now apply live_app|].
           apply sound_app; auto. intros q t r post E.
           destruct q as [|x [|y q]]; cbn [app] in E; try discriminate E.
           ++ assert (x = OReceived (ui_at i) d /\ r = resp) as [-> ->] by (split; congruence).
              exists pre, t1, msg, (cx_id cx), txn, a, again, (ui_at i), d. subst tr.
              split; [now rewrite <- app_assoc, <- app_comm_cons|]. subst msg.
              split; [now apply announce_request_ok|]. split; auto. split; [now apply announce_success|]. split; auto.
              destruct HO as (t0 & O & _). eauto.
           ++ exfalso. injection E as _ _ E. destruct q; discriminate E.
        -- split; [split; cbn [us_conn us_phase]; auto; now apply live_app|].
           apply sound_app0; auto. intros t r [X|[X|[]]]; discriminate X.
      * unfold finish. intros [= <- <-]. split; [split; cbn [us_conn us_phase]; auto; now apply live_app|].
        apply sound_app0; auto. intros t r [X|[X|[]]]; discriminate X.
      * unfold finish. intros [= <- <-]. split; [split; cbn [us_conn us_phase]; auto; now apply live_app|].
        apply sound_app0; auto. intros t r [X|[X|[]]]; discriminate X.
    + unfold finish. intros [= <- <-]. split; [split; cbn [us_conn us_phase]; auto; now apply live_app|].
      apply sound_app0; auto. intros t r [X|[]]; discriminate X.
    + destruct (sent + wait_time n <=? ui_at i).
      * unfold send_or_fail, finish. destruct (ui_send i); intros [= <- <-].
        -- split; [|apply sound_app0; auto; intros t r [X|[]]; discriminate X].
           split; cbn [us_conn us_phase]; [now apply live_app|]. do 4 (split; auto).
           exists pre, t1, (again ++ [OSent (ui_at i) msg]). subst tr.
           rewrite <- app_assoc, <- app_comm_cons. split; auto. split; auto. now apply repeats_snoc.
        -- split; [split; cbn [us_conn us_phase]; auto; now apply live_app|].
           apply sound_app0; auto. intros t r [X|[]]; discriminate X.
      * intros [= <- <-]. rewrite app_nil_r. split; auto. split; auto.
    + destruct (cx_expires cx <=? ui_at i).
      * intros B. apply begin_round_inv with (tr := tr) in B as [IV N]; auto.
        -- split; auto. now apply sound_app0.
        -- subst tr. apply last_call_app; auto. intros t' a' [X|X]; [discriminate X|].
           pose proof (proj1 (Forall_forall _ _) RP _ X) as (? & Y). discriminate Y.
      * intros [= <- <-]. rewrite app_nil_r. split; auto. split; auto.
Qed.

Lemma run_inv is : forall tr st, inv tr st -> sound tr -> Forall input_ok is ->
  inv (tr ++ snd (urun urldata v6 st is)) (fst (urun urldata v6 st is)) /\ sound (tr ++ snd (urun urldata v6 st is)).
Proof.
  induction is as [|i is IH]; intros tr st I S F; cbn [urun].
  - cbn [fst snd]. rewrite app_nil_r. auto.
  - inversion F as [|? ? F1 F2]; subst. destruct (ustep urldata v6 st i) as [st1 o1] eqn:E.
    destruct (step_inv tr st i st1 o1 I S F1 E) as [I1 S1]. specialize (IH _ _ I1 S1 F2).
    destruct (urun urldata v6 st1 is) as [st2 o2]. cbn [fst snd] in *. now rewrite app_assoc.
Qed.

Lemma inv_new : inv [] us_new.
Proof. split; exact I. Qed.
Lemma sound_nil : sound [].
Proof. intros pre t r post E. destruct pre; discriminate. Qed.

Lemma replies_match is : Forall input_ok is -> forall pre t r post,
  snd (urun urldata v6 us_new is) = pre ++ OReturned t (Ok r) :: post -> justified urldata v6 pre r.
Proof. intros F. exact (proj2 (run_inv is [] us_new inv_new sound_nil F)). Qed.

(** ** Connection ids are fresh *)
Definition fresh (slack : N) (tr : list uobs) : Prop := forall pre t req cid txn a post,
  tr = pre ++ OSent t req :: post -> announce_packet cid txn a urldata req ->
  exists t0, obtained pre cid t0 /\ t0 <= t <= t0 + 60 * second + slack.

Lemma split_app {A} (l o pre post : list A) x : l ++ o = pre ++ x :: post ->
  (exists q, l = pre ++ x :: q) \/ (exists q, pre = l ++ q /\ o = q ++ x :: post).
Proof.
  clear step. revert pre. induction l as [|y l IH]; intros pre E; cbn in E.
  - right. exists pre. auto.
  - destruct pre as [|z pre]; cbn in E.
    + injection E as -> _. left. exists l. reflexivity.
    + injection E as -> E. destruct (IH _ E) as [[q ->]|(q & -> & ->)]; [left|right]; exists q; auto.
Qed.

Lemma fresh_app slack tr o : fresh slack tr ->
  (forall pre t req cid txn a post, o = pre ++ OSent t req :: post -> announce_packet cid txn a urldata req ->
     exists t0, obtained (tr ++ pre) cid t0 /\ t0 <= t <= t0 + 60 * second + slack) -> fresh slack (tr ++ o).
Proof.
  clear step. intros F N pre t req cid txn a post E P. apply split_app in E as [[q E]|(q & -> & E)]; eauto.
Qed.

Lemma connect_not_announce txn c t a d : txn < 2 ^ 32 -> ~ announce_packet c t a d (connection_request txn).
Proof.
  intros _ (i & n & o & E & I & LH & LP & NU & O). apply (f_equal (@length _)) in E. rewrite !app_length in E.
  apply integers_len in I. apply integers_len in NU. cbn in I, NU.
  unfold connection_request in E. rewrite !app_length, !be_bytes_length in E. lia.
Qed.
Lemma request_cid cid txn a c t a' : cid < 2 ^ 64 -> txn < 2 ^ 32 -> ann_ok a ->
  announce_packet c t a' urldata (announce_request cid txn a urldata) -> c = cid.
Proof.
  intros H1 H2 H3 P. pose proof (announce_request_ok cid txn a urldata H1 H2 H3) as Q.
  destruct P as (i & n & o & E & I & _). destruct Q as (i' & n' & o' & E' & I' & _).
  rewrite E in E'. apply (integers_fun' _ _ _ _ _ _ I I') in E' as (E' & _); [congruence|reflexivity].
Qed.

(** Facts about time that the invariant needs besides [inv]. *)
Definition timely (now : N) (st : usession) : Prop :=
  (forall cx, us_conn st = Some cx -> cx_expires cx <= now + 60 * second) /\
  match us_phase st with
  | UAnnouncing cx _ _ _ _ _ => cx_expires cx <= now + 60 * second
  | _ => True
  end.

Lemma begin_announce_fresh slack i c cx a tr st o : ui_txn i < 2 ^ 32 -> ann_ok a ->
  (exists t0, obtained tr (cx_id cx) t0 /\ cx_expires cx = t0 + 60 * second /\ t0 <= ui_at i) -> ui_at i <= cx_expires cx ->
  fresh slack tr -> begin_announce urldata i c cx a = (st, o) -> fresh slack (tr ++ o).
Proof.
  unfold begin_announce, send_or_fail, finish. intros HT HA (t0 & O & EX & LE) LT F.
  pose proof (obtained_bound _ _ _ O) as BC.
  destruct (ui_send i); intros [= <- <-]; apply fresh_app; auto; intros pre t req cid txn a' post E P.
  - destruct pre as [|x pre]; [|destruct pre; discriminate E]. cbn [app] in E.
    assert (t = ui_at i /\ req = announce_request (cx_id cx) (ui_txn i) a urldata) as [-> ->] by (split; congruence).
    apply request_cid in P; auto. subst cid. rewrite app_nil_r. exists t0. split; auto. lia.
  - destruct pre as [|x [|]]; discriminate E.
Qed.
Lemma begin_connect_fresh slack i c a tr st o : ui_txn i < 2 ^ 32 ->
  fresh slack tr -> begin_connect i c a = (st, o) -> fresh slack (tr ++ o).
Proof.
  unfold begin_connect, send_or_fail, finish. intros HT F.
  destruct (ui_send i); intros [= <- <-]; apply fresh_app; auto; intros pre t req cid txn a' post E P.
  - destruct pre as [|x pre]; [|destruct pre; discriminate E]. cbn [app] in E.
    assert (req = connection_request (ui_txn i)) as -> by congruence.
    exfalso. eapply connect_not_announce; eauto.
  - destruct pre as [|x [|]]; discriminate E.
Qed.

Lemma fresh_nosend slack tr o : fresh slack tr -> (forall t m, ~ In (OSent t m) o) -> fresh slack (tr ++ o).
Proof.
  intros F N. apply fresh_app; auto. intros pre t req cid txn a post -> _. exfalso. apply (N t req).
  apply in_or_app. right. left. reflexivity.
Qed.

Lemma begin_round_fresh slack i c a tr st o : ui_txn i < 2 ^ 32 -> ann_ok a -> live tr c ->
  (forall cx, c = Some cx -> cx_expires cx <= ui_at i + 60 * second) ->
  fresh slack tr -> begin_round urldata i c a = (st, o) ->
  fresh slack (tr ++ o) /\ timely (ui_at i) st.
Proof.
  unfold begin_round. intros HT HA HL HX F B. split.
  - destruct c as [cx|]; [|eapply begin_connect_fresh; eauto].
    destruct (N.ltb_spec (ui_at i) (cx_expires cx)) as [LT|]; [|eapply begin_connect_fresh; eauto].
    eapply begin_announce_fresh; eauto; [|lia]. destruct HL as (t0 & O & EX). exists t0. repeat split; auto.
    specialize (HX _ eq_refl). lia.
  - destruct c as [cx|].
    + specialize (HX _ eq_refl). destruct (ui_at i <? cx_expires cx); unfold begin_announce, begin_connect, send_or_fail, finish in B;
        destruct (ui_send i); injection B as <- <-; split; cbn [us_conn us_phase]; auto; intros ? [= <-]; auto.
    + unfold begin_connect, send_or_fail, finish in B. destruct (ui_send i); injection B as <- <-; split; cbn [us_conn us_phase]; auto;
        intros ? X; discriminate X.
Qed.

Lemma step_fresh slack now tr st i st' o : inv tr st -> timely now st -> fresh slack tr -> input_ok i ->
  now <= ui_at i -> (forall D, pending st D -> ui_at i <= D + slack) -> step st i = (st', o) ->
  fresh slack (tr ++ o) /\ timely (ui_at i) st'.
Proof.
  intros [L P] [TC TP] F [HT HA] HN HD. unfold step, ustep. unfold pending in HD. destruct st as [c p]. cbn [us_conn us_phase] in *.
  assert (TC' : forall cx, c = Some cx -> cx_expires cx <= ui_at i + 60 * second) by (intros cx E; specialize (TC cx E); lia).
  assert (FIN : forall r st1 o1, finish (ui_at i) c r = (st1, o1) -> (forall t m, ~ In (OSent t m) o1) /\ timely (ui_at i) st1).
  { intros r st1 o1 [= <- <-]. split; [intros t m [X|[]]; discriminate X|]. split; cbn [us_conn us_phase]; auto. }
  destruct p as [|txn msg n sent a|cx txn msg n sent a].
  - destruct (ui_what i) as [a| | |] eqn:W;
      try (intros [= <- <-]; rewrite app_nil_r; split; auto; split; cbn [us_conn us_phase]; auto).
    destruct (begin_round urldata i c a) as [st1 o1] eqn:B. intros [= <- <-].
    change (OCalled (ui_at i) a :: o1) with ([OCalled (ui_at i) a] ++ o1). rewrite app_assoc.
    eapply begin_round_fresh with (tr := tr ++ [OCalled (ui_at i) a]); eauto; [now apply live_app|].
    apply fresh_nosend; auto. intros t m [X|[]]; discriminate X.
  - destruct P as (HX & HAN & EM & LC & pre & t1 & again & ET & RP).
    destruct (ui_what i) as [a'|[d|]| |] eqn:W.
    + intros [= <- <-]. rewrite app_nil_r. split; auto. split; cbn [us_conn us_phase]; auto.
    + destruct (response_from_bytes connection_response d) as [[[got cid]|m]|e] eqn:R; cbn [res_bind response_ok].
      * destruct (N.eqb_spec got txn) as [->|NE]; cbn [negb].
        -- destruct (begin_announce urldata i (Some (mkCx cid (ui_at i + secs 60))) (mkCx cid (ui_at i + secs 60)) a) as [st1 o1] eqn:B.
           intros [= <- <-]. change (OReceived (ui_at i) d :: o1) with ([OReceived (ui_at i) d] ++ o1). rewrite app_assoc.
           assert (O : obtained (tr ++ [OReceived (ui_at i) d]) cid (ui_at i)).
           { exists pre, t1, msg, txn, again, d, []. subst tr msg. rewrite <- app_assoc.
             split; [reflexivity|]. split; [now apply connect_request_ok|]. split; auto. now apply connect_success. }
           split.
           ++ eapply begin_announce_fresh with (tr := tr ++ [OReceived (ui_at i) d]); eauto; cbn [cx_id cx_expires].
              ** exists (ui_at i). repeat split; auto. lia.
              ** lia.
              ** apply fresh_nosend; auto. intros t m [X|[]]; discriminate X.
           ++ unfold begin_announce, send_or_fail, finish in B. destruct (ui_send i); injection B as <- <-;
                split; cbn [us_conn us_phase cx_expires]; auto; try apply N.le_refl; intros ? [= <-]; cbn [cx_expires]; apply N.le_refl.
        -- destruct (finish (ui_at i) c (Err (UXactionMismatch txn got))) as [st1 o1] eqn:FF. intros [= <- <-].
           apply FIN in FF as [N1 N2]. split; auto. apply fresh_nosend; auto. intros t m [X|X]; [discriminate X|eapply N1; eauto].
      * destruct (finish (ui_at i) c (Err (UFailure m))) as [st1 o1] eqn:FF. intros [= <- <-].
        apply FIN in FF as [N1 N2]. split; auto. apply fresh_nosend; auto. intros t m' [X|X]; [discriminate X|eapply N1; eauto].
      * destruct (finish (ui_at i) c (Err e)) as [st1 o1] eqn:FF. intros [= <- <-].
        apply FIN in FF as [N1 N2]. split; auto. apply fresh_nosend; auto. intros t m' [X|X]; [discriminate X|eapply N1; eauto].
    + intros FF. apply FIN in FF as [N1 N2]. split; auto. apply fresh_nosend; auto.
    + destruct (sent + wait_time n <=? ui_at i).
      * unfold send_or_fail. destruct (ui_send i).
        -- intros [= <- <-]. split; [|split; cbn [us_conn us_phase]; auto]. apply fresh_app; auto.
           intros q t req cid txn' a' post E P. destruct q as [|x q]; [|destruct q; discriminate E]. cbn [app] in E.
           assert (req = msg) as -> by congruence. subst msg. exfalso. exact (connect_not_announce _ _ _ _ _ HX P).
        -- intros FF. apply FIN in FF as [N1 N2]. split; auto. apply fresh_nosend; auto.
      * intros [= <- <-]. rewrite app_nil_r. split; auto. split; cbn [us_conn us_phase]; auto.
    + intros [= <- <-]. rewrite app_nil_r. split; auto. split; cbn [us_conn us_phase]; auto.
  - destruct P as (HX & HAN & HCB & EM & pre & t1 & again & ET & RP & (t0 & HO & HE) & LC).
    destruct (ui_what i) as [a'|[d|]| |] eqn:W.
    + intros [= <- <-]. rewrite app_nil_r. split; auto. split; cbn [us_conn us_phase]; auto. lia.
    + match goal with |- (let (_, _) := ?x in _) = _ -> _ => destruct x as [st1 o1] eqn:FF end.
      intros [= <- <-]. assert (G : (forall t m, ~ In (OSent t m) o1) /\ timely (ui_at i) st1).
      { revert FF. match goal with |- match ?x with _ => _ end = _ -> _ => destruct x as [[got resp]|e] end.
        - destruct (negb (got =? txn)); apply FIN.
        - apply FIN. }
      destruct G as [N1 N2]. split; auto. apply fresh_nosend; auto. intros t m' [X|X]; [discriminate X|eapply N1; eauto].
    + intros FF. apply FIN in FF as [N1 N2]. split; auto. apply fresh_nosend; auto.
    + destruct (sent + wait_time n <=? ui_at i).
      * unfold send_or_fail. destruct (ui_send i).
        -- intros [= <- <-]. split; [|split; cbn [us_conn us_phase]; auto; lia]. apply fresh_app; auto.
           intros q t req cid txn' a' post E P. destruct q as [|x q]; [|destruct q; discriminate E]. cbn [app] in E.
           assert (req = msg /\ t = ui_at i) as [-> ->] by (split; congruence). subst msg. apply request_cid in P; auto. subst cid.
           exists t0. split; [rewrite app_nil_r; subst tr; now apply obtained_app|].
           specialize (HD (cx_expires cx) (or_intror eq_refl)). lia.
        -- intros FF. apply FIN in FF as [N1 N2]. split; auto. apply fresh_nosend; auto.
      * intros [= <- <-]. rewrite app_nil_r. split; auto. split; cbn [us_conn us_phase]; auto. lia.
    + destruct (cx_expires cx <=? ui_at i).
      * refine (fun B => begin_round_fresh slack i None a tr st' o HT HAN I _ F B). intros ? X; discriminate X.
      * intros [= <- <-]. rewrite app_nil_r. split; auto. split; cbn [us_conn us_phase]; auto. lia.
Qed.

Lemma run_fresh slack is : forall now tr st, inv tr st -> sound tr -> timely now st -> fresh slack tr -> Forall input_ok is ->
  prompt urldata v6 slack now st is -> fresh slack (tr ++ snd (urun urldata v6 st is)).
Proof.
  induction is as [|i is IH]; intros now tr st IV S T F FO PR; cbn [urun].
  - cbn [snd]. now rewrite app_nil_r.
  - inversion FO as [|? ? F1 F2]; subst. destruct PR as (HN & HD & PR). destruct (ustep urldata v6 st i) as [st1 o1] eqn:E.
    destruct (step_inv tr st i st1 o1 IV S F1 E) as [I1 S1].
    destruct (step_fresh slack now tr st i st1 o1 IV T F F1 HN HD E) as [FR T1]. cbn [fst] in PR.
    specialize (IH _ _ _ I1 S1 T1 FR F2 PR).
    destruct (urun urldata v6 st1 is) as [st2 o2]. cbn [fst snd] in *. now rewrite app_assoc.
Qed.

Lemma connections_fresh slack is : Forall input_ok is -> prompt urldata v6 slack 0 us_new is ->
  forall pre t req cid txn a post,
  snd (urun urldata v6 us_new is) = pre ++ OSent t req :: post -> announce_packet cid txn a urldata req ->
  exists t0, obtained pre cid t0 /\ t0 <= t <= t0 + 60 * second + slack.
Proof.
  intros F P. apply (run_fresh slack is 0 [] us_new inv_new sound_nil); auto.
  - split; [intros cx X; discriminate X|exact I].
  - intros pre t req cid txn a post E. destruct pre; discriminate.
Qed.

(** ** Retransmission *)
Lemma wait_bep15 k : wait_time (N.of_nat (Nat.min k 8)) = bep15_wait k.
Proof. unfold wait_time, bep15_wait, secs, second. now rewrite N.shiftl_mul_pow2. Qed.
Lemma next_n_min k : next_n (N.of_nat (Nat.min k 8)) = N.of_nat (Nat.min (S k) 8).
Proof. unfold next_n. destruct (N.ltb_spec (N.of_nat (Nat.min k 8)) 8); lia. Qed.

Lemma spaced_snoc slack ts : forall k s t, spaced slack k (ts ++ [s]) ->
  s + bep15_wait (k + length ts) <= t <= s + bep15_wait (k + length ts) + slack ->
  spaced slack k ((ts ++ [s]) ++ [t]).
Proof.
  clear step. induction ts as [|x ts IH]; intros k s t SP H.
  - cbn [length app spaced] in *. rewrite Nat.add_0_r in H. auto.
  - destruct ts as [|y ts].
    + cbn [app spaced length] in *. replace (k + 1)%nat with (S k) in H by lia. tauto.
    + change (spaced slack k (x :: y :: (ts ++ [s]) ++ [t])). change (spaced slack k (x :: y :: ts ++ [s])) in SP.
      cbn [spaced] in *. destruct SP as [S1 S2]. split; auto. apply (IH (S k) s t S2).
      cbn [length] in H |- *. replace (S k + S (length ts))%nat with (k + S (S (length ts)))%nat by lia. exact H.
Qed.

Definition ends_in_send (m : bytes) (p : list uobs) : Prop := exists q t, p = q ++ [OSent t m].
Definition waiting (st : usession) : option (bytes * N * N) :=
  match us_phase st with
  | UIdle => None
  | UConnecting _ m n s _ => Some (m, n, s)
  | UAnnouncing _ _ m n s _ => Some (m, n, s)
  end.
Definition paced (slack : N) (tr : list uobs) (st : usession) : Prop :=
  match waiting st with
  | None => True
  | Some (m, n, s) => exists p ts, tr = p ++ sent_at m (ts ++ [s]) /\ ~ ends_in_send m p /\
      n = N.of_nat (Nat.min (length ts) 8) /\ spaced slack 0 (ts ++ [s])
  end.

Lemma paced_start slack tr i c m ph st o : (forall p, ph = p -> waiting (mkUS c p) = Some (m, 0, ui_at i)) ->
  ~ ends_in_send m tr -> send_or_fail i c m ph = (st, o) -> paced slack (tr ++ o) st.
Proof.
  intros W E. unfold send_or_fail, finish. destruct (ui_send i); intros [= <- <-]; [|exact I].
  unfold paced. rewrite (W _ eq_refl). exists tr, []. repeat split; auto.
Qed.

Lemma not_ends_other m q x : (forall t, x <> OSent t m) -> ~ ends_in_send m (q ++ [x]).
Proof. intros N (q' & t & E). apply app_inj_tail in E as [_ E]. eapply N; eauto. Qed.

Lemma begin_round_paced slack tr i c a st o : (forall m, ~ ends_in_send m tr) ->
  begin_round urldata i c a = (st, o) -> paced slack (tr ++ o) st.
Proof.
  intros N. unfold begin_round, begin_announce, begin_connect.
  destruct c as [cx|]; [destruct (ui_at i <? cx_expires cx)|]; apply paced_start; auto; intros p <-; reflexivity.
Qed.

Lemma paced_again slack tr i c m n s ph st o : waiting (mkUS c ph) = Some (m, n, s) -> paced slack tr (mkUS c ph) ->
  s + wait_time n <= ui_at i <= s + wait_time n + slack ->
  forall ph', waiting (mkUS c ph') = Some (m, next_n n, ui_at i) ->
  send_or_fail i c m ph' = (st, o) -> paced slack (tr ++ o) st.
Proof.
  intros W P H ph' W'. unfold send_or_fail, finish. destruct (ui_send i); intros [= <- <-]; [|exact I].
  unfold paced in *. rewrite W in P. rewrite W'. destruct P as (p & ts & -> & NE & -> & SP).
  exists p, (ts ++ [s]). rewrite next_n_min, app_length, Nat.add_comm. cbn [length Nat.add]. rewrite wait_bep15 in H.
  repeat split; auto.
  - unfold sent_at. rewrite !map_app, <- !app_assoc. reflexivity.
  - now apply spaced_snoc.
Qed.

Lemma step_paced slack tr st i st' o : inv tr st -> paced slack tr st ->
  (forall D, pending st D -> ui_at i <= D + slack) -> step st i = (st', o) -> paced slack (tr ++ o) st'.
Proof.
  intros [L IV] P HD. unfold step, ustep. unfold pending in HD. destruct st as [c p]. cbn [us_conn us_phase] in *.
  destruct p as [|txn msg n sent a|cx txn msg n sent a].
  - destruct (ui_what i) as [a| | |] eqn:W; try (intros [= <- <-]; exact I).
    destruct (begin_round urldata i c a) as [st1 o1] eqn:B. intros [= <- <-].
    change (OCalled (ui_at i) a :: o1) with ([OCalled (ui_at i) a] ++ o1). rewrite app_assoc.
    eapply begin_round_paced; eauto. intros m. apply not_ends_other. intros t X; discriminate X.
  - destruct (ui_what i) as [a'|[d|]| |] eqn:W.
    + intros [= <- <-]. now rewrite app_nil_r.
    + match goal with |- (let (_, _) := ?x in _) = _ -> _ => destruct x as [st1 o1] eqn:FF end.
      intros [= <- <-]. change (OReceived (ui_at i) d :: o1) with ([OReceived (ui_at i) d] ++ o1). rewrite app_assoc.
      revert FF. match goal with |- match ?x with _ => _ end = _ -> _ => destruct x as [[got cid]|e] end.
      * destruct (negb (got =? txn)); [intros [= <- <-]; exact I|].
        apply paced_start; [intros ? <-; reflexivity|]. apply not_ends_other. intros t X; discriminate X.
      * intros [= <- <-]. exact I.
    + intros [= <- <-]. exact I.
    + destruct (N.leb_spec (sent + wait_time n) (ui_at i)) as [LE|]; [|intros [= <- <-]; now rewrite app_nil_r].
      eapply paced_again with (n := n); eauto; try reflexivity.
    + intros [= <- <-]. now rewrite app_nil_r.
  - destruct (ui_what i) as [a'|[d|]| |] eqn:W.
    + intros [= <- <-]. now rewrite app_nil_r.
    + match goal with |- (let (_, _) := ?x in _) = _ -> _ => destruct x as [st1 o1] eqn:FF end.
      intros [= <- <-]. revert FF. match goal with |- match ?x with _ => _ end = _ -> _ => destruct x as [[got cid]|e] end.
      * destruct (negb (got =? txn)); intros [= <- <-]; exact I.
      * intros [= <- <-]. exact I.
    + intros [= <- <-]. exact I.
    + destruct (N.leb_spec (sent + wait_time n) (ui_at i)) as [LE|]; [|intros [= <- <-]; now rewrite app_nil_r].
      eapply paced_again with (n := n); eauto; try reflexivity.
    + destruct (cx_expires cx <=? ui_at i); [|intros [= <- <-]; now rewrite app_nil_r].
      unfold begin_round, begin_connect. apply paced_start; [intros ? <-; reflexivity|].
      intros (q & t & E). destruct P as (p & ts & -> & _). unfold sent_at in E. rewrite map_app in E. cbn [map] in E.
      rewrite app_assoc in E. apply app_inj_tail in E as [_ E].
      destruct IV as (_ & (LH & LP & _) & _ & EM & _). assert (EL : msg = connection_request (ui_txn i)) by congruence.
      subst msg. apply (f_equal (@length _)) in EL. unfold announce_request, connection_request in EL.
      rewrite !app_length, !be_bytes_length in EL. lia.
Qed.

Lemma run_paced slack is : forall now tr st, inv tr st -> sound tr -> paced slack tr st -> Forall input_ok is ->
  prompt urldata v6 slack now st is -> paced slack (tr ++ snd (urun urldata v6 st is)) (fst (urun urldata v6 st is)).
Proof.
  induction is as [|i is IH]; intros now tr st IV S P FO PR; cbn [urun].
  - cbn [snd fst]. now rewrite app_nil_r.
  - inversion FO as [|? ? F1 F2]; subst. destruct PR as (HN & HD & PR). destruct (ustep urldata v6 st i) as [st1 o1] eqn:E.
    destruct (step_inv tr st i st1 o1 IV S F1 E) as [I1 S1].
    pose proof (step_paced slack tr st i st1 o1 IV P HD E) as P1. cbn [fst] in PR.
    specialize (IH _ _ _ I1 S1 P1 F2 PR).
    destruct (urun urldata v6 st1 is) as [st2 o2]. cbn [fst snd] in *. now rewrite app_assoc.
Qed.

Lemma retransmission slack is : Forall input_ok is -> prompt urldata v6 slack 0 us_new is ->
  let (st, tr) := urun urldata v6 us_new is in
  outstanding st -> exists p m ts last,
    tr = p ++ sent_at m (ts ++ [last]) /\ ~ (exists q t, p = q ++ [OSent t m]) /\ spaced slack 0 (ts ++ [last]) /\
    forall t txn, last + bep15_wait (length ts) <= t ->
      exists st', ustep urldata v6 st (mkIn t InTimer txn true) = (st', [OSent t m]) /\ outstanding st'.
Proof.
  intros F P. pose proof (run_paced slack is 0 [] us_new inv_new sound_nil I F P) as PC.
  destruct (urun urldata v6 us_new is) as [st tr]. cbn [fst snd app] in PC. intros OU.
  unfold paced, waiting in PC. destruct st as [c p]. unfold outstanding in OU. cbn [us_phase] in *.
  destruct p as [|txn msg n sent a|cx txn msg n sent a]; [congruence| |];
    destruct PC as (p & ts & -> & NE & -> & SP); exists p, msg, ts, sent; (split; [reflexivity|]); (split; [exact NE|]);
    (split; [exact SP|]); intros t txn' LE; unfold ustep; cbn [us_phase us_conn ui_what ui_at];
    rewrite wait_bep15; destruct (N.leb_spec (sent + bep15_wait (length ts)) t); try lia;
    cbn [send_or_fail ui_send ui_at]; eexists; (split; [reflexivity|]); discriminate.
Qed.
End Session.

Lemma wait_bound k : bep15_wait k <= 3840 * second /\ bep15_wait (S k) = N.min (2 * bep15_wait k) (3840 * second) /\ bep15_wait 0 = 15 * second.
Proof.
  unfold bep15_wait, second. assert (B : (Nat.min k 8 <= 8)%nat) by lia.
  split; [|split; [|reflexivity]].
  - assert (E : 2 ^ N.of_nat (Nat.min k 8) <= 2 ^ 8) by (apply N.pow_le_mono_r; lia). change (2 ^ 8) with 256 in E. lia.
  - destruct (Nat.lt_ge_cases k 8) as [H|H].
    + rewrite (Nat.min_l k), (Nat.min_l (S k)) by lia. replace (N.of_nat (S k)) with (N.succ (N.of_nat k)) by lia.
      rewrite N.pow_succ_r'. assert (E : 2 ^ N.of_nat k <= 2 ^ 7) by (apply N.pow_le_mono_r; lia). change (2 ^ 7) with 128 in E. lia.
    + rewrite (Nat.min_r k), (Nat.min_r (S k)) by lia. reflexivity.
Qed.

(** ** Mismatched replies *)
Lemma announce_mismatch urldata v6 c cx txn m n s a i d y r :
  announce_reply v6 d y r -> y <> txn -> ui_what i = InRecv (Some d) ->
  snd (ustep urldata v6 (mkUS c (UAnnouncing cx txn m n s a)) i)
  = [OReceived (ui_at i) d; OReturned (ui_at i) (Err (UXactionMismatch txn y))].
Proof.
  intros R NE W. unfold ustep. cbn [us_phase us_conn]. rewrite W.
  rewrite (proj2 (announce_success v6 d y r) R). cbn [res_bind response_ok].
  destruct (N.eqb_spec y txn); [congruence|]. reflexivity.
Qed.
Lemma connect_mismatch urldata v6 c txn m n s a i d y cid :
  connect_reply d y cid -> y <> txn -> ui_what i = InRecv (Some d) ->
  snd (ustep urldata v6 (mkUS c (UConnecting txn m n s a)) i)
  = [OReceived (ui_at i) d; OReturned (ui_at i) (Err (UXactionMismatch txn y))].
Proof.
  intros R NE W. unfold ustep. cbn [us_phase us_conn]. rewrite W.
  rewrite (proj2 (connect_success d y cid) R). cbn [res_bind response_ok].
  destruct (N.eqb_spec y txn); [congruence|]. reflexivity.
Qed.

(** ** URLs and sockets *)
Lemma udp_url_spec u : match udp_url_of u with
  | Ok x => u_scheme u = bs "udp" /\ u_port u = Some (uu_port x) /\
      uu_data x = u_path u ++ match u_query u with Some q => bs "?" ++ q | None => [] end /\
      match u_host u with
      | Some (HDomain d) => uu_host x = d
      | Some (HIp i) => uu_host x = show_ip i
      | None => False
      end
  | Err (UnsupportedScheme s) => s = u_scheme u /\ s <> bs "udp"
  | Err NoHost => u_scheme u = bs "udp" /\ u_host u = None
  | Err NoUdpPort => u_scheme u = bs "udp" /\ u_host u <> None /\ u_port u = None
  end.
Proof.
  unfold udp_url_of. destruct (bytes_eqb_spec (u_scheme u) (bs "udp")) as [E|E]; cbn [negb]; [|auto].
  destruct (u_host u) as [[d|i]|] eqn:H; cbn [res_bind]; auto; destruct (u_port u) as [p|]; cbn [ok_or res_bind uu_port uu_data uu_host];
    repeat split; auto; try discriminate; destruct (u_query u); reflexivity.
Qed.

(** ** Matching replies *)
Lemma last_of_repeats {pre : list uobs} {t msg again p t1 req} : repeats msg again ->
  pre ++ OSent t msg :: again = p ++ [OSent t1 req] -> req = msg.
Proof.
  intros R E. destruct (exists_last (l := OSent t msg :: again)) as (l & x & El); [discriminate|].
  rewrite El, app_assoc in E. apply app_inj_tail in E as [_ ->].
  destruct l as [|y l]; injection El as E1 E2; [congruence|].
  assert (In (OSent t1 req) again) as I by (rewrite E2; apply in_or_app; right; left; reflexivity).
  pose proof (proj1 (Forall_forall _ _) R _ I) as (? & X). congruence.
Qed.
Lemma last_call_fun tr a b : last_call tr a -> last_call tr b -> a = b.
Proof.
  intros (p & t & q & -> & H) (p' & t' & q' & E & H').
  assert (X : forall (p q p' q' : list uobs) x y, p ++ x :: q = p' ++ y :: q' -> (forall t a, ~ In (OCalled t a) q) -> (forall t a, ~ In (OCalled t a) q') ->
    (exists t a, x = OCalled t a) -> (exists t a, y = OCalled t a) -> x = y).
  { clear. intros p. induction p as [|z p IH]; intros q p' q' x y E H H' (t & a & ->) (t' & a' & ->); destruct p' as [|z' p']; cbn in E.
    - congruence.
    - injection E as -> ->. exfalso. apply (H t' a'). apply in_or_app. right. left. reflexivity.
    - injection E as <- <-. exfalso. apply (H' t a). apply in_or_app. right. left. reflexivity.
    - injection E as -> E. eapply IH; eauto. }
  specialize (X _ _ _ _ _ _ E H H' ltac:(eauto) ltac:(eauto)). congruence.
Qed.
Lemma announce_txn urldata cid txn a c t a' d : cid < 2 ^ 64 -> txn < 2 ^ 32 -> ann_ok a ->
  announce_packet c t a' d (announce_request cid txn a urldata) -> t = txn.
Proof.
  intros H1 H2 H3 P. pose proof (announce_request_ok cid txn a urldata H1 H2 H3) as Q.
  destruct P as (i & n & o & E & I & _). destruct Q as (i' & n' & o' & E' & I' & _).
  rewrite E in E'. apply (integers_fun' _ _ _ _ _ _ I I') in E' as (E' & _); [congruence|reflexivity].
Qed.
Lemma announce_not_connect urldata cid txn a t : cid < 2 ^ 64 -> txn < 2 ^ 32 -> ann_ok a ->
  ~ connect_packet t (announce_request cid txn a urldata).
Proof.
  intros H1 H2 H3 P. pose proof (announce_request_ok cid txn a urldata H1 H2 H3) as (i' & n' & o' & E' & I' & LH & LP & NU & _).
  apply integers_len in P. rewrite E', !app_length in P. apply integers_len in I', NU. cbn in *. lia.
Qed.

Lemma reply_accepted urldata v6 is st tr : Forall input_ok is -> urun urldata v6 us_new is = (st, tr) -> outstanding st ->
  forall p t1 req i d, tr = p ++ [OSent t1 req] -> ui_what i = InRecv (Some d) ->
  (forall cid txn a r, announce_packet cid txn a urldata req -> announce_reply v6 d txn r ->
     snd (ustep urldata v6 st i) = [OReceived (ui_at i) d; OReturned (ui_at i) (Ok r)]) /\
  (forall cid txn a, connect_packet txn req -> connect_reply d txn cid -> last_call tr a -> ui_txn i < 2 ^ 32 -> ui_send i = true ->
     exists req', snd (ustep urldata v6 st i) = [OReceived (ui_at i) d; OSent (ui_at i) req'] /\
       announce_packet cid (ui_txn i) a urldata req').
Proof.
  intros F E O p t1 req i d T W.
  pose proof (proj1 (run_inv urldata v6 is [] us_new (inv_new urldata) (sound_nil urldata v6) F)) as IV.
  rewrite E in IV. cbn [fst snd app] in IV. destruct IV as [LV IV]. destruct st as [c ph]. cbn [us_phase us_conn] in *.
  destruct ph as [|x m n s b|cx x m n s b]; [exfalso; apply O; reflexivity| |].
  - destruct IV as (HX & HA & -> & LC & pre & t & again & ET & R).
    rewrite T in ET. symmetry in ET. apply (last_of_repeats R) in ET as ->. split.
    + intros cid txn a r P _. exfalso. eapply connect_not_announce; eauto.
    + intros cid txn a P RP LC' HT SD.
      assert (txn = x) as -> by (eapply connect_packet_fun; [exact P|apply connect_request_ok; auto]).
      assert (a = b) as -> by (eapply last_call_fun; eauto).
      unfold ustep. cbn [us_phase us_conn]. rewrite W. rewrite (proj2 (connect_success d x cid) RP). cbn [res_bind response_ok].
      rewrite N.eqb_refl. cbn [negb]. unfold begin_announce, send_or_fail. rewrite SD. cbn [cx_id].
      eexists. split; [reflexivity|]. apply announce_request_ok; auto. eapply reply_bound; eauto.
  - destruct IV as (HX & HA & HC & -> & pre & t & again & ET & R & _).
    rewrite T in ET. symmetry in ET. apply (last_of_repeats R) in ET as ->. split.
    + intros cid txn a r P RP. assert (txn = x) as -> by (eapply announce_txn; [| | |exact P]; auto).
      unfold ustep. cbn [us_phase us_conn]. rewrite W. rewrite (proj2 (announce_success v6 d x r) RP). cbn [res_bind response_ok].
      rewrite N.eqb_refl. reflexivity.
    + intros cid txn a P. exfalso. eapply announce_not_connect; eauto.
Qed.

(** A connection less than 60 seconds old is used again. *)
Lemma connection_reused urldata v6 is st tr : Forall input_ok is -> urun urldata v6 us_new is = (st, tr) -> ~ outstanding st ->
  forall i a, ui_what i = InAnnounce a -> ann_ok a -> ui_txn i < 2 ^ 32 -> ui_send i = true ->
  exists req, snd (ustep urldata v6 st i) = [OCalled (ui_at i) a; OSent (ui_at i) req] /\
    match us_conn st with
    | Some cx => exists t0, obtained tr (cx_id cx) t0 /\
        ((ui_at i < t0 + 60 * second /\ announce_packet (cx_id cx) (ui_txn i) a urldata req) \/
         (t0 + 60 * second <= ui_at i /\ connect_packet (ui_txn i) req))
    | None => connect_packet (ui_txn i) req
    end.
Proof.
  intros F E O i a W HA HT SD.
  pose proof (proj1 (run_inv urldata v6 is [] us_new (inv_new urldata) (sound_nil urldata v6) F)) as IV.
  rewrite E in IV. cbn [fst snd app] in IV. destruct IV as [LV _]. destruct st as [c ph]. unfold outstanding in O. cbn [us_phase us_conn] in *.
  assert (ph = UIdle) as -> by (destruct ph; auto; exfalso; apply O; discriminate).
  unfold ustep. cbn [us_phase us_conn]. rewrite W. unfold begin_round, begin_announce, begin_connect, send_or_fail. rewrite SD.
  destruct c as [cx|]; cbn [live] in LV.
  - destruct LV as (t0 & OB & EX). rewrite EX. destruct (N.ltb_spec (ui_at i) (t0 + 60 * second)); (eexists; split; [reflexivity|]; exists t0; split; [auto|]).
    + left. split; auto. apply announce_request_ok; auto. eapply obtained_bound; eauto.
    + right. split; auto. now apply connect_request_ok.
  - eexists. split; [reflexivity|]. now apply connect_request_ok.
Qed.
(** After a successful call there is a connection. *)
Definition kept (tr : list uobs) (st : usession) : Prop :=
  match us_phase st with UAnnouncing cx _ _ _ _ _ => us_conn st = Some cx | _ => True end /\
  forall p t r, tr = p ++ [OReturned t (Ok r)] -> us_conn st <> None.
Lemma kept_other tr st o x : match us_phase st with UAnnouncing cx _ _ _ _ _ => us_conn st = Some cx | _ => True end ->
  o <> [] -> last o x = x -> (forall t r, x <> OReturned t (Ok r)) -> kept (tr ++ o) st.
Proof.
  intros H N L X. split; auto. intros p t r E. exfalso. destruct (exists_last N) as (o' & y & ->).
  rewrite last_last in L. subst y. rewrite app_assoc in E. apply app_inj_tail in E as [_ E]. eapply X; eauto.
Qed.
Lemma step_kept urldata v6 tr st i st' o : kept tr st -> ustep urldata v6 st i = (st', o) -> kept (tr ++ o) st'.
Proof.
  intros [K1 K2]. destruct st as [c ph]. unfold ustep. cbn [us_phase us_conn] in *.
  assert (SAME : forall ph, kept tr (mkUS c ph) -> kept (tr ++ []) (mkUS c ph)) by (intros; now rewrite app_nil_r).
  assert (SF : forall c0 msg ph0, match ph0 with UAnnouncing cx _ _ _ _ _ => c0 = Some cx | _ => True end ->
     forall h st0 o0, send_or_fail i c0 msg ph0 = (st0, o0) -> kept (tr ++ h ++ o0) st0).
  { intros c0 msg ph0 H h st0 o0. unfold send_or_fail, finish. destruct (ui_send i); intros X; injection X as <- <-.
    - eapply kept_other with (x := OSent (ui_at i) msg); [exact H| destruct h; discriminate|apply last_last|discriminate].
    - eapply kept_other with (x := OReturned (ui_at i) (Err USend)); [exact I| destruct h; discriminate|apply last_last|discriminate]. }
  assert (FE : forall c0 e h, kept (tr ++ h ++ [OReturned (ui_at i) (Err e)]) (mkUS c0 UIdle)).
  { intros c0 e h. eapply kept_other with (x := OReturned (ui_at i) (Err e)); [exact I|destruct h; discriminate|apply last_last|discriminate]. }
  destruct ph as [|x m n s b|cx x m n s b], (ui_what i) as [a|[d|]| |]; try (intros X; injection X as <- <-; apply SAME; split; auto; fail).
  - destruct (begin_round urldata i c a) as [st0 o0] eqn:B. intros X; injection X as <- <-.
    change (OCalled (ui_at i) a :: o0) with ([OCalled (ui_at i) a] ++ o0).
    unfold begin_round in B. destruct c as [cx|]; [destruct (ui_at i <? cx_expires cx)|]; (eapply SF; [|exact B]); exact I || reflexivity.
  - match goal with |- context [let? r := ?y in response_ok r] => destruct (let? r := y in response_ok r) as [[got cid]|e] end.
    + destruct (negb (got =? x)).
      * intros X; injection X as <- <-. apply (FE c _ [OReceived (ui_at i) d]).
      * destruct (begin_announce _ _ _ _ _) as [st0 o0] eqn:B. intros X; injection X as <- <-.
        apply (fun H => SF _ _ _ H [OReceived (ui_at i) d] _ _ B). reflexivity.
    + intros X; injection X as <- <-. apply (FE c _ [OReceived (ui_at i) d]).
  - intros X; injection X as <- <-. apply (FE c _ []).
  - destruct (s + wait_time n <=? ui_at i); intros X; [|injection X as <- <-; apply SAME; split; auto].
    apply (fun H => SF _ _ _ H [] _ _ X). exact I.
  - match goal with |- context [let? r := ?y in response_ok r] => destruct (let? r := y in response_ok r) as [[got resp]|e] end.
    + destruct (negb (got =? x)); intros X; injection X as <- <-.
      * apply (FE c _ [OReceived (ui_at i) d]).
      * split; [exact I|]. intros. cbn [us_conn]. rewrite K1. discriminate.
    + intros X; injection X as <- <-. apply (FE c _ [OReceived (ui_at i) d]).
  - intros X; injection X as <- <-. apply (FE c _ []).
  - destruct (s + wait_time n <=? ui_at i); intros X; [|injection X as <- <-; apply SAME; split; auto].
    apply (fun H => SF _ _ _ H [] _ _ X). exact K1.
  - destruct (cx_expires cx <=? ui_at i); intros X; [|injection X as <- <-; apply SAME; split; auto].
    apply (fun H => SF _ _ _ H [] _ _ X). exact I.
Qed.
Lemma connection_kept urldata v6 is st tr p t r : urun urldata v6 us_new is = (st, tr) -> tr = p ++ [OReturned t (Ok r)] ->
  us_conn st <> None.
Proof.
  intros E T.
  assert (K : forall is tr0 st0, kept tr0 st0 -> kept (tr0 ++ snd (urun urldata v6 st0 is)) (fst (urun urldata v6 st0 is))).
  { clear. induction is as [|i is IH]; intros tr st K; cbn [urun].
    - cbn [fst snd]. now rewrite app_nil_r.
    - destruct (ustep urldata v6 st i) as [st1 o1] eqn:E. apply (step_kept _ _ _ _ _ _ _ K) in E. apply IH in E.
      destruct (urun urldata v6 st1 is) as [st2 o2]. cbn [fst snd] in *. now rewrite app_assoc. }
  specialize (K is [] us_new). rewrite E in K. cbn [fst snd app] in K. eapply K; [|exact T].
  split; [exact I|]. intros ? ? ? X. destruct p0; discriminate.
Qed.

Lemma stop_iff_peers : forall E limit s (conn : timed (res E unit)) ann,
  let '(made, scheduled, t, r) := getter_run limit s conn ann in
  t <= limit /\
  (made = [] \/ made = [start_announcement s]) /\
  match r with
  | Ok ps => made = [start_announcement s] /\ scheduled = Some (stop_announcement s) /\
      (exists t1 t2 resp, conn = Some (t1, Ok tt) /\ ann (start_announcement s) = Some (t2, Ok resp) /\
         ps = ar_peers resp /\ t = t1 + t2)
  | Err GTimeout => scheduled = None /\ t = limit /\
      ((forall t1 x, conn = Some (t1, x) -> limit < t1) \/
       exists t1, conn = Some (t1, Ok tt) /\ forall t2 x, ann (start_announcement s) = Some (t2, x) -> limit < t1 + t2)
  | Err (GInner e) => scheduled = None /\
      (conn = Some (t, Err e) \/ exists t1 t2, conn = Some (t1, Ok tt) /\ ann (start_announcement s) = Some (t2, Err e) /\ t = t1 + t2)
  end.
Proof.
  intros E limit s conn ann. unfold getter_run, timeout.
  destruct conn as [[t1 [[]|e]]|].
  - destruct (N.leb_spec t1 limit).
    + destruct (ann (start_announcement s)) as [[t2 [resp|e]]|] eqn:A.
      * destruct (N.leb_spec t2 (limit - t1)); (split; [lia|]; split; [auto|]).
        -- split; [auto|]. split; [auto|]. exists t1, t2, resp. auto.
        -- split; [auto|]. split; [lia|]. right. exists t1. split; auto. intros t3 x X. injection X as <- <-. lia.
      * destruct (N.leb_spec t2 (limit - t1)); (split; [lia|]; split; [auto|]).
        -- split; [auto|]. right. exists t1, t2. auto.
        -- split; [auto|]. split; [lia|]. right. exists t1. split; auto. intros t3 x X. injection X as <- <-. lia.
      * split; [lia|]. split; [auto|]. split; [auto|]. split; [lia|]. right. exists t1. split; auto. discriminate.
    + split; [lia|]. split; [auto|]. split; [auto|]. split; [auto|]. left. intros t3 x X. injection X as <- <-. lia.
  - destruct (N.leb_spec t1 limit).
    + split; [lia|]. split; [auto|]. split; auto.
    + split; [lia|]. split; [auto|]. split; [auto|]. split; [auto|]. left. intros t3 x X. injection X as <- <-. lia.
  - split; [lia|]. split; [auto|]. split; [auto|]. split; [auto|]. left. discriminate.
Qed.

Lemma same_identity : forall s,
  let a := start_announcement s in let z := stop_announcement s in
  an_event a = EvStarted /\ an_event z = EvStopped /\
  an_hash a = s_hash s /\ an_hash z = s_hash s /\ an_pid a = s_id s /\ an_pid z = s_id s /\
  an_key a = s_key s /\ an_key z = s_key s /\ an_port a = s_port s /\ an_port z = s_port s /\
  an_numwant a = s_numwant s /\ an_numwant z = s_numwant s /\
  an_downloaded a = 0 /\ an_downloaded z = 0 /\ an_uploaded a = 0 /\ an_uploaded z = 0 /\ 0 < an_left a /\ an_left z = an_left a.
Proof. intros s. repeat split. Qed.

Lemma announced_crypto s :
  an_crypto (stop_announcement s) = an_crypto (start_announcement s) /\
  match s_override s with
  | Some c => an_crypto (start_announcement s) = c
  | None => an_crypto (start_announcement s) =
      match s_pref s with CPAlways => TCRequired | CPNever => TCPlain | CPPrefer | CPIfRequired => TCSupported end
  end.
Proof. split; [reflexivity|]. unfold start_announcement, get_tracker_crypto. cbn. destruct (s_override s); [reflexivity|]. destruct (s_pref s); reflexivity. Qed.

Lemma socket_spec lookup bind_ok connect_ok bound peer v6 :
  udp_socket lookup bind_ok connect_ok = Ok (bound, peer, v6) <->
  bind_ok = true /\ connect_ok = true /\ (exists others, lookup = Some (peer :: others)) /\
  ((is_v4 peer /\ bound = bs "0.0.0.0:0" /\ v6 = false) \/ (~ is_v4 peer /\ bound = bs "[::]:0" /\ v6 = true)).
Proof.
  unfold udp_socket, is_v4. split.
  - destruct lookup as [[|a l]|]; try discriminate. destruct (sa_ip a) eqn:A, bind_ok, connect_ok; try discriminate; cbn [negb]; intros X; injection X as <- <- <-;
      rewrite A; (split; [auto|]; split; [auto|]; split; [eauto|]); [left|right]; repeat split; auto.
  - intros (-> & -> & (l & ->) & H). destruct (sa_ip peer); cbn [negb]; destruct H as [(V & -> & ->)|(V & -> & ->)]; try reflexivity; exfalso; auto.
Qed.
