(** Lemmas for C99. *)
From Verif Require Import Base S_Bencode M_Utf8 M_Net M_Session M_Tracker M_Udp M_Http M_Announce S_Wire S_Form P_Form S_Udp S_UdpSession S_Http
  M_Config M_Magnet M_Mse M_Get S_Get S_Announce P_Udp P_UdpSession P_Http.

Lemma first_return_app a b : first_return (a ++ b) = match first_return a with Some x => Some x | None => first_return b end.
Proof. induction a as [|[]]; cbn [app first_return]; auto. Qed.

Section Udp.
Context (urldata : bytes) (v6 : bool).
Notation step := (ustep urldata v6).
Notation run := (urun urldata v6).

Lemma run_cons st i is : first_return (snd (run st (i :: is))) =
  match first_return (snd (step st i)) with Some x => Some x | None => first_return (snd (run (fst (step st i)) is)) end.
Proof.
  cbn [urun]. destruct (step st i) as [st1 o1]. destruct (run st1 is) as [st2 o2] eqn:R. cbn [fst snd].
  rewrite first_return_app. rewrite R. reflexivity.
Qed.

(** What the state waits for *)
Definition owed (st : usession) (is : list uinput) (t : N) (r : announce_response) : Prop :=
  match us_phase st with
  | UIdle => False
  | UConnecting txn _ _ _ _ => connecting v6 txn is t r
  | UAnnouncing cx txn _ _ _ _ => announcing v6 txn (cx_expires cx) is t r
  end.

Lemma returned_owed is : forall st t r, us_phase st <> UIdle ->
  first_return (snd (run st is)) = Some (t, Ok r) -> owed st is t r.
Proof.
  induction is as [|i is IH]; intros st t r NI; [discriminate|].
  rewrite run_cons. unfold owed. destruct st as [c ph]. unfold ustep. cbn [us_phase us_conn] in *.
  destruct ph as [|txn msg n sent a|cx txn msg n sent a]; [congruence| |].
  - destruct (ui_what i) as [b|[d|]| |] eqn:W; cbn [fst snd first_return finish].
    + intros H. apply IH in H; [|easy]. apply con_wait; [rewrite W; discriminate|exact H].
    + destruct (response_from_bytes connection_response d) as [[[got cid]|m]|e] eqn:R; cbn [res_bind response_ok finish fst snd first_return]; try discriminate.
      destruct (N.eqb_spec got txn) as [->|]; cbn [negb finish fst snd first_return]; [|discriminate].
      unfold begin_announce, send_or_fail, finish. destruct (ui_send i); cbn [fst snd first_return]; [|discriminate].
      intros H. apply IH in H; [|easy]. eapply con_reply with (cid := cid); [exact W|now apply connect_success|exact H].
    + discriminate.
    + destruct (_ <=? _); cbn [fst snd].
      * unfold send_or_fail, finish. destruct (ui_send i); cbn [fst snd first_return]; [|discriminate].
        intros H. apply IH in H; [|easy]. apply con_wait; [rewrite W; discriminate|exact H].
      * cbn [first_return]. intros H. apply IH in H; [|easy]. apply con_wait; [rewrite W; discriminate|exact H].
    + intros H. apply IH in H; [|easy]. apply con_wait; [rewrite W; discriminate|exact H].
  - destruct (ui_what i) as [b|[d|]| |] eqn:W; cbn [fst snd first_return finish].
    + intros H. apply IH in H; [|easy]. apply ann_wait; [rewrite W; discriminate|rewrite W; discriminate|exact H].
    + destruct (response_from_bytes (udp_announce_response v6) d) as [[[got resp]|m]|e] eqn:R; cbn [res_bind response_ok finish fst snd first_return]; try discriminate.
      destruct (N.eqb_spec got txn) as [->|]; cbn [negb finish fst snd first_return]; [|discriminate].
      intros [= <- <-]. eapply ann_reply; [exact W|now apply announce_success].
    + discriminate.
    + destruct (_ <=? _); cbn [fst snd].
      * unfold send_or_fail, finish. destruct (ui_send i); cbn [fst snd first_return]; [|discriminate].
        intros H. apply IH in H; [|easy]. apply ann_wait; [rewrite W; discriminate|rewrite W; discriminate|exact H].
      * cbn [first_return]. intros H. apply IH in H; [|easy]. apply ann_wait; [rewrite W; discriminate|rewrite W; discriminate|exact H].
    + destruct (N.leb_spec (cx_expires cx) (ui_at i)) as [LE|LT]; cbn [fst snd].
      * unfold begin_round, begin_connect, send_or_fail, finish. destruct (ui_send i); cbn [fst snd first_return]; [|discriminate].
        intros H. apply IH in H; [|easy]. apply ann_expired; auto.
      * cbn [first_return]. intros H. apply IH in H; [|easy]. apply ann_wait; [rewrite W; discriminate|auto|exact H].
Qed.

Lemma owed_returned is : Forall (fun i => ui_send i = true) is -> forall st t r,
  owed st is t r -> first_return (snd (run st is)) = Some (t, Ok r).
Proof.
  induction 1 as [|i is S SS IH]; intros st t r; unfold owed; destruct st as [c ph]; cbn [us_phase us_conn].
  { destruct ph; [easy|intros H; inversion H..]. }
  rewrite run_cons. unfold ustep. cbn [us_phase us_conn].
  destruct ph as [|txn msg n sent a|cx txn msg n sent a]; [easy| |].
  - intros H. inversion H as [? ? ? ? ? NR C|? ? ? ? ? d cid W CR AN]; subst.
    + destruct (ui_what i) as [b|d| |] eqn:W; cbn [fst snd first_return].
      * now apply IH.
      * now destruct (NR d).
      * destruct (_ <=? _); [unfold send_or_fail; rewrite S|]; cbn [fst snd first_return]; now apply IH.
      * now apply IH.
    + rewrite W. cbn [fst snd]. apply connect_success in CR. rewrite CR. cbn [res_bind response_ok].
      rewrite N.eqb_refl. cbn [negb]. unfold begin_announce, send_or_fail. rewrite S. cbn [fst snd first_return].
      apply IH. exact AN.
  - intros H. inversion H as [? ? ? ? ? ? NR EX C|? ? ? ? ? ? W LE C|? ? ? ? ? d W AR]; subst.
    + destruct (ui_what i) as [b|d| |] eqn:W; cbn [fst snd first_return].
      * now apply IH.
      * now destruct (NR d).
      * destruct (_ <=? _); [unfold send_or_fail; rewrite S|]; cbn [fst snd first_return]; now apply IH.
      * specialize (EX eq_refl). destruct (N.leb_spec (cx_expires cx) (ui_at i)); [lia|]. cbn [fst snd first_return]. now apply IH.
    + rewrite W. destruct (N.leb_spec (cx_expires cx) (ui_at i)); [|lia].
      unfold begin_round, begin_connect, send_or_fail. rewrite S. cbn [fst snd first_return]. now apply IH.
    + rewrite W. apply announce_success in AR. rewrite AR. cbn [res_bind response_ok]. rewrite N.eqb_refl. reflexivity.
Qed.

(** A failure reported is one received. *)
Lemma failure_received is : forall st t m, us_phase st <> UIdle -> first_return (snd (run st is)) = Some (t, Err (UFailure m)) ->
  exists i d raw, In i is /\ ui_what i = InRecv (Some d) /\ error_reply d raw /\ m = from_utf8_lossy raw.
Proof.
  induction is as [|i is IH]; intros st t m NI; [discriminate|].
  assert (REC : forall st', us_phase st' <> UIdle -> first_return (snd (run st' is)) = Some (t, Err (UFailure m)) ->
     exists i' d raw, In i' (i :: is) /\ ui_what i' = InRecv (Some d) /\ error_reply d raw /\ m = from_utf8_lossy raw).
  { intros st' NI' H. destruct (IH st' t m NI' H) as (i' & d & raw & ? & ? & ? & ?). exists i', d, raw. split; [now right|auto]. }
  rewrite run_cons. destruct st as [c ph]. unfold ustep. cbn [us_phase us_conn] in *.
  destruct ph as [|txn msg n sent a|cx txn msg n sent a]; [congruence| |].
  - destruct (ui_what i) as [b|[d|]| |] eqn:W; cbn [fst snd first_return finish]; try (apply REC; easy); try discriminate.
    + destruct (response_from_bytes connection_response d) as [[[got cid]|mm]|e] eqn:R; cbn [res_bind response_ok finish fst snd first_return].
      * destruct (negb _); cbn [finish fst snd first_return]; [discriminate|].
        unfold begin_announce, send_or_fail, finish. destruct (ui_send i); cbn [fst snd first_return]; [|discriminate]. now apply REC.
      * intros [= <- <-]. apply response_failure in R as (raw & ER & ->). exists i, d, raw. split; [now left|auto].
      * intros [= <- ->]. apply connect_errors in R as [?|(? & _ & _ & _ & ?)]; discriminate.
    + destruct (_ <=? _); cbn [fst snd].
      * unfold send_or_fail, finish. destruct (ui_send i); cbn [fst snd first_return]; [|discriminate]. now apply REC.
      * now apply REC.
  - destruct (ui_what i) as [b|[d|]| |] eqn:W; cbn [fst snd first_return finish]; try (apply REC; easy); try discriminate.
    + destruct (response_from_bytes (udp_announce_response v6) d) as [[[got resp]|mm]|e] eqn:R; cbn [res_bind response_ok finish fst snd first_return].
      * destruct (negb _); cbn [finish fst snd first_return]; discriminate.
      * intros [= <- <-]. apply response_failure in R as (raw & ER & ->). exists i, d, raw. split; [now left|auto].
      * intros [= <- ->]. apply announce_errors in R as [?|(? & _ & _ & _ & ?)]; discriminate.
    + destruct (_ <=? _); cbn [fst snd].
      * unfold send_or_fail, finish. destruct (ui_send i); cbn [fst snd first_return]; [|discriminate]. now apply REC.
      * now apply REC.
    + destruct (_ <=? _); cbn [fst snd].
      * unfold begin_round, begin_connect, send_or_fail, finish. destruct (ui_send i); cbn [fst snd first_return]; [|discriminate]. now apply REC.
      * now apply REC.
Qed.
Lemma return_time is : forall st t x t0, Forall (fun i => t0 <= ui_at i) is -> first_return (snd (run st is)) = Some (t, x) -> t0 <= t.
Proof.
  induction is as [|i is IH]; intros st t x t0 F; [discriminate|]. apply Forall_cons_iff in F as [F1 F2].
  rewrite run_cons. destruct (first_return (snd (step st i))) as [[t1 x1]|] eqn:E; [|apply IH; auto].
  intros [= -> ->]. enough (t = ui_at i) by (subst; auto). revert E. destruct st as [c ph]. unfold ustep. cbn [us_phase us_conn].
  unfold begin_round, begin_announce, begin_connect, send_or_fail, finish.
  repeat (match goal with
          | |- context [match ?x with _ => _ end] => lazymatch x with context [match _ with _ => _ end] => fail | _ => destruct x end
          end; cbn [fst snd first_return]; try (intros [= <- _]; reflexivity); try discriminate).
Qed.
End Udp.

Lemma asked u a : asks u a (announce_url u a).
Proof.
  unfold asks. repeat (split; [reflexivity|]). intros own F.
  now destruct (announce_url_spec u a own F) as (_ & _ & _ & _ & _ & _ & X).
Qed.
Lemma http_ok n v t status b r : n_client n = true -> n_reply n v = Some (t, RResponse status b) -> http_result (RResponse status b) = Ok r ->
  exists d, responds n v t d /\ http_success d r.
Proof.
  intros NC NR. unfold http_result. destruct ((400 <=? status) && (status <? 600)) eqn:ST; [discriminate|].
  destruct b as [b|]; [|discriminate]. destruct (http_decode_spec b) as (_ & OKS & _).
  destruct (http_decode b) as [[[a|m]|]|]; try discriminate. intros [= ->].
  destruct (proj1 (OKS r) eq_refl) as (d & -> & C & D & S). exists d. split; [|exact S].
  split; auto. exists status. split; auto. split; [|auto].
  apply Bool.andb_false_iff in ST as [X|X]; [apply N.leb_gt in X|apply N.ltb_ge in X]; auto.
Qed.
Lemma http_ok_conv n v t d r : responds n v t d -> http_success d r -> exists rep, n_reply n v = Some (t, rep) /\ http_result rep = Ok r.
Proof.
  intros (_ & status & NR & ST & C & D) S. eexists. split; [exact NR|]. unfold http_result.
  destruct (N.leb_spec 400 status); destruct (N.ltb_spec status 600); cbn [andb]; try lia;
    destruct (http_decode_spec (encode (VDict d))) as (_ & OKS & _); rewrite (proj2 (OKS r)); eauto.
Qed.
Lemma http_failed n v t status b m : n_client n = true -> n_reply n v = Some (t, RResponse status b) ->
  http_result (RResponse status b) = Err (TEFailure m) -> exists d, responds n v t d /\ http_failure d m.
Proof.
  intros NC NR. unfold http_result. destruct ((400 <=? status) && (status <? 600)) eqn:ST; [discriminate|].
  destruct b as [b|]; [|discriminate]. destruct (http_decode_spec b) as (_ & _ & OKS).
  destruct (http_decode b) as [[[a|m']|]|]; try discriminate. intros [= ->].
  destruct (proj1 (OKS m) eq_refl) as (d & -> & C & D & S). exists d. split; [|exact S].
  split; auto. exists status. split; auto. split; [|auto].
  apply Bool.andb_false_iff in ST as [X|X]; [apply N.leb_gt in X|apply N.ltb_ge in X]; auto.
Qed.
Lemma http_no_panic r : http_result r <> Err TEPanic.
Proof.
  unfold http_result. destruct r as [|status [b|]]; [discriminate| |destruct (_ && _); discriminate].
  destruct (_ && _); [discriminate|]. destruct (http_decode_spec b) as (NP & _).
  destruct (http_decode b) as [[[]|]|]; try discriminate. congruence.
Qed.

Lemma run_first urldata v6 t0 a txn is : urun urldata v6 us_new (mkIn t0 (InAnnounce a) txn true :: is) =
  let st := mkUS None (UConnecting txn (connection_request txn) 0 t0 a) in
  (fst (urun urldata v6 st is), OCalled t0 a :: OSent t0 (connection_request txn) :: snd (urun urldata v6 st is)).
Proof. cbn [urun]. unfold ustep, begin_round, begin_connect, send_or_fail, us_new. cbn. destruct (urun _ _ _ is). reflexivity. Qed.
Lemma run_first_fail urldata v6 t0 a txn is : first_return (snd (urun urldata v6 us_new (mkIn t0 (InAnnounce a) txn false :: is))) = Some (t0, Err USend).
Proof. cbn [urun]. unfold ustep, begin_round, begin_connect, send_or_fail, us_new. cbn. now destruct (urun _ _ _ is). Qed.

Lemma socket_inv u n t0 b addr v6 : socket_of u n = Some (t0, Ok (b, addr, v6)) ->
  exists others, n_socket n (uu_host u) (uu_port u) = Some (t0, (Some (addr :: others), true, true)) /\ (if v6 then ~ is_v4 addr else is_v4 addr).
Proof.
  unfold socket_of. destruct (n_socket n _ _) as [[t [[l bo] co]]|]; [|discriminate]. intros E. injection E as -> E.
  apply socket_spec in E as (-> & -> & (others & ->) & [(? & _ & ->)|(? & _ & ->)]); eauto.
Qed.

Lemma query_ok limit s tr n made stop t ps : in_order n -> tracker_query limit s tr n = (made, stop, t, Ok ps) ->
  made = [start_announcement s] /\ stop = Some (stop_announcement s) /\ t <= limit /\
  exists r, answered tr (start_announcement s) n t r /\ ps = ar_peers r.
Proof.
  intros IO Q. unfold tracker_query in Q. pose proof (stop_iff_peers _ limit s (tracker_conn tr n) (tracker_ann tr n)) as H.
  rewrite Q in H. destruct H as (LE & _ & -> & -> & t1 & t2 & r & CN & AN & -> & ->).
  split; auto. split; auto. split; auto. exists r. split; auto. destruct tr as [u|u].
  - cbn [tracker_conn] in CN. injection CN as <- CN. destruct (n_client n) eqn:NC; [|discriminate]. clear CN.
    cbn [tracker_ann] in AN. destruct (n_reply n _) as [[t rep]|] eqn:NR; [|discriminate]. injection AN as -> AN.
    rewrite N.add_0_l. destruct rep as [|status b]; [discriminate|].
    destruct (http_ok n _ _ _ _ _ NC NR AN) as (d & R & S). exists (announce_url u (start_announcement s)), d. split; [apply asked|auto].
  - cbn [tracker_conn tracker_ann] in *. destruct (socket_of u n) as [[t0 [[[b addr] v6]|e]]|] eqn:SO; try discriminate.
    injection CN as ->. destruct (socket_inv _ _ _ _ _ _ SO) as (others & NS & V). specialize (IO _ _ _ _ NS).
    destruct (n_send n) eqn:SN; [|rewrite run_first_fail in AN; discriminate].
    rewrite run_first in AN. cbn [fst snd first_return] in AN.
    destruct (first_return _) as [[t [r'|e]]|] eqn:FR; [|discriminate|discriminate].
    injection AN as <- ->. pose proof (return_time _ _ _ _ _ _ _ IO FR). replace (t1 + (t - t1)) with t by lia.
    apply returned_owed in FR; [|easy]. exists t1, addr, others, v6. auto.
Qed.

Lemma answers_query limit s tr n t r : in_order n -> answers tr (start_announcement s) n t r -> t <= limit ->
  tracker_query limit s tr n = ([start_announcement s], Some (stop_announcement s), t, Ok (ar_peers r)).
Proof.
  intros IO A LE. unfold tracker_query, getter_run. destruct tr as [u|u]; cbn [answers tracker_conn tracker_ann] in *.
  - destruct (A _ (asked u _)) as (d & R & S). destruct (http_ok_conv _ _ _ _ _ R S) as (rep & NR & HR). destruct R as (-> & _).
    rewrite NR, HR. unfold timeout. destruct (N.leb_spec 0 limit); [|lia]. rewrite N.sub_0_r.
    destruct (N.leb_spec t limit); [|lia]. reflexivity.
  - destruct A as ((t0 & addr & others & v6 & NS & V & C) & SN & SF). specialize (IO _ _ _ _ NS).
    assert (SO : exists b, socket_of u n = Some (t0, Ok (b, addr, v6))).
    { unfold socket_of. rewrite NS. destruct v6.
      - exists (bs "[::]:0"). do 2 f_equal. apply socket_spec. eauto 10.
      - exists (bs "0.0.0.0:0"). do 2 f_equal. apply socket_spec. eauto 10. }
    destruct SO as [b SO]. rewrite SO, SN, run_first. cbn [fst snd first_return].
    assert (FR : first_return (snd (urun (uu_data u) v6 (mkUS None (UConnecting (n_txn n) (connection_request (n_txn n)) 0 t0 (start_announcement s))) (n_inputs n))) = Some (t, Ok r))
      by (apply owed_returned; auto).
    rewrite FR. pose proof (return_time _ _ _ _ _ _ _ IO FR) as GE. cbn [res_map_err]. unfold timeout.
    destruct (N.leb_spec t0 limit); [|lia]. destruct (N.leb_spec (t - t0) (limit - t0)); [|lia].
    repeat f_equal. lia.
Qed.

Lemma query_refused limit s tr n made stop t m : tracker_query limit s tr n = (made, stop, t, Err (GInner (TEFailure m))) ->
  refused tr (start_announcement s) n m.
Proof.
  intros Q. unfold tracker_query in Q. pose proof (stop_iff_peers _ limit s (tracker_conn tr n) (tracker_ann tr n)) as H.
  rewrite Q in H. destruct H as (_ & _ & _ & [CN|(t1 & t2 & CN & AN & _)]); destruct tr as [u|u]; cbn [tracker_conn tracker_ann refused] in *.
  - destruct (n_client n); discriminate.
  - unfold socket_of in CN. destruct (n_socket n _ _) as [[t0 [[l bo] co]]|]; [|discriminate].
    unfold udp_socket in CN. destruct l as [[|a l]|]; [discriminate| |discriminate].
    destruct (sa_ip a); destruct bo; try discriminate; destruct co; discriminate.
  - injection CN as <- CN. destruct (n_client n) eqn:NC; [|discriminate]. clear CN.
    destruct (n_reply n _) as [[t' rep]|] eqn:NR; [|discriminate]. injection AN as -> AN.
    destruct rep as [|status b]; [discriminate|]. destruct (http_failed n _ _ _ _ _ NC NR AN) as (d & R & S).
    exists (announce_url u (start_announcement s)), t2, d. split; [apply asked|auto].
  - destruct (socket_of u n) as [[t0 [[[b addr] v6]|e]]|] eqn:SO; try discriminate.
    destruct (n_send n); [|rewrite run_first_fail in AN; discriminate].
    rewrite run_first in AN. cbn [fst snd first_return] in AN.
    destruct (first_return _) as [[t' [r'|e]]|] eqn:FR; [discriminate| |discriminate].
    injection AN as <- AN. destruct e; try discriminate. injection AN as ->. eapply failure_received; [|exact FR]. easy.
Qed.
Lemma query_no_panic limit s tr n made stop t : tracker_query limit s tr n <> (made, stop, t, Err (GInner TEPanic)).
Proof.
  intros Q. unfold tracker_query in Q. pose proof (stop_iff_peers _ limit s (tracker_conn tr n) (tracker_ann tr n)) as H.
  rewrite Q in H. destruct H as (_ & _ & _ & [CN|(t1 & t2 & CN & AN & _)]); destruct tr as [u|u]; cbn [tracker_conn tracker_ann] in *.
  - destruct (n_client n); discriminate.
  - destruct (socket_of u n) as [[t0 [|[]]]|]; discriminate.
  - destruct (n_reply n _) as [[t' rep]|] eqn:NR; [|discriminate]. injection AN as -> AN. now apply http_no_panic in AN.
  - destruct (socket_of u n) as [[t0 [[[b addr] v6]|e]]|] eqn:SO; try discriminate.
    destruct (first_return _) as [[t' [r'|[]]]|]; discriminate.
Qed.

Lemma told_start cfg pid key port ih : start_announcement (mkTS ih None (c_encrypt cfg) pid key port (c_numwant cfg)) = told cfg pid key port ih.
Proof. unfold start_announcement, told, get_tracker_crypto. cbn. now destruct (c_encrypt cfg). Qed.

Lemma job_peers cfg pid key port ih tr n t r p : in_order n -> answers tr (told cfg pid key port ih) n t r -> t <= ns (c_announce_timeout cfg) ->
  In p (ar_peers r) -> In p (tracker_job cfg pid key port ih tr n).
Proof. intros IO A LE I. unfold tracker_job. rewrite (answers_query _ _ _ _ t r); auto. Qed.
Lemma job_peers_inv cfg pid key port ih tr n p : in_order n -> In p (tracker_job cfg pid key port ih tr n) ->
  exists t r, answered tr (told cfg pid key port ih) n t r /\ t <= ns (c_announce_timeout cfg) /\ In p (ar_peers r).
Proof.
  intros IO. unfold tracker_job. destruct (tracker_query _ _ tr n) as [[[made stop] t] [ps|e]] eqn:Q; [|intros []].
  apply query_ok in Q as (_ & _ & LE & r & A & ->); auto. rewrite told_start in A. eauto.
Qed.

Lemma to_try_iff cfg pid key port m nets w : peers_from cfg pid key port m nets w -> forall p,
  (exists k tr, nth_error (mg_trackers m) k = Some tr /\ In p (tracker_job cfg pid key port (mg_hash m) tr (nets k))) ->
  exists c, snd c = p /\ to_try m w c.
Proof.
  intros PF p (k & tr & NT & I). destruct (PF k tr NT) as (l & WA & ML). rewrite <- ML in I. apply in_map_iff in I as (c & <- & I).
  exists c. split; auto. right. exists k, l. split; [|auto]. apply nth_error_Some. congruence.
Qed.
Lemma to_try_inv cfg pid key port m nets w : peers_from cfg pid key port m nets w -> mg_trackers m <> [] -> forall c, to_try m w c ->
  exists k tr, nth_error (mg_trackers m) k = Some tr /\ In (snd c) (tracker_job cfg pid key port (mg_hash m) tr (nets k)).
Proof.
  intros PF NE c [[E _]|(k & l & LT & WA & I)]; [contradiction|]. apply nth_error_Some in LT.
  destruct (nth_error (mg_trackers m) k) as [tr|] eqn:NT; [|congruence]. exists k, tr. split; auto.
  destruct (PF k tr NT) as (l' & WA' & ML). rewrite <- ML. assert (l = l') as <- by congruence. now apply in_map.
Qed.

Lemma http_refuses limit s u n t m : (forall v, asks u (start_announcement s) v -> exists d, responds n v t d /\ http_failure d m) -> t <= limit ->
  tracker_query limit s (THttp u) n = ([start_announcement s], None, t, Err (GInner (TEFailure m))).
Proof.
  intros A LE. destruct (A _ (asked u _)) as (d & (NC & status & NR & ST & C & D) & F).
  unfold tracker_query, getter_run, tracker_conn, tracker_ann. rewrite NC, NR. unfold timeout.
  destruct (N.leb_spec 0 limit); [|lia]. rewrite N.sub_0_r. destruct (N.leb_spec t limit); [|lia]. rewrite N.add_0_l.
  unfold http_result. destruct (http_decode_spec (encode (VDict d))) as (_ & _ & FS). rewrite (proj2 (FS m)) by eauto.
  destruct (N.leb_spec 400 status); destruct (N.ltb_spec status 600); cbn [andb]; try lia; reflexivity.
Qed.
