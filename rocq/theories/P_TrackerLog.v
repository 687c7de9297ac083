(** Lemmas on the log of a query to a tracker (C120). *)
From Coq Require Import Lia.
From Verif Require Import Base BaseFacts M_Net M_Session M_Tracker M_Udp M_Http M_Announce M_Mse M_Config M_Get M_Log M_TrackerLog S_TrackerLog S_Bencode S_Wire S_Udp S_UdpSession S_Http S_Announce P_Udp P_UdpSession P_Announce P_Announce2.

Definition full url su r := NRequesting url su :: announce_log url su r ++ [NRecord (LCount url su (map pr_addr (ar_peers r))); NRecord (LPeers url su (map pr_addr (ar_peers r)))].
Lemma answer_logged_iff url su r g : g = full url su r -> answer_logged url su r g.
Proof.
  intros ->. unfold answer_logged, full, announce_log. destruct (ar_warning r) as [m|].
  - exists [NRecord (LWarning url su m)]. split; [reflexivity|]. split; [cbn; lia|]. intros x. split; [intros [<-|[]]; eauto|]. intros (m' & [= <-] & ->). left. reflexivity.
  - exists []. split; [reflexivity|]. split; [cbn; lia|]. intros x. split; [intros []|]. intros (m' & E & _). discriminate.
Qed.
Section Q.
Context (show_url : url -> bytes) (su : subject).
Lemma log_answers limit s tr n t r : in_order n -> answers tr (start_announcement s) n t r -> t <= limit ->
  answer_logged (url_string show_url tr) su r (query_log show_url su limit s tr n).
Proof.
  intros IO A LE. apply answer_logged_iff. unfold query_log, getter_log, full. f_equal. set (W := announce_log _ _). destruct tr as [u|u]; cbn [answers tracker_conn tracker_ann] in *.
  - destruct (A _ (asked u _)) as (d & R & S). destruct (http_ok_conv _ _ _ _ _ R S) as (rep & NR & HR). destruct R as (-> & _).
    rewrite NR, HR. unfold timeout. destruct (N.leb_spec 0 limit); [|lia]. rewrite N.sub_0_r.
    destruct (N.leb_spec t limit); [|lia]. reflexivity.
  - destruct A as ((t0 & addr & others & v6 & NS & V & C) & SN & SF). specialize (IO _ _ _ _ NS).
    assert (SO : exists b, socket_of u n = Some (t0, Ok (b, addr, v6))).
    { unfold socket_of. rewrite NS. destruct v6.
      - exists (bs "[::]:0"). do 2 f_equal. apply socket_spec. eauto 10.
      - exists (bs "0.0.0.0:0"). do 2 f_equal. apply socket_spec. eauto 10. }
    destruct SO as [b SO]. rewrite SO, SN, run_first. cbn [fst snd first_return].
    assert (FR : first_return (snd (urun (uu_data u) v6 (mkUS None (UConnecting (n_txn n) (connection_request (n_txn n)) 0 t0 (start_announcement s))) (n_inputs n))) = Some (t, Ok r))
      by (apply owed_returned; auto).
    rewrite FR. pose proof (return_time _ _ _ _ _ _ _ IO FR) as GE. cbn [res_map_err]. unfold timeout.
    destruct (N.leb_spec t0 limit); [|lia]. destruct (N.leb_spec (t - t0) (limit - t0)); [|lia]. reflexivity.
Qed.
Lemma log_result limit s tr n made stop t res : in_order n -> tracker_query limit s tr n = (made, stop, t, res) ->
  match res with
  | Ok ps => exists r, answered tr (start_announcement s) n t r /\ ps = ar_peers r /\
      answer_logged (url_string show_url tr) su r (query_log show_url su limit s tr n)
  | Err _ => query_log show_url su limit s tr n = [NRequesting (url_string show_url tr) su]
  end.
Proof.
  intros IO Q. unfold tracker_query in Q. pose proof (stop_iff_peers _ limit s (tracker_conn tr n) (tracker_ann tr n)) as H.
  rewrite Q in H. unfold query_log, getter_log, getter_run in *.
  destruct (timeout limit (tracker_conn tr n)) as [t1 [[[]|e]|]] eqn:T1.
  2, 3: injection Q as <- <- <- <-; reflexivity.
  destruct (timeout (limit - t1) _) as [t2 [[r|e]|]] eqn:T2.
  2, 3: injection Q as <- <- <- <-; reflexivity.
  injection Q as <- <- <- <-. exists r. split; [|split; [reflexivity|apply answer_logged_iff; reflexivity]].
  assert (CN : tracker_conn tr n = Some (t1, Ok tt)). { unfold timeout in T1. destruct (tracker_conn tr n) as [[x y]|]; [|discriminate]. destruct (x <=? limit); [|discriminate]. congruence. }
  assert (AN : tracker_ann tr n (start_announcement s) = Some (t2, Ok r)). { unfold timeout in T2. destruct (tracker_ann tr n _) as [[x y]|]; [|discriminate]. destruct (x <=? limit - t1); [|discriminate]. congruence. }
  clear H T1 T2. destruct tr as [u|u].
  - cbn [tracker_conn] in CN. injection CN as <- CN. destruct (n_client n) eqn:NC; [|discriminate]. clear CN.
    cbn [tracker_ann] in AN. destruct (n_reply n _) as [[t rep]|] eqn:NR; [|discriminate]. injection AN as -> AN.
    rewrite N.add_0_l. destruct rep as [|status b]; [discriminate|].
    destruct (http_ok n _ _ _ _ _ NC NR AN) as (d & R & S). exists (announce_url u (start_announcement s)), d. split; [apply asked|auto].
  - cbn [tracker_conn tracker_ann] in *. destruct (socket_of u n) as [[t0 [[[b addr] v6]|e]]|] eqn:SO; try discriminate.
    injection CN as ->. destruct (socket_inv _ _ _ _ _ _ SO) as (others & NS & V). specialize (IO _ _ _ _ NS).
    destruct (n_send n) eqn:SN; [|rewrite run_first_fail in AN; discriminate].
    rewrite run_first in AN. cbn [fst snd first_return] in AN.
    destruct (first_return _) as [[t [r'|e]]|] eqn:FR; [|discriminate|discriminate].
    injection AN as <- ->. pose proof (return_time _ _ _ _ _ _ _ IO FR). replace (t1 + (t - t1)) with t by lia.
    apply returned_owed in FR; [|easy]. exists t1, addr, others, v6. auto.
Qed.
(** UDP trackers give no warnings *)
Lemma udp_no_warning limit s u n msg : in_order n -> ~ In (NRecord (LWarning (url_string show_url (TUdp u)) su msg)) (query_log show_url su limit s (TUdp u) n).
Proof.
  intros IO. destruct (tracker_query limit s (TUdp u) n) as [[[made stop] t] res] eqn:Q. pose proof (log_result _ _ _ _ _ _ _ _ IO Q) as H. destruct res as [ps|e].
  - destruct H as (r & (t0 & addr & others & v6 & _ & _ & C) & _ & w & -> & _ & W).
    destruct (proj1 (connecting_reply v6 (n_inputs n)) _ _ _ C) as (d & txn & R). destruct R as (b & l & ws & le & se & _ & _ & _ & _ & E).
    intros X. cbn [app] in X. destruct X as [X|X]; [discriminate|]. apply in_app_iff in X. destruct X as [X|X]; [|destruct X as [X|X]; [discriminate|destruct X as [X|X]; [discriminate|destruct X]]]. apply W in X. destruct X as (m & X & _). rewrite E in X. discriminate.
  - rewrite H. intros [X|[]]. discriminate.
Qed.
End Q.
