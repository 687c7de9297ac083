(** Property C120: the log of a query to a tracker.  Specification: S_TrackerLog, S_Announce.  [s]: what is
    announced; [n]: whatever the network does; [limit]: announce-timeout; [su]: the torrent as it is shown. *)
From Verif Require Import Base M_Net M_Session M_Peer M_Tracker M_Udp M_Http M_Announce M_Mse M_Config M_Get M_Log M_TrackerLog S_Bencode S_Announce S_TrackerLog P_Announce P_TrackerLog C_Announce.

(** If the tracker answers in time, the log says that it was asked, gives its warning, if any, and then the
    number of the peers it named and the peers. *)
Theorem C120_answers : forall show_url su limit s tr n t r, in_order n -> answers tr (start_announcement s) n t r -> t <= limit ->
  answer_logged (url_string show_url tr) su r (query_log show_url su limit s tr n).
Proof. exact log_answers. Qed.
Print Assumptions C120_answers.
(** Peers are logged only if they are the result of the query and in the tracker's answer; of a query that
    fails the log only says that the tracker was asked. *)
Theorem C120_result : forall show_url su limit s tr n made stop t res, in_order n -> tracker_query limit s tr n = (made, stop, t, res) ->
  match res with
  | Ok ps => exists r, answered tr (start_announcement s) n t r /\ ps = ar_peers r /\
      answer_logged (url_string show_url tr) su r (query_log show_url su limit s tr n)
  | Err _ => query_log show_url su limit s tr n = [NRequesting (url_string show_url tr) su]
  end.
Proof. exact log_result. Qed.
Print Assumptions C120_result.
(** A UDP tracker, which cannot warn, is not said to. *)
Theorem C120_udp : forall show_url su limit s u n msg, in_order n ->
  ~ In (NRecord (LWarning (url_string show_url (TUdp u)) su msg)) (query_log show_url su limit s (TUdp u) n).
Proof. exact udp_no_warning. Qed.
Print Assumptions C120_udp.
(** The HTTP tracker of C99's example, and one that answers with a warning. *)
Definition warn_net := mkNet true (fun v => Some (ns 2, RResponse 200 (Some (bs "d8:intervali1800e5:peers6:" ++ [x7f; x00; x00; x01; x1a; xe1] ++ bs "15:warning message4:busye"))))
  (fun _ _ => None) 5 true [].
Example C120_nonvacuous : forall a u,
  in_order ex_net /\ answers (THttp u) a ex_net (ns 2) (mkResp 1800 [ex_peer] None None None None None None None) /\
  in_order warn_net /\ answers (THttp u) a warn_net (ns 2) (mkResp 1800 [ex_peer] (Some (bs "busy")) None None None None None None) /\
  map (note_text (fun _ => true)) (query_log (fun _ => bs "http://t.example/") (mkSubject None (repeat x00 20)) (ns 30) (mkTS (repeat x00 20) None CPAlways [] 0 0 0) (THttp u) warn_net) =
    [bs "Requesting peers for 0000000000000000000000000000000000000000 from <Tracker http://t.example/>";
     bs "<Tracker http://t.example/> replied with warning in response to 0000000000000000000000000000000000000000 announcement: " ++ dq ++ bs "busy" ++ dq;
     bs "<Tracker http://t.example/> returned 1 peers for 0000000000000000000000000000000000000000";
     bs "<Tracker http://t.example/> returned peers for 0000000000000000000000000000000000000000: <Peer 127.0.0.1:6881>"].
Proof.
  intros a u. split; [exact ex_in_order|]. split; [apply C99_http_nonvacuous|]. split; [intros ? ? ? ? [=]|]. split; [|vm_compute; reflexivity].
  intros v _. destruct (http_ok warn_net v (ns 2) 200 (Some (bs "d8:intervali1800e5:peers6:" ++ [x7f; x00; x00; x01; x1a; xe1] ++ bs "15:warning message4:busye"))
    (mkResp 1800 [ex_peer] (Some (bs "busy")) None None None None None None) eq_refl eq_refl) as (d & R & S); [vm_compute; reflexivity|eauto].
Qed.
