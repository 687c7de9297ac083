(** Property C99: a query to a tracker from end to end, and 'get' with trackers.
    Specification: S_Announce (with S_Http, S_Udp).  [s]: what is announced; [n]: whatever the
    network does; [limit]: announce-timeout. *)
From Verif Require Import Base BaseFacts M_Net M_Sha1 M_Session M_Tracker M_Udp M_Http M_Announce S_Bencode M_Mse M_Config M_Magnet M_Peer M_Torrent M_Template S_Template M_Save M_Types M_Utf8
  M_GetInfo M_Nursery S_Nursery M_Resolve S_Resolve M_Get S_Get S_Download S_GetInfo S_TorrentFile S_Udp S_Wire S_Http S_UdpSession S_Announce
  P_Udp P_UdpSession P_Announce P_Announce2 P_Session P_GetInfo3 P_Get P_Get2 P_Get3 C_Get S_Quiet.

(** If peers are reported, the tracker has answered in time, after one announcement, they are
    the peers of its answer, in order, and the end is left to be announced. *)
Theorem C99_answered : forall limit s tr n made stop t ps, in_order n ->
  tracker_query limit s tr n = (made, stop, t, Ok ps) ->
  made = [start_announcement s] /\ stop = Some (stop_announcement s) /\ t <= limit /\
  exists r, answered tr (start_announcement s) n t r /\ ps = ar_peers r.
Proof. exact query_ok. Qed.
Print Assumptions C99_answered.
(** If the tracker answers in time its peers are reported, at that time. *)
Theorem C99_answers : forall limit s tr n t r, in_order n -> answers tr (start_announcement s) n t r -> t <= limit ->
  tracker_query limit s tr n = ([start_announcement s], Some (stop_announcement s), t, Ok (ar_peers r)).
Proof. exact answers_query. Qed.
Print Assumptions C99_answers.
(** A failure attributed to the tracker is one it has reported. *)
Theorem C99_refused : forall limit s tr n made stop t m,
  tracker_query limit s tr n = (made, stop, t, Err (GInner (TEFailure m))) -> refused tr (start_announcement s) n m.
Proof. exact query_refused. Qed.
Print Assumptions C99_refused.
(** One reported over HTTP in time is the result. *)
Theorem C99_failure : forall limit s u n t m,
  (forall v, asks u (start_announcement s) v -> exists d, responds n v t d /\ http_failure d m) -> t <= limit ->
  tracker_query limit s (THttp u) n = ([start_announcement s], None, t, Err (GInner (TEFailure m))).
Proof. exact http_refuses. Qed.
Print Assumptions C99_failure.
Theorem C99_no_panic : forall limit s tr n made stop t, tracker_query limit s tr n <> (made, stop, t, Err (GInner TEPanic)).
Proof. exact query_no_panic. Qed.
Print Assumptions C99_no_panic.

(** 'get' contacts the peers in its trackers' answers, and no others, and their addresses are
    well-formed. *)
Theorem C99_contacts : forall cfg pid key port m nets w, (forall k, in_order (nets k)) -> peers_from cfg pid key port m nets w ->
  (forall k tr t r p, nth_error (mg_trackers m) k = Some tr -> answers tr (told cfg pid key port (mg_hash m)) (nets k) t r ->
     t <= ns (c_announce_timeout cfg) -> In p (ar_peers r) -> exists c, snd c = p /\ to_try m w c) /\
  (mg_trackers m <> [] -> forall c, to_try m w c -> wf_ip (sa_ip (contact_addr c)) /\
     exists k tr t r, nth_error (mg_trackers m) k = Some tr /\ answered tr (told cfg pid key port (mg_hash m)) (nets k) t r /\
       t <= ns (c_announce_timeout cfg) /\ In (snd c) (ar_peers r)).
Proof.
  exact (fun cfg pid key port m nets w IO PF => conj (fun k tr t r p NT A LE I => answers_to_try cfg pid key port m nets w k tr t r p IO PF NT A LE I)
    (fun NE c X => conj (to_try_wf cfg pid key port m nets w c IO PF NE X) (to_try_answered cfg pid key port m nets w c IO PF NE X))).
Qed.
Print Assumptions C99_contacts.
(** A magnet link is resolved if one of its trackers answers and one of the peers in the answer
    serves the metadata (and fewer peers than peer-jobs-per-magnet never answer: C94). *)
Theorem C99_resolves_partial : forall show_url cfg pid key port m nets w s0 l s hT hP src ts template cut,
  length (mg_hash m) = 20%nat -> length pid = 20%nat -> mg_trackers m <> [] ->
  (forall k, in_order (nets k)) -> peers_from cfg pid key port m nets w -> no_other m w ->
  reads src ts -> parse_template src = Ret (Ok template) -> (forall b, concat (cut b) = b) ->
  c_tracker_jobs cfg <> 0 -> c_peer_jobs cfg <> 0 -> (forall c, to_try m w c -> clock_fits cfg w c) ->
  let fetch := contact_fetch cfg pid (mg_hash m) w in
  let hang := hangs cfg pid (mg_hash m) w in
  get_start cfg m w = Some s0 -> get_run cfg pid m w s0 l = Some (s, hT, hP) -> never_ends hang hP ->
  quiet sa_eqb contact_addr (w_announce w) fetch hang s ->
  fewer_hang contact_addr (w_announce w) hang (N.to_nat (c_peer_jobs cfg)) (mg_trackers m) (option_map fst (w_dht w)) ->
  (exists k tr t r p, nth_error (mg_trackers m) k = Some tr /\ answers tr (told cfg pid key port (mg_hash m)) (nets k) t r /\
     t <= ns (c_announce_timeout cfg) /\ In p (ar_peers r) /\
     forall c, to_try m w c -> contact_addr c = pr_addr p -> serves cfg pid (mg_hash m) w c) ->
  exists ops, get_cmd show_url cfg pid m w l template cut None = Some (Ret (ops, true)).
Proof.
  intros show_url cfg pid key port m nets w s0 l s hT hP src ts template cut LH LP NE IO PF NO RD PT CUT HT HP CF fetch hang GS GR NEV QU FH
    (k & tr & t & r & p & NT & A & LE & I & SV).
  destruct (answers_to_try _ _ _ _ _ _ _ _ _ _ _ _ IO PF NT A LE I) as (c & <- & X).
  refine (C94_resolves_partial show_url cfg pid m w s0 l s hT hP src ts template cut LH LP (fun c X => to_try_wf cfg pid key port m nets w c IO PF NE X)
    (no_nodes m w NE) RD PT CUT HT HP (no_tracker_panics cfg pid key port m nets w PF NO) CF GS GR NEV QU FH _).
  exists c. split; [exact X|]. intros c' X' E. exact (SV c' X' E).
Qed.
Print Assumptions C99_resolves_partial.

(** A UDP tracker: the connect request is sent twice, the first reply answers it, the second
    the announcement, with one peer.  An HTTP tracker that answers any request. *)
Definition ex_peer := mkPeer (mkSA (V4 2130706433) 6881) None false.
Definition ex_net := mkNet true (fun v => Some (ns 2, RResponse 200 (Some (bs "d8:intervali1800e5:peers6:" ++ [x7f; x00; x00; x01; x1a; xe1] ++ bs "e"))))
  (fun host port => Some (ns 1, (Some [mkSA (V4 7) port], true, true))) 5 true
  [mkIn (ns 16) InTimer 0 true;
   mkIn (ns 20) (InRecv (Some (be_bytes 4 0 ++ be_bytes 4 5 ++ be_bytes 8 99))) 6 true;
   mkIn (ns 21) (InRecv (Some (be_bytes 4 1 ++ be_bytes 4 6 ++ be_bytes 4 1800 ++ be_bytes 4 3 ++ be_bytes 4 26 ++ [x7f; x00; x00; x01; x1a; xe1]))) 0 true].
Lemma ex_in_order : in_order ex_net.
Proof. intros host port t0 x [= <- _]. repeat constructor; vm_compute; discriminate. Qed.
Example C99_udp_nonvacuous : forall a u,
  answers (TUdp u) a ex_net (ns 21) (mkResp 1800 [ex_peer] None None None None None (Some 3) (Some 26)).
Proof.
  intros a u. split.
  - exists (ns 1), (mkSA (V4 7) (uu_port u)), [], false. split; [reflexivity|]. split; [exact I|].
    apply con_wait; [discriminate|]. eapply con_reply; [reflexivity|apply connect_success; vm_compute; reflexivity|].
    eapply (ann_reply false 6 _ (mkIn (ns 21) _ 0 true)); [reflexivity|]. apply announce_success. vm_compute. reflexivity.
  - split; [reflexivity|]. repeat constructor.
Qed.
Example C99_http_nonvacuous : forall a u, answers (THttp u) a ex_net (ns 2) (mkResp 1800 [ex_peer] None None None None None None None).
Proof.
  intros a u v _. destruct (http_ok ex_net v (ns 2) 200 (Some (bs "d8:intervali1800e5:peers6:" ++ [x7f; x00; x00; x01; x1a; xe1] ++ bs "e"))
    (mkResp 1800 [ex_peer] None None None None None None None) eq_refl eq_refl) as (d & R & S); [vm_compute; reflexivity|eauto].
Qed.
(** The tracker and the peer of the example of C94 *)
Example C99_resolves_nonvacuous : forall port,
  peers_from ex_cfg ex_pid 7 port ex_magnet (fun _ => ex_net) ex_world /\
  exists k tr t r, nth_error (mg_trackers ex_magnet) k = Some tr /\ answers tr (told ex_cfg ex_pid 7 port (mg_hash ex_magnet)) ex_net t r /\
     t <= ns (c_announce_timeout ex_cfg) /\ In (snd good_contact) (ar_peers r) /\
     forall c, to_try ex_magnet ex_world c -> contact_addr c = pr_addr (snd good_contact) -> serves ex_cfg ex_pid (mg_hash ex_magnet) ex_world c.
Proof.
  intros port. split.
  - intros [|[|k]] tr; [|discriminate|discriminate]. intros [= <-]. exists [good_contact]. split; [reflexivity|].
    unfold tracker_job. rewrite (answers_query _ _ _ _ _ _ ex_in_order (C99_udp_nonvacuous _ _)); [reflexivity|vm_compute; discriminate].
  - exists 0%nat. do 3 eexists. split; [reflexivity|]. split; [apply C99_udp_nonvacuous|]. split; [vm_compute; discriminate|]. split; [left; reflexivity|].
    intros c X _. exact (proj2 (proj2 (proj1 (proj2 (proj2 C94_nonvacuous)) c X))).
Qed.
