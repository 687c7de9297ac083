(** Property C101: a magnet link without trackers, end to end.  [l]: what happens to the
    process's DHT node, in any order (M_App), [h]: what is then observed; call [t] is the
    lookup for the magnet link [m], and [r] is what it returned.  Specification: S_GetDht,
    S_App, S_Dht and those of C93 and C94. *)
From Coq Require Import Sorted.
From Verif Require Import Base M_Net M_Sha1 M_Types M_Utf8 M_Tracker M_Torrent M_Template S_Template M_Save M_Magnet M_Config M_Http M_Session M_DhtMsg M_Dht S_Dht M_App S_App M_Nursery S_Nursery M_Resolve S_Resolve S_Quiet
  M_Get S_Get M_GetDht S_GetDht S_Bencode S_Download S_TorrentFile C_App C_Get P_Download P_App7 P_Session P_Get2 P_Get3 P_GetDht P_GetDht2 P_GetDhtEx.

(** The peers contacted are exactly those DHT nodes named in reply to this lookup's queries
    for the magnet link's info hash, each address once; the nodes put into the torrent file
    are at most eight, nearest first, of those heard of in such replies. *)
Theorem C101_contacts : forall l s h t m f w, Forall wf_pev l -> prun app_new l = Some (s, h) -> looked_up h t m (Found f) w ->
  exists n sid, In (OServe t n sid) h /\ In (OLookup sid (mg_hash m)) (of_node n h) /\
    (forall p, (exists c, to_try m w c /\ snd c = p) <-> named h n sid (mg_hash m) p) /\
    (forall c c', to_try m w c -> to_try m w c' -> contact_addr c = contact_addr c' -> c = c') /\
    exists ns, file_nodes m w = map node_address ns /\ (length ns <= 8)%nat /\ StronglySorted (fun a b => xdist (mg_hash m) a <= xdist (mg_hash m) b) ns /\
      NoDup (map node_address ns) /\ (forall x, In x ns -> heard_of h n sid x).
Proof. exact contacts. Qed.
Print Assumptions C101_contacts.
(** Success: the torrent file has no trackers and those nodes. *)
Theorem C101_success : forall l s h t m r w show_url cfg pid src ts template cut lg ops,
  Forall wf_pev l -> prun app_new l = Some (s, h) -> looked_up h t m r w -> length (mg_hash m) = 20%nat -> length pid = 20%nat ->
  reads src ts -> parse_template src = Ret (Ok template) -> (forall b, concat (cut b) = b) ->
  get_cmd show_url cfg pid m w lg template cut None = Some (Ret (ops, true)) ->
  (exists f, r = Found f) /\
  exists doc d, canonical (VDict d) /\ sha1 (encode (VDict d)) = mg_hash m /\ canonical (VDict doc) /\
    says doc [] (file_nodes m w) (bs "demagnetize 0.7.0") (unix_now (w_clock w)) (VDict d) /\
    let name := match lookup (bs "name") d with Some (VBytes n) => from_utf8_lossy n | _ => bs "NONAME" end in
    let path := expand ts (sanitize name) (show_info_hash (mg_hash m)) in
    (path = bs "-" /\ printed ops = encode (VDict doc) /\ forall f, fs_run f ops = f) \/
    (path <> bs "-" /\ printed ops = [] /\
     forall f, fs_run f ops path = Some (encode (VDict doc)) /\ forall q, q <> path -> fs_run f ops q = f q).
Proof. exact dht_success. Qed.
Print Assumptions C101_success.
(** Failure, no file operation failing: nothing has been written, and every peer named has been tried and
    has failed, or the lookup has failed: no socket could be bound, no bootstrap node has an
    address, or the process is shutting down. *)
Theorem C101_failure : forall l s h t m r w show_url cfg pid template cut lg ops,
  Forall wf_pev l -> prun app_new l = Some (s, h) -> looked_up h t m r w -> length (mg_hash m) = 20%nat -> length pid = 20%nat ->
  (forall b, concat (cut b) = b) -> c_tracker_jobs cfg <> 0 -> c_peer_jobs cfg <> 0 ->
  get_cmd show_url cfg pid m w lg template cut None = Some (Ret (ops, false)) ->
  ops = [] /\
  ((r = CreateFailed /\ In (PCreate t None) l) \/
   (r = HandleFailed /\ ((exists n, In (PResolve n []) l) \/ exists t', In (OBegin t' CShutdown) h)) \/
   (exists f n sid, r = Found f /\ In (OServe t n sid) h /\
      forall p, named h n sid (mg_hash m) p -> exists c conns e, to_try m w c /\ snd c = p /\ contact_info cfg pid (mg_hash m) w c = Ret (conns, SDone (Err e)))).
Proof. exact dht_failure. Qed.
Print Assumptions C101_failure.
(** A magnet link is resolved if one of the peers named serves the metadata (and fewer peers
    than peer-jobs-per-magnet never answer: C94). *)
Theorem C101_resolves_partial : forall l s h t m f w n sid show_url cfg pid src ts template cut s0 lg s1 hT hP,
  Forall wf_pev l -> prun app_new l = Some (s, h) -> looked_up h t m (Found f) w -> In (OServe t n sid) h -> length (mg_hash m) = 20%nat -> length pid = 20%nat ->
  reads src ts -> parse_template src = Ret (Ok template) -> (forall b, concat (cut b) = b) ->
  c_tracker_jobs cfg <> 0 -> c_peer_jobs cfg <> 0 -> (forall c, to_try m w c -> clock_fits cfg w c) ->
  let fetch := contact_fetch cfg pid (mg_hash m) w in
  let hang := hangs cfg pid (mg_hash m) w in
  get_start cfg m w = Some s0 -> get_run cfg pid m w s0 lg = Some (s1, hT, hP) -> never_ends hang hP ->
  quiet M_Net.sa_eqb contact_addr (w_announce w) fetch hang s1 ->
  fewer_hang contact_addr (w_announce w) hang (N.to_nat (c_peer_jobs cfg)) (mg_trackers m) (option_map fst (w_dht w)) ->
  (exists p, named h n sid (mg_hash m) p /\ forall c, to_try m w c -> snd c = p -> serves cfg pid (mg_hash m) w c) ->
  exists ops, get_cmd show_url cfg pid m w lg template cut None = Some (Ret (ops, true)).
Proof. exact dht_resolves. Qed.
Print Assumptions C101_resolves_partial.
(** But once none of the bootstrap nodes could be resolved, every magnet link without trackers
    fails, whatever happens later (C97). *)
Theorem C101_doomed_refuted : forall l s h t m r w n show_url cfg pid lg template cut fail,
  Forall wf_pev l -> prun app_new l = Some (s, h) -> looked_up h t m r w -> In (PResolve n []) l ->
  get_cmd show_url cfg pid m w lg template cut fail = Some (Ret ([], false)).
Proof. exact dht_doomed. Qed.
Print Assumptions C101_doomed_refuted.

(** A lookup asks two nodes, which name one peer; that peer serves the metadata *)
Example C101_nonvacuous : forall show_url, exists template ops,
  let h := seen_of dx_lookup in
  Forall wf_pev dx_lookup /\ prun app_new dx_lookup = Some (state_of dx_lookup, h) /\
  looked_up h 0 crowd_magnet (Found dx_found) dx_world /\ In (OServe 0 0 0) h /\ named h 0 0 (mg_hash crowd_magnet) (snd good_contact) /\
  reads (bs "{hash}") [THash] /\ parse_template (bs "{hash}") = Ret (Ok template) /\
  get_cmd show_url ex_cfg ex_pid crowd_magnet dx_world dx_sched template (fun b => [b]) None = Some (Ret (ops, true)) /\
  file_nodes crowd_magnet dx_world = [dx_node].
Proof.
  intros show_url. assert (RD : reads (bs "{hash}") [THash]) by exact (reads_hash [] [] reads_nil).
  destruct (parse_template (bs "{hash}")) as [[template|]|] eqn:E; [|vm_compute in E; discriminate E|vm_compute in E; discriminate E].
  destruct dx_ran as (W & R & LU & SV & NM). destruct dx_runs as (s0 & s & hT & hP & A1 & A2 & A3 & A4).
  assert (X : exists ops, get_cmd show_url ex_cfg ex_pid crowd_magnet dx_world dx_sched template (fun b => [b]) None = Some (Ret (ops, true))).
  { refine (C101_resolves_partial dx_lookup _ _ 0 crowd_magnet dx_found dx_world 0 0 show_url ex_cfg ex_pid (bs "{hash}") [THash] template (fun b => [b]) s0 dx_sched s hT hP
      W R LU SV _ eq_refl RD E _ _ _ _ A1 A2 A3 A4 _ _).
    - vm_compute; reflexivity.
    - intros b. cbn [concat]. apply app_nil_r.
    - discriminate.
    - discriminate.
    - intros c X now enc plain t0 Y T. cbn [w_meet dx_world ex_world] in Y. injection Y as <- <- <-. discriminate T.
    - exists [good_contact]. split; [reflexivity|]. cbn [filter]. change (mg_hash crowd_magnet) with (sha1 ex_data). unfold hangs. rewrite dx_fetch. cbn. lia.
    - exists (snd good_contact). split; [exact NM|]. intros c X _. apply dx_to_try in X. subst c. exact dx_serves. }
  destruct X as (ops & O). exists template, ops. cbv zeta. split; [exact W|]. split; [exact R|]. split; [exact LU|]. split; [exact SV|]. split; [exact NM|]. split; [exact RD|]. split; [reflexivity|]. split; [exact O|reflexivity].
Qed.
(** Two lookups fail: binding a socket does; resolving the bootstrap nodes does *)
Example C101_failures_nonvacuous :
  let world r := mkWorld (fun _ => Ret []) (dht_found r) (w_meet ex_world) 0 in
  let magnet b := mkMagnet (ex_hash b) None [] in
  Forall wf_pev ex_run /\ prun app_new ex_run = Some (state_of ex_run, seen_of ex_run) /\ looked_up (seen_of ex_run) 0 (magnet x01) CreateFailed (world CreateFailed) /\
  Forall wf_pev ex_fail /\ prun app_new ex_fail = Some (state_of ex_fail, seen_of ex_fail) /\ looked_up (seen_of ex_fail) 0 (magnet x01) HandleFailed (world HandleFailed) /\
  In (PResolve 0 []) ex_fail /\
  forall show_url template cut fail, get_cmd show_url ex_cfg ex_pid (magnet x01) (world CreateFailed) [] template cut fail = Some (Ret ([], false)).
Proof.
  intros world magnet. split; [exact ex_wf|]. split; [vm_compute; reflexivity|]. split; [split; [reflexivity|]; split; [vm_compute; tauto|]; split; [vm_compute; tauto|]; split; reflexivity|].
  split; [repeat constructor|]. split; [vm_compute; reflexivity|]. split; [split; [reflexivity|]; split; [vm_compute; tauto|]; split; [vm_compute; tauto|]; split; reflexivity|].
  split; [cbn; tauto|]. reflexivity.
Qed.
