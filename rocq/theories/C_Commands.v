(** Property C95: the commands query-tracker, query-dht and query-peer.  Specification:
    S_Commands (the output), S_Get, S_TorrentFile, S_Template. *)
From Verif Require Import Base BaseFacts M_Net M_Sha1 M_Types M_Utf8 M_Torrent M_Template S_Template M_Save M_Tracker M_Json M_SockText M_Peer M_Session M_Mse M_Connect M_GetInfo M_Write M_Config M_Magnet M_Get S_Get
  M_Commands S_Commands S_IpText S_Json S_Utf8 S_Lossy S_SockText S_Bencode S_Download S_TorrentFile S_GetInfo P_Download P_Session P_GetInfo3 P_Get3 P_Write4 P_Commands.

(** The output of query-tracker and query-dht can be taken apart in one way only. *)
Theorem C95_lines_unique : forall out a b, lines_of out a -> lines_of out b -> a = b.
Proof. intros out a b (A & FA) (B & FB). subst out. exact (lines_inj a b B FA FB). Qed.
Print Assumptions C95_lines_unique.

(** query-tracker: every announcement says about encryption what the flags, or else the
    configuration, demand; success means that the tracker has replied in time, and the
    peers in its reply are listed, and that the announcement will be taken back; otherwise
    nothing is printed. *)
Theorem C95_query_tracker : forall E cfg pid key port json require_crypto support_crypto no_crypto ih (conn : timed (res E unit)) ann l stop out ok,
  query_tracker cfg pid key port json require_crypto support_crypto no_crypto ih conn ann = (l, stop, out, ok) ->
  (forall a, In a l \/ stop = Some a -> an_hash a = ih /\ an_pid a = pid /\
     an_crypto a = if require_crypto then TCRequired else if support_crypto then TCSupported else if no_crypto then TCPlain
                   else match c_encrypt cfg with CPAlways => TCRequired | CPNever => TCPlain | _ => TCSupported end) /\
  (ok = false -> out = [] /\ stop = None) /\
  (ok = true -> exists a t1 t2 r,
     l = [a] /\ an_event a = EvStarted /\
     conn = Some (t1, Ok tt) /\ ann a = Some (t2, Ok r) /\ t1 + t2 <= ns (c_announce_timeout cfg) /\
     (exists z, stop = Some z /\ an_event z = EvStopped) /\
     (Forall (fun p => wf_sa (pr_addr p)) (ar_peers r) -> lists json out (ar_peers r))).
Proof. exact qt_spec. Qed.
Print Assumptions C95_query_tracker.
Theorem C95_query_tracker_success : forall E cfg pid key port json require_crypto support_crypto no_crypto ih (conn : timed (res E unit)) ann t1,
  conn = Some (t1, Ok tt) ->
  (forall a, an_event a = EvStarted -> an_hash a = ih -> exists t2 r, ann a = Some (t2, Ok r) /\ t1 + t2 <= ns (c_announce_timeout cfg)) ->
  exists l stop out, query_tracker cfg pid key port json require_crypto support_crypto no_crypto ih conn ann = (l, stop, out, true).
Proof. exact qt_success. Qed.
Print Assumptions C95_query_tracker_success.

(** query-dht: success means that peers have been found, and they are listed. *)
Theorem C95_query_dht : forall E json (r : res E (list peer * list sockaddr)) out ok, query_dht json r = (out, ok) ->
  (ok = true <-> exists peers nodes, r = Ok (peers, nodes) /\ peers <> []) /\
  (ok = false -> out = []) /\
  (forall peers nodes, r = Ok (peers, nodes) -> Forall (fun p => wf_sa (pr_addr p)) peers -> lists json out peers).
Proof. exact qd_spec. Qed.
Print Assumptions C95_query_dht.

(** query-peer: the torrent file, without trackers and nodes, for metadata with the hash asked
    for, at the path the template denotes *)
Theorem C95_query_peer_success : forall cfg pid ih p src ts template cut clock encrypt prefer no now enc plain l ops,
  length ih = 20%nat -> length pid = 20%nat -> wf_ip (sa_ip (pr_addr p)) ->
  reads src ts -> parse_template src = Ret (Ok template) -> (forall b, concat (cut b) = b) ->
  query_peer cfg pid encrypt prefer no template p ih now enc plain clock cut None = Ret (l, Some (ops, true)) ->
  exists doc d, canonical (VDict d) /\ sha1 (encode (VDict d)) = ih /\ canonical (VDict doc) /\
    says doc [] [] (bs "demagnetize 0.7.0") (unix_now clock) (VDict d) /\
    let name := match lookup (bs "name") d with Some (VBytes n) => from_utf8_lossy n | _ => bs "NONAME" end in
    let path := expand ts (sanitize name) (show_info_hash ih) in
    (path = bs "-" /\ printed ops = encode (VDict doc) /\ forall f, fs_run f ops = f) \/
    (path <> bs "-" /\ printed ops = [] /\
     forall f, fs_run f ops path = Some (encode (VDict doc)) /\ forall q, q <> path -> fs_run f ops q = f q).
Proof.
  intros cfg pid ih p src ts template cut clock encrypt prefer no now enc plain l ops LH LP W RD PT CUT H.
  exact (qp_success cfg pid ih p src ts template cut clock encrypt prefer no now enc plain LH LP W RD PT CUT l ops H).
Qed.
Print Assumptions C95_query_peer_success.
(** Failure: nothing has been written, and fetching has failed; or a file operation has, and
    what has been done is a beginning of what success does. *)
Theorem C95_query_peer_failure : forall cfg pid ih p src ts template cut clock encrypt prefer no now enc plain fail l ops,
  length ih = 20%nat -> length pid = 20%nat -> wf_ip (sa_ip (pr_addr p)) ->
  reads src ts -> parse_template src = Ret (Ok template) -> (forall b, concat (cut b) = b) ->
  query_peer cfg pid encrypt prefer no template p ih now enc plain clock cut fail = Ret (l, Some (ops, false)) ->
  (ops = [] /\ query_peer cfg pid encrypt prefer no template p ih now enc plain clock cut None = Ret (l, Some ([], false))) \/
  exists k all, fail = Some k /\ query_peer cfg pid encrypt prefer no template p ih now enc plain clock cut None = Ret (l, Some (all, true)) /\ ops = firstn k all.
Proof.
  intros cfg pid ih p src ts template cut clock encrypt prefer no now enc plain fail l ops LH LP W RD PT CUT H. destruct fail as [k|].
  - destruct (qp_save_failure cfg pid ih p src ts template cut clock encrypt prefer no now enc plain LH LP W RD PT CUT k l ops false H) as (_ & [(A & B)|(all & A & B)]); [left|right]; eauto 6.
  - left. destruct (qp_failure cfg pid ih p src ts template cut clock encrypt prefer no now enc plain LH LP W RD PT CUT l ops H) as (-> & _). auto.
Qed.
Print Assumptions C95_query_peer_failure.
(** The flags decide about the kind of connection, whatever the configuration. *)
Theorem C95_query_peer_flags : forall cfg pid ih p template cut clock encrypt prefer no now enc plain fail l r,
  query_peer cfg pid encrypt prefer no template p ih now enc plain clock cut fail = Ret (l, r) ->
  (encrypt = true -> l = [true]) /\
  (encrypt = false -> prefer = true -> l = [true] \/ l = [true; false]) /\
  (encrypt = false -> prefer = false -> no = true -> ~ In true l) /\
  (pr_crypto p = true -> ~ In false l).
Proof. intros cfg pid ih p template cut clock encrypt prefer no now enc plain fail l r. exact (qp_kinds cfg pid ih p template cut clock encrypt prefer no now enc plain fail l r). Qed.
Print Assumptions C95_query_peer_flags.
Theorem C95_query_peer_no_panic : forall cfg pid ih p src ts template cut clock encrypt prefer no now enc plain fail,
  length ih = 20%nat -> length pid = 20%nat -> wf_ip (sa_ip (pr_addr p)) ->
  reads src ts -> parse_template src = Ret (Ok template) -> (forall b, concat (cut b) = b) ->
  (forall t0, d_tcp (fst enc) = Some (t0, Ok tt) -> (now + t0) / 1000000000 + c_dh_timeout cfg < 2 ^ 63) ->
  query_peer cfg pid encrypt prefer no template p ih now enc plain clock cut fail <> Panic.
Proof.
  intros cfg pid ih p src ts template cut clock encrypt prefer no now enc plain fail LH LP W RD PT CUT CF.
  exact (qp_no_panic cfg pid ih p src ts template cut clock encrypt prefer no now enc plain LH LP W RD PT CUT fail CF).
Qed.
Print Assumptions C95_query_peer_no_panic.

(** C41 for a fetch as a whole: the connections made to a peer, writes to it succeeding or not *)
Theorem C41_fetch : forall ih pid i override p requires limit secs now enc plain l s,
  get_info ih pid i override p requires limit secs now enc plain = Ret (l, s) ->
  (requires = true -> ~ In false l) /\
  (override = Some Encrypt \/ (override = None /\ p = CPAlways) -> l = [true]) /\
  (override = Some Plain \/ (override = None /\ p = CPNever) -> l = if requires then [] else [false]) /\
  (override = None /\ p = CPIfRequired -> l = if requires then [true] else [false]) /\
  (override = Some Prefer \/ (override = None /\ p = CPPrefer) -> l = [true] \/ (l = [true; false] /\ requires = false)).
Proof. exact get_info_kinds. Qed.
Print Assumptions C41_fetch.
Theorem C41_fetch_writes : forall ih pid i override p requires limit secs now enc plain l s,
  get_info_w ih pid i override p requires limit secs now enc plain = Ret (l, s) ->
  (requires = true -> ~ In false l) /\
  (override = Some Encrypt \/ (override = None /\ p = CPAlways) -> l = [true]) /\
  (override = Some Plain \/ (override = None /\ p = CPNever) -> l = if requires then [] else [false]) /\
  (override = None /\ p = CPIfRequired -> l = if requires then [true] else [false]) /\
  (override = Some Prefer \/ (override = None /\ p = CPPrefer) -> l = [true] \/ (l = [true; false] /\ requires = false)).
Proof. exact get_info_w_kinds. Qed.
Print Assumptions C41_fetch_writes.

Example C95_nonvacuous :
  listing false [mkPeer (mkSA (V4 16909060) 80) None false; mkPeer (mkSA (V6 1) 6881) None true] = bs "1.2.3.4:80" ++ [x0a] ++ bs "[::1]:6881" ++ [x0a] /\
  query_dht true (Ok ([], [mkSA (V4 1) 1]) : res unit _) = ([], false) /\
  (let r := mkResp 60 [mkPeer (mkSA (V4 16909060) 80) None false] None None None None None None None in
   let '(l, stop, out, ok) := query_tracker (E := unit) ex_cfg ex_pid 7 6881 false true false false (repeat "h"%byte 20) (Some (0, Ok tt)) (fun _ => Some (ns 30, Ok r)) in
   map an_crypto l = [TCRequired] /\ out = bs "1.2.3.4:80" ++ [x0a] /\ ok = true).
Proof. vm_compute. auto 10. Qed.
Example C95_query_peer_nonvacuous :
  exists template l ops,
    reads (bs "{hash}") [THash] /\ parse_template (bs "{hash}") = Ret (Ok template) /\
    query_peer ex_cfg ex_pid false false true template (mkPeer (mkSA (V4 2130706433) 6881) None false) (sha1 ex_data) 0
      (mkDial None [] [] 0 [], []) (mkDial (Some (ns 1, Ok tt)) (ex_reads 0) [] 0 [], []) 1700000000000000000 (fun b => [b]) None = Ret (l, Some (ops, true)).
Proof.
  assert (RD : reads (bs "{hash}") [THash]) by exact (reads_hash [] [] reads_nil).
  destruct (parse_template (bs "{hash}")) as [[template|]|] eqn:E; [|vm_compute in E; discriminate E|vm_compute in E; discriminate E].
  exists template, [false].
  destruct (qp_saved ex_pid (sha1 ex_data) (bs "{hash}") [THash] template (fun b => [b]) 1700000000000000000 ltac:(vm_compute; reflexivity) eq_refl RD E ltac:(intros b; cbn [concat]; apply app_nil_r) (mkTI (sha1 ex_data) ex_data) (eq_refl (sha1 ex_data)) (proj1 ex_session))
    as (doc & d & ops & _ & _ & _ & _ & SV & _). exists ops. split; [exact RD|]. split; [reflexivity|].
  unfold query_peer. unfold ex_cfg at 1 2 3. cbn [c_encrypt c_handshake_timeout c_dh_timeout pr_addr pr_crypto sa_ip peer_flags].
  rewrite get_info_w_nil, (get_info_plain (sha1 ex_data) ex_pid (V4 2130706433) ex_data eq_refl ltac:(vm_compute; reflexivity) (proj1 ex_session) eq_refl ltac:(vm_compute; discriminate)
      (Some Plain) CPNever (ns 60) 30 0 _ _ (ns 1)); [|auto|reflexivity|unfold ns; lia|exact (ex_plain 0)].
  rewrite SV. reflexivity.
Qed.
