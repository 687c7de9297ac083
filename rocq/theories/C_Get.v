(** Properties C93, C94: the command 'get', from the magnet link to the exit status.
    Specification: S_Get, S_Quiet, S_Bencode, S_TorrentFile (what the file says), S_Template,
    S_GetInfo.  [l] is any order in which the things the tasks do can happen, [w] anything
    the trackers, the DHT and the peers may do, [cut] any way in which the system's write
    calls may divide the file. *)
From Verif Require Import Base BaseFacts M_Net M_Sha1 M_Tracker M_Torrent M_Template S_Template M_Save M_Types M_Utf8 M_Udp M_Http M_Magnet M_Peer M_Session M_Mse M_GetInfo M_Config
  M_Nursery S_Nursery M_Resolve S_Resolve S_Quiet M_Get S_Get S_Bencode S_Download S_GetInfo S_TorrentFile P_Download P_Session P_GetInfo3 P_Write4 P_Get P_Get2 P_Get3.

(** Success: metadata with the hash in the magnet link has been fetched, and the file, or
    the output, is the torrent file for it. *)
Theorem C93_success : forall show_url cfg pid m w s ts template cut l ops,
  length (mg_hash m) = 20%nat -> length pid = 20%nat -> (forall c, to_try m w c -> wf_ip (sa_ip (contact_addr c))) ->
  Forall wf_sa (file_nodes m w) -> reads s ts -> parse_template s = Ret (Ok template) -> (forall b, concat (cut b) = b) ->
  get_cmd show_url cfg pid m w l template cut None = Some (Ret (ops, true)) ->
  exists doc d, canonical (VDict d) /\ sha1 (encode (VDict d)) = mg_hash m /\ canonical (VDict doc) /\
    says doc (map (url_string show_url) (mg_trackers m)) (file_nodes m w) (bs "demagnetize 0.7.0") (unix_now (w_clock w)) (VDict d) /\
    let name := match lookup (bs "name") d with Some (VBytes n) => from_utf8_lossy n | _ => bs "NONAME" end in
    let path := expand ts (sanitize name) (show_info_hash (mg_hash m)) in
    (path = bs "-" /\ printed ops = encode (VDict doc) /\ forall f, fs_run f ops = f) \/
    (path <> bs "-" /\ printed ops = [] /\
     forall f, fs_run f ops path = Some (encode (VDict doc)) /\ forall q, q <> path -> fs_run f ops q = f q).
Proof. intros show_url cfg pid m w s ts template cut l ops LH LP WF FN RD PT CUT H. exact (get_success show_url cfg pid m w LH LP WF s ts template cut RD PT CUT l ops FN H). Qed.
Print Assumptions C93_success.
(** Failure without a failing file operation: nothing has been written, and every address
    there was to try has been tried and has failed (or there were no trackers and the DHT
    lookup failed). *)
Theorem C93_failure : forall show_url cfg pid m w template cut l ops,
  length (mg_hash m) = 20%nat -> length pid = 20%nat -> (forall b, concat (cut b) = b) ->
  c_tracker_jobs cfg <> 0 -> c_peer_jobs cfg <> 0 -> (forall k, w_announce w k <> Panic) ->
  get_cmd show_url cfg pid m w l template cut None = Some (Ret (ops, false)) ->
  ops = [] /\
  ((mg_trackers m = [] /\ w_dht w = None) \/
   (forall c, to_try m w c -> exists c' conns e, to_try m w c' /\ contact_addr c' = contact_addr c /\
      contact_info cfg pid (mg_hash m) w c' = Ret (conns, SDone (Err e)))).
Proof. intros show_url cfg pid m w template cut l ops LH LP CUT HT HP NP H. exact (get_failure show_url cfg pid m w LH LP [] template cut CUT l ops HT HP NP H). Qed.
Print Assumptions C93_failure.
(** Where the metadata comes from: it is that which one of the peers to try serves, as
    S_GetInfo says, ... *)
Theorem C93_source : forall show_url cfg pid m w s ts template cut l ops,
  length (mg_hash m) = 20%nat -> length pid = 20%nat -> (forall c, to_try m w c -> wf_ip (sa_ip (contact_addr c))) ->
  Forall wf_sa (file_nodes m w) -> reads s ts -> parse_template s = Ret (Ok template) -> (forall b, concat (cut b) = b) ->
  (forall c, to_try m w c -> tcp_errors w c) ->
  get_cmd show_url cfg pid m w l template cut None = Some (Ret (ops, true)) ->
  exists doc d c, to_try m w c /\ serves_meta cfg pid (mg_hash m) w c (encode (VDict d)) /\ canonical (VDict d) /\ canonical (VDict doc) /\
    says doc (map (url_string show_url) (mg_trackers m)) (file_nodes m w) (bs "demagnetize 0.7.0") (unix_now (w_clock w)) (VDict d) /\
    let name := match lookup (bs "name") d with Some (VBytes n) => from_utf8_lossy n | _ => bs "NONAME" end in
    let path := expand ts (sanitize name) (show_info_hash (mg_hash m)) in
    (path = bs "-" /\ printed ops = encode (VDict doc) /\ forall f, fs_run f ops = f) \/
    (path <> bs "-" /\ printed ops = [] /\
     forall f, fs_run f ops path = Some (encode (VDict doc)) /\ forall q, q <> path -> fs_run f ops q = f q).
Proof. intros show_url cfg pid m w s ts template cut l ops LH LP WF FN RD PT CUT T H. exact (get_source show_url cfg pid m w LH LP WF s ts template cut RD PT CUT l ops FN T H). Qed.
Print Assumptions C93_source.
(** ... so 'get' cannot succeed if none does; and it does not give up if one does whose address
    no other peer to try has. *)
Theorem C93_verdict : forall show_url cfg pid m w s ts template cut l ops b,
  length (mg_hash m) = 20%nat -> length pid = 20%nat -> (forall c, to_try m w c -> wf_ip (sa_ip (contact_addr c))) ->
  Forall wf_sa (file_nodes m w) -> reads s ts -> parse_template s = Ret (Ok template) -> (forall b, concat (cut b) = b) ->
  (forall c, to_try m w c -> tcp_errors w c) ->
  c_tracker_jobs cfg <> 0 -> c_peer_jobs cfg <> 0 -> (forall k, w_announce w k <> Panic) ->
  (forall c c', to_try m w c -> to_try m w c' -> contact_addr c = contact_addr c' -> c = c') ->
  get_cmd show_url cfg pid m w l template cut None = Some (Ret (ops, b)) ->
  (b = true <-> exists c, to_try m w c /\ serves cfg pid (mg_hash m) w c).
Proof. intros show_url cfg pid m w s ts template cut l ops b LH LP WF FN RD PT CUT T HT HP NP U H. exact (get_verdict show_url cfg pid m w LH LP WF s ts template cut RD PT CUT l ops b FN T HT HP NP U H). Qed.
Print Assumptions C93_verdict.
(** If a file operation fails, the status is failure, and what has been done is what a
    success does up to the failing operation. *)
Theorem C93_save_failure : forall show_url cfg pid m w s ts template cut l k ops b,
  length (mg_hash m) = 20%nat -> length pid = 20%nat -> (forall c, to_try m w c -> wf_ip (sa_ip (contact_addr c))) ->
  Forall wf_sa (file_nodes m w) -> reads s ts -> parse_template s = Ret (Ok template) -> (forall b, concat (cut b) = b) ->
  get_cmd show_url cfg pid m w l template cut (Some k) = Some (Ret (ops, b)) ->
  b = false /\
  ((get_cmd show_url cfg pid m w l template cut None = Some (Ret ([], false)) /\ ops = []) \/
   exists all, get_cmd show_url cfg pid m w l template cut None = Some (Ret (all, true)) /\ ops = firstn k all).
Proof. intros show_url cfg pid m w s ts template cut l k ops b LH LP WF FN RD PT CUT H. exact (get_fail_some show_url cfg pid m w LH LP WF s ts template cut RD PT CUT l k ops b FN H). Qed.
Print Assumptions C93_save_failure.
(** The command does not panic (in this crate's code). *)
Theorem C93_no_panic : forall show_url cfg pid m w s ts template cut l fail,
  length (mg_hash m) = 20%nat -> length pid = 20%nat -> (forall c, to_try m w c -> wf_ip (sa_ip (contact_addr c))) ->
  Forall wf_sa (file_nodes m w) -> reads s ts -> parse_template s = Ret (Ok template) -> (forall b, concat (cut b) = b) ->
  (forall c, to_try m w c -> clock_fits cfg w c) ->
  get_cmd show_url cfg pid m w l template cut fail <> Some Panic.
Proof. intros show_url cfg pid m w s ts template cut l fail LH LP WF FN RD PT CUT CF. exact (get_no_panic show_url cfg pid m w LH LP WF s ts template cut RD PT CUT l fail FN CF). Qed.
Print Assumptions C93_no_panic.

(** C94.  A magnet link is resolved if one of the peers to try serves the metadata: so it is
    if fewer peers than peer-jobs-per-magnet never answer (contacts of the same address count
    as one peer; of those, which is tried is open, so all must serve). *)
Theorem C94_resolves_partial : forall show_url cfg pid m w s0 l s hT hP src ts template cut,
  length (mg_hash m) = 20%nat -> length pid = 20%nat -> (forall c, to_try m w c -> wf_ip (sa_ip (contact_addr c))) ->
  Forall wf_sa (file_nodes m w) -> reads src ts -> parse_template src = Ret (Ok template) -> (forall b, concat (cut b) = b) ->
  c_tracker_jobs cfg <> 0 -> c_peer_jobs cfg <> 0 -> (forall k, w_announce w k <> Panic) -> (forall c, to_try m w c -> clock_fits cfg w c) ->
  let fetch := contact_fetch cfg pid (mg_hash m) w in
  let hang := hangs cfg pid (mg_hash m) w in
  (* an execution, to its end *)
  get_start cfg m w = Some s0 -> get_run cfg pid m w s0 l = Some (s, hT, hP) -> never_ends hang hP ->
  quiet sa_eqb contact_addr (w_announce w) fetch hang s ->
  fewer_hang contact_addr (w_announce w) hang (N.to_nat (c_peer_jobs cfg)) (mg_trackers m) (option_map fst (w_dht w)) ->
  (exists c, to_try m w c /\ forall c', to_try m w c' -> contact_addr c' = contact_addr c -> serves cfg pid (mg_hash m) w c') ->
  exists ops, get_cmd show_url cfg pid m w l template cut None = Some (Ret (ops, true)).
Proof.
  intros show_url cfg pid m w s0 l s hT hP src ts template cut LH LP WF FN RD PT CUT HT HP NP CF fetch hang.
  exact (get_resolves show_url cfg pid m w s0 l s hT hP template cut src ts LH LP WF FN RD PT CUT HT HP NP CF).
Qed.
Print Assumptions C94_resolves_partial.
(** Without that bound it is not: for every such configuration, as many peers as
    peer-jobs-per-magnet that accept the connection, complete the handshake and then fall
    silent keep the command waiting for ever, although another peer serves the metadata. *)
Theorem C94_blocked_refuted : forall cfg,
  c_encrypt cfg = CPNever -> c_handshake_timeout cfg = 60 -> 0 < c_peer_jobs cfg -> c_peer_jobs cfg <= 16777216 ->
  let n := N.to_nat (c_peer_jobs cfg) in
  let pid := bs "-DM0070-aaaaaaaaaaaa" in
  let w := crowd n in
  let m := crowd_magnet in
  let fetch := contact_fetch cfg pid (mg_hash m) w in
  let hang := hangs cfg pid (mg_hash m) w in
  length (mg_hash m) = 20%nat /\
  (forall c, to_try m w c -> wf_ip (sa_ip (contact_addr c)) /\ clock_fits cfg w c) /\
  (forall k, w_announce w k <> Panic) /\
  to_try m w good_contact /\ (forall c', to_try m w c' -> contact_addr c' = contact_addr good_contact -> serves cfg pid (mg_hash m) w c') /\
  fewer_hang contact_addr (w_announce w) hang (S n) (mg_trackers m) (option_map fst (w_dht w)) /\
  exists s0 l s hT hP, get_start cfg m w = Some s0 /\ get_run cfg pid m w s0 l = Some (s, hT, hP) /\ never_ends hang hP /\
    quiet sa_eqb contact_addr (w_announce w) fetch hang s /\ r_main s = MLoop.
Proof. exact crowd_blocks. Qed.
Print Assumptions C94_blocked_refuted.

(** One UDP tracker, one peer, one job at a time *)
Lemma ex_to_try c : to_try ex_magnet ex_world c -> c = good_contact.
Proof.
  intros [(E & _)|(k & l & _ & E & X)]; [discriminate E|]. cbn [w_announce ex_world] in E. injection E as <-. destruct X as [X|[]]. auto.
Qed.
Example C94_nonvacuous :
  length (mg_hash ex_magnet) = 20%nat /\ length ex_pid = 20%nat /\
  (forall c, to_try ex_magnet ex_world c -> wf_ip (sa_ip (contact_addr c)) /\ clock_fits ex_cfg ex_world c /\ serves ex_cfg ex_pid (mg_hash ex_magnet) ex_world c) /\
  Forall wf_sa (file_nodes ex_magnet ex_world) /\ c_tracker_jobs ex_cfg <> 0 /\ c_peer_jobs ex_cfg <> 0 /\ (forall k, w_announce ex_world k <> Panic) /\
  to_try ex_magnet ex_world good_contact /\
  fewer_hang contact_addr (w_announce ex_world) (hangs ex_cfg ex_pid (mg_hash ex_magnet) ex_world) (N.to_nat (c_peer_jobs ex_cfg)) (mg_trackers ex_magnet) None /\
  (exists s0 s hT hP, get_start ex_cfg ex_magnet ex_world = Some s0 /\ get_run ex_cfg ex_pid ex_magnet ex_world s0 ex_sched = Some (s, hT, hP) /\
     never_ends (hangs ex_cfg ex_pid (mg_hash ex_magnet) ex_world) hP /\
     quiet sa_eqb contact_addr (w_announce ex_world) (contact_fetch ex_cfg ex_pid (mg_hash ex_magnet) ex_world) (hangs ex_cfg ex_pid (mg_hash ex_magnet) ex_world) s).
Proof.
  split; [vm_compute; reflexivity|]. split; [reflexivity|]. split.
  { intros c X. apply ex_to_try in X. subst c. split; [vm_compute; reflexivity|]. split.
    - intros now enc plain t0 E T. cbn [w_meet ex_world] in E. injection E as <- <- <-. discriminate T.
    - change (mg_hash ex_magnet) with (sha1 ex_data). exists ex_data.
      split; [exact (proj1 ex_session)|]. split; [reflexivity|]. split; [vm_compute; discriminate|].
      exists 0, (mkDial None [] [] 0 [], []), (mkDial (Some (ns 1, Ok tt)) (ex_reads 0) [] 0 [], []), [false]. split; [reflexivity|]. apply obtainable_nil. left. split; [reflexivity|].
      split; [split; [reflexivity|auto]|]. exists (ns 1). split; [reflexivity|]. split; [cbn [ex_cfg c_handshake_timeout]; unfold ns; lia|exact (ex_plain 0)]. }
  split; [constructor|]. split; [discriminate|]. split; [discriminate|]. split; [discriminate|].
  split; [right; exists 0%nat, [good_contact]; split; [cbn; lia|]; split; [reflexivity|left; reflexivity]|]. split.
  { cbn [fewer_hang ex_magnet mg_trackers]. exists []. split; [cbn; lia|]. intros c X H. exfalso. apply ex_to_try in X. subst c. unfold hangs in H. 
    change (mg_hash ex_magnet) with (sha1 ex_data) in H. rewrite good_fetch in H. discriminate H. }
  destruct ex_runs as (s0 & s & hT & hP & A & B & _ & C & D). exists s0, s, hT, hP. auto.
Qed.
Example C93_success_nonvacuous : forall show_url, exists template ops,
  reads (bs "{hash}") [THash] /\ parse_template (bs "{hash}") = Ret (Ok template) /\
  get_cmd show_url ex_cfg ex_pid ex_magnet ex_world ex_sched template (fun b => [b]) None = Some (Ret (ops, true)).
Proof.
  intros show_url. assert (RD : reads (bs "{hash}") [THash]) by exact (reads_hash [] [] reads_nil).
  destruct (parse_template (bs "{hash}")) as [[template|]|] eqn:E; [|vm_compute in E; discriminate E|vm_compute in E; discriminate E].
  destruct C94_nonvacuous as (LH & LP & C & FN & HT & HP & NP & TT & FH & s0 & s & hT & hP & A1 & A2 & A3 & A4).
  destruct (C94_resolves_partial show_url ex_cfg ex_pid ex_magnet ex_world s0 ex_sched s hT hP (bs "{hash}") [THash] template (fun b => [b])) as (ops & O); auto.
  - intros c X. exact (proj1 (C c X)).
  - intros b. cbn [concat]. apply app_nil_r.
  - intros c X. exact (proj1 (proj2 (C c X))).
  - exists good_contact. split; [exact TT|]. intros c X _. exact (proj2 (proj2 (C c X))).
  - exists template, ops. auto.
Qed.
(** A tracker reporting one peer, which refuses the connection *)
Example C93_failure_nonvacuous : forall show_url template cut,
  let w := mkWorld (fun _ => Ret [good_contact]) None (fun _ => (0, (mkDial None [] [] 0 [], []), (mkDial (Some (5, Err EConnect)) [] [] 0 [], []))) 0 in
  let m := mkMagnet (repeat "h"%byte 20) None [TUdp (mkUU (bs "t") 80 [])] in
  get_cmd show_url ex_cfg ex_pid m w
    [Main; Tr (KTake 0); Tr (KCheck 0); Tr (KStart 0); Tr (KFinish 0); Tr (KSend 0); Main; Job; Job; Job; Tr (KQuit 0); Job;
     Pe (KTake 0); Pe (KCheck 0); Pe (KStart 0); Pe (KFinish 0); Pe (KSend 0); Main; Pe (KQuit 0); Main]
    template cut None = Some (Ret ([], false)).
Proof. intros show_url template cut. vm_compute. reflexivity. Qed.
Example C93_verdict_nonvacuous :
  (forall c, to_try ex_magnet ex_world c -> tcp_errors ex_world c) /\
  (forall c c', to_try ex_magnet ex_world c -> to_try ex_magnet ex_world c' -> contact_addr c = contact_addr c' -> c = c').
Proof.
  split.
  - intros c X. apply ex_to_try in X. subst c. intros now enc plain t0 E. cbn [w_meet ex_world] in E. injection E as <- <- <-. discriminate.
  - intros c c' X Y _. apply ex_to_try in X, Y. congruence.
Qed.
