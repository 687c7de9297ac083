(** Property C116: running 'get' again gives the same file.
    Specification: S_Same, S_Bencode, S_Template. *)
From Verif Require Import Base BaseFacts M_Net M_Sha1 M_Tracker M_Torrent M_Template S_Template M_Save M_Types M_Http M_Magnet M_Config
  M_Resolve S_Resolve M_Get S_Get S_Bencode S_Same P_Same P_Get2 P_Get3 C_Get.

(** Two runs that succeed, with links having the same hash and trackers and output templates
    reading alike; everything else may differ: settings, peer IDs, display names, trackers' and
    peers' behaviour, schedules, clocks and how the write calls divide the files.  Each leaves
    one file (or prints it), holding an info dictionary with the hash in the link.  Unless the
    two dictionaries differ, and so are a collision of SHA-1, the files are at the same path
    and differ at most in their creation dates and DHT nodes. *)
Theorem C116_same_file : forall show_url cfg cfg' pid pid' m m' w w' s s' ts template template' cut cut' l l' ops ops',
  length (mg_hash m) = 20%nat -> length pid = 20%nat -> length pid' = 20%nat ->
  (forall c, to_try m w c -> wf_ip (sa_ip (contact_addr c))) -> (forall c, to_try m' w' c -> wf_ip (sa_ip (contact_addr c))) ->
  reads s ts -> parse_template s = Ret (Ok template) -> reads s' ts -> parse_template s' = Ret (Ok template') ->
  (forall b, concat (cut b) = b) -> (forall b, concat (cut' b) = b) ->
  mg_hash m' = mg_hash m -> mg_trackers m' = mg_trackers m ->
  get_cmd show_url cfg pid m w l template cut None = Some (Ret (ops, true)) ->
  get_cmd show_url cfg' pid' m' w' l' template' cut' None = Some (Ret (ops', true)) ->
  exists path doc info path' doc' info',
    leaves ops path (encode (VDict doc)) /\ leaves ops' path' (encode (VDict doc')) /\
    lookup (bs "info") doc = Some info /\ lookup (bs "info") doc' = Some info' /\
    sha1 (encode info) = mg_hash m /\ sha1 (encode info') = mg_hash m /\
    (encode info = encode info' ->
       path = path' /\
       (forall k, k <> bs "creation date" -> k <> bs "nodes" \/ file_nodes m w = file_nodes m' w' -> lookup k doc = lookup k doc') /\
       (file_nodes m w = file_nodes m' w' -> unix_now (w_clock w) = unix_now (w_clock w') -> doc = doc')).
Proof. exact same_file. Qed.
Print Assumptions C116_same_file.
(** With a tracker in the link, only the date. *)
Theorem C116_trackers : forall show_url cfg cfg' pid pid' m m' w w' s s' ts template template' cut cut' l l' ops ops',
  length (mg_hash m) = 20%nat -> length pid = 20%nat -> length pid' = 20%nat ->
  (forall c, to_try m w c -> wf_ip (sa_ip (contact_addr c))) -> (forall c, to_try m' w' c -> wf_ip (sa_ip (contact_addr c))) ->
  reads s ts -> parse_template s = Ret (Ok template) -> reads s' ts -> parse_template s' = Ret (Ok template') ->
  (forall b, concat (cut b) = b) -> (forall b, concat (cut' b) = b) ->
  mg_hash m' = mg_hash m -> mg_trackers m' = mg_trackers m -> mg_trackers m <> [] ->
  get_cmd show_url cfg pid m w l template cut None = Some (Ret (ops, true)) ->
  get_cmd show_url cfg' pid' m' w' l' template' cut' None = Some (Ret (ops', true)) ->
  exists path doc info path' doc' info',
    leaves ops path (encode (VDict doc)) /\ leaves ops' path' (encode (VDict doc')) /\
    lookup (bs "info") doc = Some info /\ lookup (bs "info") doc' = Some info' /\
    sha1 (encode info) = mg_hash m /\ sha1 (encode info') = mg_hash m /\
    (encode info = encode info' ->
       path = path' /\
       (forall k, k <> bs "creation date" -> lookup k doc = lookup k doc') /\
       (unix_now (w_clock w) = unix_now (w_clock w') -> doc = doc')).
Proof. exact same_file_trackers. Qed.
Print Assumptions C116_trackers.

(** The run beside C93, and the same a day later, in single-byte writes *)
Definition ex_later : world := mkWorld (w_announce ex_world) (w_dht ex_world) (w_meet ex_world) (w_clock ex_world + 86400 * 1000000000)%Z.
Example C116_nonvacuous : forall show_url, exists template ops ops',
  reads (bs "{hash}") [THash] /\ parse_template (bs "{hash}") = Ret (Ok template) /\
  (forall b : bytes, concat (map (fun x => [x]) b) = b) /\ mg_trackers ex_magnet <> [] /\
  (forall c, to_try ex_magnet ex_later c -> wf_ip (sa_ip (contact_addr c))) /\
  get_cmd show_url ex_cfg ex_pid ex_magnet ex_world ex_sched template (fun b => [b]) None = Some (Ret (ops, true)) /\
  get_cmd show_url ex_cfg ex_pid ex_magnet ex_later ex_sched template (map (fun x => [x])) None = Some (Ret (ops', true)) /\
  unix_now (w_clock ex_later) <> unix_now (w_clock ex_world).
Proof.
  intros show_url. destruct (C93_success_nonvacuous show_url) as (template & ops & RD & PT & H). exists template, ops.
  assert (X : exists ops', get_cmd show_url ex_cfg ex_pid ex_magnet ex_later ex_sched template (map (fun x => [x])) None = Some (Ret (ops', true))).
  { unfold get_cmd in *. change (get_start ex_cfg ex_magnet ex_later) with (get_start ex_cfg ex_magnet ex_world). destruct (get_start _ _ _) as [s0|]; [|discriminate H].
    change (get_run ex_cfg ex_pid ex_magnet ex_later) with (get_run ex_cfg ex_pid ex_magnet ex_world).
    destruct (get_run _ _ _ _ _ _) as [[[s1 hT] hP]|]; [|discriminate H].
    change (hangs ex_cfg ex_pid (mg_hash ex_magnet) ex_later) with (hangs ex_cfg ex_pid (mg_hash ex_magnet) ex_world).
    destruct (existsb _ _); [discriminate H|]. destruct (r_main s1) as [| | | | |[info|]|]; try discriminate H. injection H as H.
    unfold save, tf_new in *. cbn [tf_info] in *. destruct (save_dest info template); [|discriminate H]. eexists. reflexivity. }
  destruct X as (ops' & X). exists ops'. split; [exact RD|]. split; [exact PT|]. split; [induction b as [|x b IH]; [reflexivity|cbn; f_equal; exact IH]|].
  split; [discriminate|]. split; [intros c K; exact (proj1 (proj1 (proj2 (proj2 C94_nonvacuous)) c K))|]. split; [exact H|]. split; [exact X|]. vm_compute. discriminate.
Qed.
