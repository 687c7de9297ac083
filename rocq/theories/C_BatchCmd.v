(** Property C100: the command 'batch', end to end.  [content]: what the file of magnet links
    holds; [trips k]: what the job for the [k]-th link meets with; [c_log]: the requests the
    jobs have made to the operating system, in order; [files_after]: what the files hold
    then (S_Disk). *)
From Verif Require Import Base M_Types M_Tracker M_Template S_Template S_Path M_Save S_Disk M_Magnet M_Config M_Http M_Nursery S_Nursery M_Resolve M_Batch M_Get S_Get
  M_Session M_BatchCmd S_Bencode M_Bencode S_BatchCmd P_Get2 P_Get3 P_BatchCmd P_BatchCmd2 P_BatchCmd3 P_BatchCmd4 P_BatchEx.
Local Open Scope nat_scope.

(** The exit status: success iff the file of magnet links was read and every job succeeded. *)
Theorem C100_status : forall show_url parse_url cfg pid template content trips l s h ok,
  c_batch_jobs cfg <> 0%N ->
  batch_cmd show_url parse_url cfg pid template content trips l = Some (s, h) -> b_main (c_batch s) = BExit ok ->
  let magnets := batch_magnets parse_url content in
  (ok = true <-> (exists ms, parse_magnets_file parse_url content = Ok ms) /\
                 forall k m, nth_error magnets k = Some m -> exists ops, gets show_url cfg pid template (trips k) m = Some (Ret (ops, true))).
Proof. intros show_url parse_url cfg pid template content trips l s h ok N0 H EX. exact (truthful_gets show_url parse_url cfg pid template content trips l s h ok N0 H EX). Qed.
Print Assumptions C100_status.

(** Whatever the exit status: the torrent file of every job that succeeded is at its place,
    provided that no other job has opened that file (on the standard output, provided that
    no other job has written there). *)
Theorem C100_saved_partial : forall show_url parse_url cfg pid src ts template content trips l s h ok,
  c_batch_jobs cfg <> 0%N -> length pid = 20 -> reads src ts -> parse_template src = Ret (Ok template) -> (forall k b, concat (t_cut (trips k) b) = b) ->
  let magnets := batch_magnets parse_url content in
  (forall k m, nth_error magnets k = Some m -> sound_world m (t_world (trips k))) ->
  batch_cmd show_url parse_url cfg pid template content trips l = Some (s, h) -> b_main (c_batch s) = BExit ok ->
  forall k m ops, nth_error magnets k = Some m -> gets show_url cfg pid template (trips k) m = Some (Ret (ops, true)) ->
  exists path contents, file_for show_url trips ts k m path contents /\
    if bytes_eqb path (bs "-")
    then (forall j o, In (j, o) (c_log s) -> j <> k -> forall c, o <> OStdout c) -> on_stdout (c_log s) = contents
    else forall cwd f, (forall j o, In (j, o) (c_log s) -> j <> k -> ~ opens cwd (locate cwd path) (j, o)) -> files_after cwd f (c_log s) (locate cwd path) = Some contents.
Proof.
  intros show_url parse_url cfg pid src ts template content trips l s h ok N0 LP RD PT CUT magnets SD H EX.
  intros k m ops E J. rewrite <- (bjob_gets _ _ _ _ _ _ _ _ E) in J. exact (saved show_url parse_url cfg pid template content trips src ts LP RD PT CUT SD l s h ok (n_pos cfg N0) H EX k m ops E J).
Qed.
Print Assumptions C100_saved_partial.

(** Success: if the paths of the torrents are different files, all the torrent files are
    there, and no other file has changed. *)
Theorem C100_distinct_partial : forall show_url parse_url cfg pid src ts template content trips l s h,
  c_batch_jobs cfg <> 0%N -> length pid = 20 -> reads src ts -> parse_template src = Ret (Ok template) -> (forall k b, concat (t_cut (trips k) b) = b) ->
  let magnets := batch_magnets parse_url content in
  (forall k m, nth_error magnets k = Some m -> sound_world m (t_world (trips k))) ->
  batch_cmd show_url parse_url cfg pid template content trips l = Some (s, h) -> b_main (c_batch s) = BExit true ->
  exists files, length files = length magnets /\
    (forall k m path contents, nth_error magnets k = Some m -> nth_error files k = Some (path, contents) -> file_for show_url trips ts k m path contents) /\
    (forall cwd f,
      (forall j k pj cj pk ck, nth_error files j = Some (pj, cj) -> nth_error files k = Some (pk, ck) -> j <> k -> pj <> bs "-" -> pk <> bs "-" -> locate cwd pj <> locate cwd pk) ->
      (forall k path contents, nth_error files k = Some (path, contents) -> path <> bs "-" -> files_after cwd f (c_log s) (locate cwd path) = Some contents) /\
      (forall q, (forall k path contents, nth_error files k = Some (path, contents) -> path <> bs "-" -> q <> locate cwd path) -> files_after cwd f (c_log s) q = f q)) /\
    (forall k contents, nth_error files k = Some (bs "-", contents) -> (forall j c, nth_error files j = Some (bs "-", c) -> j = k) -> on_stdout (c_log s) = contents).
Proof.
  intros show_url parse_url cfg pid src ts template content trips l s h N0 LP RD PT CUT magnets SD H EX.
  exact (saved_distinct show_url parse_url cfg pid template content trips src ts N0 LP RD PT CUT SD l s h H EX).
Qed.
Print Assumptions C100_distinct_partial.

(** So it is if {hash} occurs in the last component of the template and no info hash is
    listed twice. *)
Theorem C100_hash_partial : forall show_url parse_url cfg pid src ts template content trips l s h dir last,
  c_batch_jobs cfg <> 0%N -> length pid = 20 -> reads src ts -> parse_template src = Ret (Ok template) -> (forall k b, concat (t_cut (trips k) b) = b) ->
  let magnets := batch_magnets parse_url content in
  (forall k m, nth_error magnets k = Some m -> sound_world m (t_world (trips k))) ->
  ts = dir ++ Ch "/" :: last \/ ts = last -> ~ In (Ch "/") last -> In THash last -> NoDup (map mg_hash magnets) ->
  batch_cmd show_url parse_url cfg pid template content trips l = Some (s, h) -> b_main (c_batch s) = BExit true ->
  exists files, length files = length magnets /\
    (forall k m path contents, nth_error magnets k = Some m -> nth_error files k = Some (path, contents) -> file_for show_url trips ts k m path contents) /\
    forall cwd f,
      (forall k path contents, nth_error files k = Some (path, contents) -> files_after cwd f (c_log s) (locate cwd path) = Some contents) /\
      (forall q, (forall k path contents, nth_error files k = Some (path, contents) -> q <> locate cwd path) -> files_after cwd f (c_log s) q = f q).
Proof.
  intros show_url parse_url cfg pid src ts template content trips l s h dir last N0 LP RD PT CUT magnets SD TS SF TH ND H EX.
  exact (saved_hash show_url parse_url cfg pid template content trips src ts N0 LP RD PT CUT SD l s h dir last H EX TS SF TH ND).
Qed.
Print Assumptions C100_hash_partial.

(** In general it is not, although the exit status is success.  Two torrents of the same
    name under the default template: the one saved first is nowhere, *)
Theorem C100_lost_refuted :
  exists show_url parse_url cfg pid template content trips l s h m1 m2,
    c_batch_jobs cfg <> 0%N /\ length pid = 20 /\ parse_template (bs "{name}.torrent") = Ret (Ok template) /\ (forall k b, concat (t_cut (trips k) b) = b) /\
    batch_magnets parse_url content = [m1; m2] /\ mg_hash m1 <> mg_hash m2 /\
    (forall k m, nth_error [m1; m2] k = Some m -> sound_world m (t_world (trips k))) /\
    batch_cmd show_url parse_url cfg pid template content trips l = Some (s, h) /\ b_main (c_batch s) = BExit true /\ on_stdout (c_log s) = [] /\
    forall q c, files_after [] (fun _ => None) (c_log s) q = Some c ->
      forall ts trackers nodes created path, ~ torrent_of ts (mg_hash m1) trackers nodes created path c.
Proof.
  pose proof bx_seq_run as X. unfold bx_exits, bx_run in X. destruct X as (s & h & R & EX & LG).
  exists (fun _ => []), bx_parse, ex_cfg, ex_pid, bx_template, bx_content, bx_trips, bx_seq, s, h, (bx_magnet bx_data1), (bx_magnet bx_data2).
  split; [discriminate|]. split; [reflexivity|]. split; [vm_compute; reflexivity|]. split; [exact bx_cut|]. split; [exact bx_magnets|]. split; [exact bx_hashes|].
  split; [rewrite <- bx_magnets; exact bx_sound|]. split; [exact R|]. split; [exact EX|]. rewrite LG. split; [reflexivity|].
  intros q c Q. apply bx_lost in Q. subst c. exact bx_not_first.
Qed.
Print Assumptions C100_lost_refuted.
(** or, if both are saved at the same time, neither is anywhere: the file holds no
    bencoded dictionary. *)
Theorem C100_corrupt_refuted :
  exists show_url parse_url cfg pid template content trips l s h m1 m2,
    c_batch_jobs cfg <> 0%N /\ length pid = 20 /\ parse_template (bs "{name}.torrent") = Ret (Ok template) /\ (forall k b, concat (t_cut (trips k) b) = b) /\
    batch_magnets parse_url content = [m1; m2] /\ mg_hash m1 <> mg_hash m2 /\
    (forall k m, nth_error [m1; m2] k = Some m -> sound_world m (t_world (trips k))) /\
    batch_cmd show_url parse_url cfg pid template content trips l = Some (s, h) /\ b_main (c_batch s) = BExit true /\ on_stdout (c_log s) = [] /\
    files_after [] (fun _ => None) (c_log s) [bs "x.torrent"] <> None /\
    forall q c, files_after [] (fun _ => None) (c_log s) q = Some c -> forall doc, canonical (VDict doc) -> c <> encode (VDict doc).
Proof.
  pose proof bx_mix_run as X. unfold bx_exits, bx_run in X. destruct X as (s & h & R & EX & LG).
  exists (fun _ => []), bx_parse, ex_cfg, ex_pid, bx_template, bx_content, bx_trips, bx_mix, s, h, (bx_magnet bx_data1), (bx_magnet bx_data2).
  split; [discriminate|]. split; [reflexivity|]. split; [vm_compute; reflexivity|]. split; [exact bx_cut|]. split; [exact bx_magnets|]. split; [exact bx_hashes|].
  split; [rewrite <- bx_magnets; exact bx_sound|]. split; [exact R|]. split; [exact EX|]. rewrite LG. split; [reflexivity|]. split; [rewrite bx_corrupt_at; discriminate|].
  intros q c Q. apply bx_corrupt in Q. subst c. exact bx_no_doc.
Qed.
Print Assumptions C100_corrupt_refuted.

(** The command ends if every job does: an execution that cannot be continued has reached
    an exit status, and executions cannot be continued for ever. *)
Theorem C100_ends_partial : forall show_url parse_url cfg pid src ts template content trips,
  length pid = 20 -> reads src ts -> parse_template src = Ret (Ok template) -> (forall k b, concat (t_cut (trips k) b) = b) ->
  let magnets := batch_magnets parse_url content in
  (forall k m, nth_error magnets k = Some m -> sound_world m (t_world (trips k)) /\ forall c, to_try m (t_world (trips k)) c -> clock_fits cfg (t_world (trips k)) c) ->
  (exists bound, forall l s h, batch_cmd show_url parse_url cfg pid template content trips l = Some (s, h) -> length l <= bound) /\
  forall l s h, batch_cmd show_url parse_url cfg pid template content trips l = Some (s, h) ->
    b_main (c_batch s) <> BPanicked /\
    ((forall k m, nth_error magnets k = Some m -> gets show_url cfg pid template (trips k) m <> None) ->
     (forall e, cstep show_url cfg pid template magnets trips s e = None) -> exists ok, b_main (c_batch s) = BExit ok).
Proof.
  intros show_url parse_url cfg pid src ts template content trips LP RD PT CUT magnets SD.
  split; [exact (cterminates show_url parse_url cfg pid template content trips)|]. intros l s h H.
  pose proof (no_panic show_url parse_url cfg pid template content trips src ts l s h LP RD PT CUT SD H) as NP. split; [exact NP|]. intros EN ST.
  destruct (cprogress show_url parse_url cfg pid template content trips l s h H) as [X|(X & _)]; auto; [|destruct (NP X)].
  exact (ends_gets show_url cfg pid template magnets trips EN).
Qed.
Print Assumptions C100_ends_partial.
(** Otherwise not: with batch-jobs links whose jobs never end at the head of the file (see
    C94), no other job is ever started. *)
Theorem C100_starved_refuted : forall show_url parse_url cfg pid template content trips,
  let n := N.to_nat (c_batch_jobs cfg) in
  let magnets := batch_magnets parse_url content in
  n <> 0 -> n < length magnets -> (forall k m, k < n -> nth_error magnets k = Some m -> gets show_url cfg pid template (trips k) m = None) ->
  exists l s h, batch_cmd show_url parse_url cfg pid template content trips l = Some (s, h) /\
    (forall e, cstep show_url cfg pid template magnets trips s e = None) /\
    (forall ok, b_main (c_batch s) <> BExit ok) /\ c_log s = [] /\ forall j, In j (started h) -> fst j < n.
Proof.
  intros show_url parse_url cfg pid template content trips n magnets N0 L HG.
  destruct (starved show_url parse_url cfg pid template content trips N0 L) as (l & s & h & R & ST & M & LG & SH).
  - exact (waits_gets show_url cfg pid template magnets trips n L HG).
  - exists l, s, h. split; [exact R|]. split; [exact ST|]. split; [rewrite M; discriminate|]. auto.
Qed.
Print Assumptions C100_starved_refuted.

(** The two torrents of the same name, saved at the same time, under a template with {hash} *)
Definition ex_template : list elem := [Literal (bs "out/"); Name; Literal (bs "-"); Hash].
Example C100_nonvacuous : exists ts s h,
  reads (bs "out/{name}-{hash}") (map Ch (bs "out") ++ Ch "/" :: ts) /\ ~ In (Ch "/") ts /\ In THash ts /\ parse_template (bs "out/{name}-{hash}") = Ret (Ok ex_template) /\
  NoDup (map mg_hash (batch_magnets bx_parse bx_content)) /\ length (batch_magnets bx_parse bx_content) = 2 /\
  (forall k m, nth_error (batch_magnets bx_parse bx_content) k = Some m -> sound_world m (t_world (bx_trips k))) /\
  batch_cmd (fun _ => []) bx_parse ex_cfg ex_pid ex_template bx_content bx_trips bx_mix = Some (s, h) /\ b_main (c_batch s) = BExit true.
Proof.
  exists [TName; Ch "-"; THash].
  assert (G : match batch_cmd (fun _ => []) bx_parse ex_cfg ex_pid ex_template bx_content bx_trips bx_mix with Some (s, _) => b_main (c_batch s) = BExit true | None => False end) by (vm_compute; reflexivity).
  destruct (batch_cmd _ _ _ _ _ _ _ _) as [[s h]|]; [|destruct G]. exists s, h.
  split. { cbn [map app bs]. repeat (apply reads_char; [discriminate|intros (X & _); discriminate X|]). apply (reads_name (bs "-{hash}")). apply reads_char; [discriminate|intros (X & _); discriminate X|]. exact (reads_hash [] [] reads_nil). }
  split; [intros [X|[X|[X|[]]]]; discriminate|]. split; [right; right; left; reflexivity|]. split; [vm_compute; reflexivity|].
  rewrite bx_magnets. split; [exact bx_nodup|]. split; [reflexivity|].
  split; [rewrite <- bx_magnets; exact bx_sound|]. auto.
Qed.
(** One job at a time; the only peer of the first link goes silent after the handshake, and
    the second link would be resolved. *)
Definition ex_one : config := mkConfig 1 CPNever (Range 1025 65535) 50 1 30 3 1 60 30 [] 2.
Example C100_starved_nonvacuous :
  let job k := gets (fun _ => []) ex_one ex_pid bx_template (bx_slow k) in
  batch_magnets bx_parse bx_content = [bx_magnet bx_data1; bx_magnet bx_data2] /\ job 0 (bx_magnet bx_data1) = None /\ hangs ex_one ex_pid (mg_hash (bx_magnet bx_data1)) (t_world (bx_slow 0)) good_contact = true /\ exists ops, job 1 (bx_magnet bx_data2) = Some (Ret (ops, true)).
Proof. cbv zeta. split; [exact bx_magnets|]. split; [vm_compute; reflexivity|]. split; [vm_compute; reflexivity|]. eexists. vm_compute. reflexivity. Qed.
