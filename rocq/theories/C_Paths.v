(** Properties C10-C16 and C77: output paths and saving. *)
From Verif Require Import Base S_Bencode M_Bencode S_Download S_Utf8 M_Sha1 M_Types M_Torrent M_Template S_Template P_Template
  S_Path M_Save P_Save P_Paths M_Utf8 P_Dest.

(** C10: [reads], [expand] and [bad] are the documented meaning (S_Template). *)
Theorem C10_template_meaning : forall s,
  (forall ts, reads s ts -> exists t, parse_template s = Ret (Ok t) /\
      forall name hash, format_template t name hash = expand ts name (show_info_hash hash)) /\
  (forall t, parse_template s = Ret (Ok t) -> exists ts, reads s ts) /\
  (forall f, bad s f <-> parse_template s = Ret (Err (as_error f))) /\
  parse_template s <> Panic.
Proof. exact template_meaning. Qed.
Print Assumptions C10_template_meaning.
Example C10_nonvacuous :
  parse_template (bs "a}}{{b}{name}-{hash}") = Ret (Ok [Literal (bs "a}{b}"); Name; Literal (bs "-"); Hash]) /\
  parse_template (bs "torrent={name") = Ret (Err (Unmatched 8)) /\
  parse_template (bs "{name{hash}torrent}") = Ret (Err (InvalidField 0)) /\
  parse_template (bs "torrent={tracker}.torrent") = Ret (Err (UnknownField (bs "tracker"))).
Proof. vm_compute. auto. Qed.

(** Where a torrent goes: the template filled in with its sanitized name ("NONAME" if its
    info dictionary has no name) and its hash; "-" is standard output. *)
Theorem C10_destination : forall s ts t h data, reads s ts -> parse_template s = Ret (Ok t) -> bencoded_dict data ->
  exists d, data = encode (VDict d) /\ canonical (VDict d) /\
    let name := match lookup (bs "name") d with Some (VBytes n) => from_utf8_lossy n | _ => bs "NONAME" end in
    let text := expand ts (sanitize name) (show_info_hash h) in
    (text = bs "-" /\ save_dest (mkTI h data) t = Ret Stdout) \/ (text <> bs "-" /\ save_dest (mkTI h data) t = Ret (Path text)).
Proof. exact destination. Qed.
Print Assumptions C10_destination.
Example C10_destination_nonvacuous :
  exists t, parse_template (bs "out/{name}.torrent") = Ret (Ok t) /\
    save_dest (mkTI [] (bs "d4:name3:a/be")) t = Ret (Path (bs "out/a_b.torrent")) /\
    save_dest (mkTI [] (bs "d6:lengthi1ee")) t = Ret (Path (bs "out/NONAME.torrent")).
Proof. eexists. split; [vm_compute; reflexivity|]. vm_compute. auto. Qed.

(** C11 *)
Theorem C11_escaping_lossless : forall s, exists t, parse_template (escape s) = Ret (Ok t) /\
  forall name hash, format_template t name hash = s.
Proof. exact escape_lossless. Qed.
Print Assumptions C11_escaping_lossless.
Example C11_nonvacuous : escape (bs "{name}}") = bs "{{name}}}}".
Proof. vm_compute. auto. Qed.

(** C12: different path text; see C77 for what the paths resolve to. *)
Theorem C12_hash_paths_differ : forall s ts t i1 i2 d1 d2,
  reads s ts -> parse_template s = Ret (Ok t) -> In THash ts ->
  length (ti_hash i1) = 20%nat -> length (ti_hash i2) = 20%nat -> ti_hash i1 <> ti_hash i2 ->
  save_dest i1 t = Ret d1 -> save_dest i2 t = Ret d2 ->
  exists p1 p2, d1 = Path p1 /\ d2 = Path p2 /\ p1 <> p2.
Proof. exact save_dest_hash. Qed.
Print Assumptions C12_hash_paths_differ.
Example C12_nonvacuous :
  exists t p1 p2, parse_template (bs "{name}.{hash}") = Ret (Ok t) /\
    save_dest same1 t = Ret (Path p1) /\ save_dest same2 t = Ret (Path p2) /\
    ti_hash same1 <> ti_hash same2 /\ p1 = bs "a." ++ show_info_hash (ti_hash same1).
Proof.
  eexists _, _, _. split; [vm_compute; reflexivity|]. split; [vm_compute; reflexivity|].
  split; [vm_compute; reflexivity|]. split; [vm_compute; discriminate|vm_compute; reflexivity].
Qed.

(** C13 *)
Theorem C13_names_sanitized : forall cs, Forall scalar cs ->
  exists out, sanitize (utf8 cs) = utf8 out /\
    Forall2 (fun c d => (forbidden c -> d = 95) /\ (~ forbidden c -> d = c)) cs out /\
    Forall (fun d => ~ forbidden d) out /\
    Forall (fun b => ~ forbidden (b2n b)) (sanitize (utf8 cs)) /\
    sanitize (sanitize (utf8 cs)) = sanitize (utf8 cs).
Proof. exact sanitize_spec. Qed.
Print Assumptions C13_names_sanitized.
Example C13_nonvacuous : sanitize (bs "a/b\c:*?""<>|" ++ utf8 [9; 233]) = bs "a_b_c________" ++ utf8 [233].
Proof. vm_compute. auto. Qed.

(** C14 is false: a torrent named ".." leaves the directory of the template, and
    one named "-" is written to standard output. *)
Theorem C14_name_redirects_refuted :
  (exists s t info p, parse_template s = Ret (Ok t) /\ s = bs "out/{name}/x.torrent" /\
     bencoded_dict (ti_data info) /\ sha1 (ti_data info) = ti_hash info /\
     save_dest info t = Ret (Path p) /\ resolve p = (false, [bs "x.torrent"]) /\
     ~ inside (resolve (bs "out")) (resolve p)) /\
  (exists s t info, parse_template s = Ret (Ok t) /\ s = bs "{name}" /\
     bencoded_dict (ti_data info) /\ sha1 (ti_data info) = ti_hash info /\
     save_dest info t = Ret Stdout).
Proof. exact name_redirects. Qed.
Print Assumptions C14_name_redirects_refuted.
(** What holds: if {name} occurs only in the last component of the template and
    that component has some other character (not '.'; and not '-' when there is
    no directory part), no name leaves the template's directory or goes to
    standard output. *)
Theorem C14_name_stays_in_directory_partial : forall s dir last t hash name,
  reads s (dir ++ Ch "/" :: last) -> parse_template s = Ret (Ok t) ->
  ~ In TName dir -> ~ In (Ch "/") last ->
  (exists c, In (Ch c) last /\ c <> "."%byte) ->
  exists p f, output_arg (format_template t (sanitize name) hash) = Path p /\
    p = expand dir [] (show_info_hash hash) ++ "/"%byte :: f /\
    Forall (fun c => c <> "/"%byte) f /\ (f <> [] /\ f <> bs "." /\ f <> bs "..") /\
    snd (resolve p) = snd (resolve (expand dir [] (show_info_hash hash))) ++ [f].
Proof. exact name_stays_put. Qed.
Print Assumptions C14_name_stays_in_directory_partial.
Theorem C14_plain_template_stays_partial : forall s last t hash name,
  reads s last -> parse_template s = Ret (Ok t) -> ~ In (Ch "/") last ->
  (exists c, In (Ch c) last /\ c <> "."%byte /\ c <> "-"%byte) ->
  exists f, output_arg (format_template t (sanitize name) hash) = Path f /\
    Forall (fun c => c <> "/"%byte) f /\ (f <> [] /\ f <> bs "." /\ f <> bs "..") /\ resolve f = (false, [f]).
Proof. exact name_stays_here. Qed.
Print Assumptions C14_plain_template_stays_partial.
Example C14_nonvacuous : (* the default template *)
  exists ts t, reads (bs "{name}.torrent") ts /\ parse_template (bs "{name}.torrent") = Ret (Ok t) /\
    ~ In (Ch "/") ts /\ In (Ch "t") ts /\ save_dest dotdot_info t = Ret (Path (bs "...torrent")).
Proof.
  exists (TName :: map Ch (bs ".torrent")). eexists. split.
  { change (bs "{name}.torrent") with (bs "{name}" ++ bs ".torrent"). apply reads_name.
    exact (reads_escape (bs ".torrent")). }
  split; [vm_compute; reflexivity|]. split; [|split; [|vm_compute; reflexivity]].
  - cbn. intros H. repeat (destruct H as [H|H]; [discriminate|]). destruct H.
  - cbn. auto.
Qed.

(** C15 is false: two torrents with the same name overwrite each other under the
    default template, though both saves succeed. *)
Theorem C15_overwrite_refuted :
  exists t i1 i2 p1 p2, parse_template (bs "{name}.torrent") = Ret (Ok t) /\
    ti_hash i1 <> ti_hash i2 /\
    bencoded_dict (ti_data i1) /\ sha1 (ti_data i1) = ti_hash i1 /\
    bencoded_dict (ti_data i2) /\ sha1 (ti_data i2) = ti_hash i2 /\
    save_dest i1 t = Ret (Path p1) /\ save_dest i2 t = Ret (Path p2) /\
    p1 = p2 /\ tf_bytes (tf_new i1 [] [] 0) <> tf_bytes (tf_new i2 [] [] 0) /\
    fs_run (fun _ => None) (save_ops (Path p1) [tf_bytes (tf_new i1 [] [] 0)] ++
                            save_ops (Path p2) [tf_bytes (tf_new i2 [] [] 0)]) p1
    = Some (tf_bytes (tf_new i2 [] [] 0)).
Proof. exact batch_overwrites. Qed.
Print Assumptions C15_overwrite_refuted.
(** What holds: with pairwise different paths (C12: any template with {hash}),
    every interleaving of the saves leaves every file complete. *)
Theorem C15_distinct_paths_all_saved_partial : forall (jobs : list (bytes * list bytes)) ops f,
  NoDup (map fst jobs) ->
  interleaved (map (fun j => save_ops (Path (fst j)) (snd j)) jobs) ops ->
  forall p chunks, In (p, chunks) jobs -> fs_run f ops p = Some (concat chunks).
Proof. exact batch_all_saved. Qed.
Print Assumptions C15_distinct_paths_all_saved_partial.
Example C15_nonvacuous : exists ops,
  interleaved [save_ops (Path (bs "x")) [bs "12"; bs "3"]; save_ops (Path (bs "y")) [bs "4"]] ops /\
  nth_error ops 1 = Some (OMkdirs (bs "y")).
Proof.
  eexists. split.
  - apply (il_step [] _ _ [_]). apply (il_step [_] _ _ []). apply (il_step [] _ _ [_]).
    apply (il_step [_] _ _ []). apply (il_step [] _ _ [_]). apply (il_step [_] _ _ []).
    apply (il_step [] _ _ [_]). apply il_done. repeat constructor.
  - reflexivity.
Qed.

(** C16 is false: after the file was truncated and before everything was written
    it holds neither the old nor the new contents. *)
Theorem C16_crash_atomic_refuted :
  exists p new k old, let f := fun q => if bytes_eqb q p then Some old else None in
    let f' := fs_run f (firstn k (save_ops (Path p) [new])) in
    f' p <> Some old /\ f' p <> Some new /\ f' p = Some [].
Proof. exact crash_loses. Qed.
Print Assumptions C16_crash_atomic_refuted.
(** What holds: at every crash point the path holds its old contents or a prefix
    of the new file, no other path is affected, and a finished save is complete. *)
Theorem C16_crash_states_partial : forall p chunks k f,
  let f' := fs_run f (firstn k (save_ops (Path p) chunks)) in
  (f' p = f p \/ exists j, f' p = Some (concat (firstn j chunks))) /\
  (forall q, q <> p -> f' q = f q) /\
  ((length (save_ops (Path p) chunks) <= k)%nat -> f' p = Some (concat chunks)).
Proof. exact crash_states. Qed.
Print Assumptions C16_crash_states_partial.
Example C16_nonvacuous : fs_run (fun _ => None) (firstn 3 (save_ops (Path (bs "p")) [bs "ab"; bs "c"])) (bs "p") = Some (bs "ab").
Proof. vm_compute. auto. Qed.

(** C77 is false in general: "{hash}/{name}/x" and the name "..". *)
Theorem C77_hash_paths_same_file_refuted :
  exists s t n h1 h2, parse_template s = Ret (Ok t) /\ s = bs "{hash}/{name}/x" /\
    length h1 = 20%nat /\ length h2 = 20%nat /\ h1 <> h2 /\
    resolve (format_template t (sanitize n) h1) = resolve (format_template t (sanitize n) h2).
Proof. exact hash_dirs_merge. Qed.
Print Assumptions C77_hash_paths_same_file_refuted.
(** What holds: {hash} in the last component. *)
Theorem C77_hash_last_distinct_partial : forall s dir last t n1 n2 h1 h2,
  reads s (dir ++ Ch "/" :: last) \/ (dir = [] /\ reads s last) -> parse_template s = Ret (Ok t) ->
  ~ In (Ch "/") last -> In THash last ->
  length h1 = 20%nat -> length h2 = 20%nat -> h1 <> h2 ->
  resolve (format_template t (sanitize n1) h1) <> resolve (format_template t (sanitize n2) h2).
Proof. exact hash_last_distinct. Qed.
Print Assumptions C77_hash_last_distinct_partial.
Example C77_nonvacuous : reads (bs "{hash}") [THash] /\ is_ok (match parse_template (bs "{hash}") with Ret r => r | Panic => Err (Unmatched 0) end) = true.
Proof. split; [apply (reads_hash [] []); constructor|reflexivity]. Qed.
