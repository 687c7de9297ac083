(** Witnesses behind the refutations in C_Paths. *)
From Verif Require Import Base S_Bencode M_Bencode P_Bencode S_Download P_Torrent S_Utf8 M_Sha1 M_Types M_Torrent M_Template
  S_Template P_Template S_Path M_Save P_Save.

Ltac conjs := repeat match goal with |- _ /\ _ => split end.
Ltac isdict := apply check_bencode_dict_iff; vm_compute; reflexivity.

Lemma name_redirects :
  (exists s t info p, parse_template s = Ret (Ok t) /\ s = bs "out/{name}/x.torrent" /\
     bencoded_dict (ti_data info) /\ sha1 (ti_data info) = ti_hash info /\
     save_dest info t = Ret (Path p) /\ resolve p = (false, [bs "x.torrent"]) /\
     ~ inside (resolve (bs "out")) (resolve p)) /\
  (exists s t info, parse_template s = Ret (Ok t) /\ s = bs "{name}" /\
     bencoded_dict (ti_data info) /\ sha1 (ti_data info) = ti_hash info /\
     save_dest info t = Ret Stdout).
Proof.
  split.
  - eexists (bs "out/{name}/x.torrent"), _, dotdot_info, _. conjs; try (vm_compute; reflexivity).
    + isdict.
    + intros (_ & rest & N & E). vm_compute in E. discriminate.
  - eexists (bs "{name}"), _, dash_info. conjs; try (vm_compute; reflexivity). isdict.
Qed.

Lemma batch_overwrites :
  exists t i1 i2 p1 p2, parse_template (bs "{name}.torrent") = Ret (Ok t) /\
    ti_hash i1 <> ti_hash i2 /\
    bencoded_dict (ti_data i1) /\ sha1 (ti_data i1) = ti_hash i1 /\
    bencoded_dict (ti_data i2) /\ sha1 (ti_data i2) = ti_hash i2 /\
    save_dest i1 t = Ret (Path p1) /\ save_dest i2 t = Ret (Path p2) /\
    p1 = p2 /\ tf_bytes (tf_new i1 [] [] 0) <> tf_bytes (tf_new i2 [] [] 0) /\
    fs_run (fun _ => None) (save_ops (Path p1) [tf_bytes (tf_new i1 [] [] 0)] ++
                            save_ops (Path p2) [tf_bytes (tf_new i2 [] [] 0)]) p1
    = Some (tf_bytes (tf_new i2 [] [] 0)).
Proof.
  eexists _, same1, same2, _, _. conjs; try (vm_compute; reflexivity); try isdict; vm_compute; discriminate.
Qed.

Lemma crash_loses :
  exists p new k old, let f := fun q => if bytes_eqb q p then Some old else None in
    let f' := fs_run f (firstn k (save_ops (Path p) [new])) in
    f' p <> Some old /\ f' p <> Some new /\ f' p = Some [].
Proof.
  exists (bs "x.torrent"), (bs "new"), 2%nat, (bs "old"). cbn zeta.
  conjs; vm_compute; [discriminate|discriminate|reflexivity].
Qed.

Lemma hash_dirs_merge :
  exists s t n h1 h2, parse_template s = Ret (Ok t) /\ s = bs "{hash}/{name}/x" /\
    length h1 = 20%nat /\ length h2 = 20%nat /\ h1 <> h2 /\
    resolve (format_template t (sanitize n) h1) = resolve (format_template t (sanitize n) h2).
Proof.
  eexists (bs "{hash}/{name}/x"), _, (bs ".."), (repeat x00 20), (repeat x01 20).
  conjs; try (vm_compute; reflexivity). vm_compute. discriminate.
Qed.

