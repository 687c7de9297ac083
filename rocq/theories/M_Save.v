(** Model of TorrentFile::save (src/torrent.rs:154-176) and sanitize
    (src/torrent.rs:355-366), with the file system as a map from path text to
    contents. *)
From Verif Require Import Base S_Utf8 M_Utf8 M_Torrent M_Template.

(** src/torrent.rs:355-366; PRINTABLE_UNSANITARY *)
Definition unsanitary (c : N) : bool :=
  (c <? 32) || existsb (fun b => b2n b =? c) (bs "/\<>:|""?*").
Definition sanitize (s : bytes) : bytes :=
  utf8 (map (fun c => if unsanitary c then 95 else c) (lossy_chars s)).

(** patharg::OutputArg::from_arg: "-" is standard output *)
Inductive dest := Stdout | Path (p : bytes).
Definition output_arg (s : bytes) : dest := if bytes_eqb s (bs "-") then Stdout else Path s.

(** src/torrent.rs:155-156: where a torrent is written *)
Definition save_dest (info : torrent_info) (template : list elem) : outcome dest :=
  match ti_name info with
  | Panic => Panic
  | Ret n =>
      let name := sanitize (match n with Some n => n | None => bs "NONAME" end) in
      Ret (output_arg (format_template template name (ti_hash info)))
  end.

(** What the operating system is asked to do.  [OMkdirs] only creates
    directories; directories are not represented. *)
Inductive op := OMkdirs (p : bytes) | OCreate (p : bytes) | OWrite (p : bytes) (chunk : bytes) | OStdout (chunk : bytes).

Definition fs := bytes -> option bytes.
Definition fs_set (f : fs) (p : bytes) (c : bytes) : fs := fun q => if bytes_eqb q p then Some c else f q.
Definition fs_step (f : fs) (o : op) : fs :=
  match o with
  | OMkdirs _ | OStdout _ => f
  | OCreate p => fs_set f p []
  | OWrite p chunk => fs_set f p (match f p with Some old => old | None => [] end ++ chunk)
  end.
Definition fs_run (f : fs) (ops : list op) : fs := fold_left fs_step ops f.

(** src/torrent.rs:169-175: create_dir_all, then OutputArg::async_write, which
    is tokio::fs::write (open with create+truncate, then write_all, which may
    take several write calls: [chunks]). *)
Definition save_ops (d : dest) (chunks : list bytes) : list op :=
  match d with
  | Stdout => map OStdout chunks
  | Path p => OMkdirs p :: OCreate p :: map (OWrite p) chunks
  end.
