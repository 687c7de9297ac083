(** Where a torrent is saved. *)
From Verif Require Import Base BaseFacts S_Bencode S_Download S_Utf8 M_Utf8 M_Types M_Torrent M_Template S_Template M_Save P_Template P_Download.

Lemma destination s ts t h data : reads s ts -> parse_template s = Ret (Ok t) -> bencoded_dict data ->
  exists d, data = encode (VDict d) /\ canonical (VDict d) /\
    let name := match lookup (bs "name") d with Some (VBytes n) => from_utf8_lossy n | _ => bs "NONAME" end in
    let text := expand ts (sanitize name) (show_info_hash h) in
    (text = bs "-" /\ save_dest (mkTI h data) t = Ret Stdout) \/ (text <> bs "-" /\ save_dest (mkTI h data) t = Ret (Path text)).
Proof.
  intros R P B. destruct (name_of_dict h data B) as (d & E & C & N). exists d. split; [exact E|]. split; [exact C|]. cbv zeta.
  destruct (parse_reads s ts R) as (t' & P' & F). rewrite P in P'. injection P' as <-.
  unfold save_dest. rewrite N. unfold output_arg. cbn [ti_hash]. rewrite F.
  destruct (lookup (bs "name") d) as [[]|];
    match goal with |- context [bytes_eqb ?x ?y] => destruct (bytes_eqb_spec x y); [left|right]; auto end.
Qed.
