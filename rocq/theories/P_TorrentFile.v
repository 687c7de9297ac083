From Verif Require Import Base BaseFacts S_Bencode M_Bencode P_Bencode M_Sha1 M_Net M_IpText P_IpText
  M_Torrent M_Messages M_Peer S_Download P_Peer P_Download S_TorrentFile.

Definition tf_doc (t : torrent_file) (info : value) : list (bytes * value) :=
  (match tf_trackers t with
   | [] => []
   | trs => [(bs "announce-list", VList (map (fun u => VList [VBytes u]) trs))]
   end)
  ++ [(bs "created by", VBytes (tf_created_by t)); (bs "creation date", VInt (tf_date t)); (bs "info", info)]
  ++ (match tf_nodes t with [] => [] | ns => [(bs "nodes", VList (map node_value ns))] end).

Lemma tf_bytes_doc t info : ti_data (tf_info t) = encode info -> tf_bytes t = encode (VDict (tf_doc t info)).
Proof.
  intros E. unfold tf_bytes, tf_doc, put_kv. rewrite E.
  assert (ED : forall d, encode (VDict d) = "d"%byte :: concat (map pair_enc d) ++ ["e"%byte]) by reflexivity.
  rewrite ED. clear ED. rewrite !map_app, !concat_app.
  change (encode (VBytes ?x)) with (encode_bytes x).
  destruct (tf_trackers t), (tf_nodes t); cbn [map concat app]; unfold pair_enc; cbn [fst snd];
    rewrite ?app_nil_r, <- ?app_assoc; reflexivity.
Qed.

Lemma tf_doc_canonical t info : canonical info -> canonical (VDict (tf_doc t info)).
Proof.
  intros C. unfold tf_doc.
  assert (HT : canonical (VList (map (fun u => VList [VBytes u]) (tf_trackers t)))).
  { cbn [canonical]. induction (tf_trackers t); cbn; auto. }
  assert (HN : canonical (VList (map node_value (tf_nodes t)))).
  { cbn [canonical]. induction (tf_nodes t); cbn; auto. }
  destruct (tf_trackers t), (tf_nodes t); cbn [map fst snd app ascending canonical fold_right] in *;
    repeat split; try tauto; auto.
Qed.

Lemma all_urls l : all_some one_url (map (fun u => VList [VBytes u]) l) = Some l.
Proof. induction l as [|u l IH]; cbn [map all_some one_url obind]; auto. now rewrite IH. Qed.

Lemma all_nodes l : Forall wf_sa l -> all_some host_port (map node_value l) = Some l.
Proof.
  induction 1 as [|a l [Hi Hp] HF IH]; cbn [map all_some]; auto.
  unfold node_value at 1. cbn [host_port]. rewrite parse_show_ip by auto. cbn [obind].
  replace (0 <=? Z.of_N (sa_port a))%Z with true by lia. cbn [obind]. rewrite IH.
  cbn [obind]. rewrite N2Z.id. destruct a; reflexivity.
Qed.

Lemma tf_doc_says t info : Forall wf_sa (tf_nodes t) ->
  says (tf_doc t info) (tf_trackers t) (tf_nodes t) (tf_created_by t) (tf_date t) info.
Proof.
  intros HN. unfold says, tf_doc, opt_list. pose proof (all_urls (tf_trackers t)) as AU.
  pose proof (all_nodes _ HN) as AN.
  destruct (tf_trackers t) as [|u us], (tf_nodes t) as [|n ns];
    (repeat apply conj;
      [reflexivity || exact AU | reflexivity || exact AN | reflexivity | reflexivity | reflexivity |]);
    intros k; cbn [lookup app In];
    repeat match goal with
           | |- context [bytes_eqb k ?x] => destruct (bytes_eqb_spec k x) as [->|_]; [auto 10|]
           end; intros H; destruct H; reflexivity.
Qed.

Section File.
  Variables (ih : bytes) (declared : option N) (evs : list (res peer_error message))
            (info : torrent_info) (tr : list wire) (trackers : list bytes) (nodes : list sockaddr) (now : Z).
  Hypothesis got : get_metadata_info ih declared evs = (Finished (Ok info), tr).

  Lemma info_value : exists v, ti_data info = encode v /\ canonical v /\ (depth v <= DEFAULT_MAX_DEPTH)%nat.
  Proof.
    destruct (fetch_authentic _ _ _ _ _ got) as (_ & _ & _ & d & E & C & D). eauto.
  Qed.

  Lemma file_ok : Forall wf_sa nodes ->
    exists doc v,
      tf_bytes (tf_new info trackers nodes now) = encode (VDict doc) /\ canonical (VDict doc) /\
      says doc trackers nodes (bs "demagnetize 0.7.0") now v /\
      encode v = ti_data info /\ sha1 (ti_data info) = ih.
  Proof.
    intros HN. destruct info_value as (v & E & C & _).
    exists (tf_doc (tf_new info trackers nodes now) v), v.
    split; [now apply tf_bytes_doc|]. split; [now apply tf_doc_canonical|].
    split; [now apply (tf_doc_says (tf_new info trackers nodes now))|]. split; [auto|].
    now destruct (fetch_authentic _ _ _ _ _ got).
  Qed.

  Lemma file_contains : exists pre post,
    tf_bytes (tf_new info trackers nodes now) = pre ++ bs "4:info" ++ ti_data info ++ post.
  Proof.
    unfold tf_bytes. cbn [tf_info tf_new].
    change (encode (VBytes (bs "info"))) with (bs "4:info").
    match goal with |- exists pre post, ?a ++ ?b ++ ?c ++ ?d ++ _ ++ _ ++ ?e ++ ?f = _ =>
      exists (a ++ b ++ c ++ d), (e ++ f) end.
    now rewrite <- !app_assoc.
  Qed.

  Lemma file_order doc :
    tf_bytes (tf_new info trackers nodes now) = encode (VDict doc) -> canonical (VDict doc) ->
    lookup (bs "announce-list") doc =
      (match trackers with [] => None | _ => Some (VList (map (fun u => VList [VBytes u]) trackers)) end) /\
    lookup (bs "nodes") doc =
      (match nodes with
       | [] => None
       | _ => Some (VList (map (fun a => VList [VBytes (show_ip (sa_ip a)); VInt (Z.of_N (sa_port a))]) nodes))
       end).
  Proof.
    intros Ed Cd. destruct info_value as (v & E & C & _).
    rewrite (tf_bytes_doc _ v) in Ed by auto.
    apply encode_inj in Ed; auto using tf_doc_canonical. injection Ed as <-.
    unfold tf_doc. cbn [tf_new tf_trackers tf_nodes]. destruct trackers, nodes; split; reflexivity.
  Qed.

  Lemma file_readable doc v :
    tf_bytes (tf_new info trackers nodes now) = encode (VDict doc) -> canonical (VDict doc) ->
    lookup (bs "info") doc = Some v -> (depth v < 2048)%nat ->
    decode_tree 2048 (tf_bytes (tf_new info trackers nodes now)) = Ok (VDict doc).
  Proof.
    intros Ed Cd L D. apply decode_tree_iff. split; [auto|]. split; [auto|].
    destruct info_value as (v' & E & C & _).
    rewrite (tf_bytes_doc _ v') in Ed by auto.
    apply encode_inj in Ed; auto using tf_doc_canonical. injection Ed as <-.
    assert (v' = v).
    { unfold tf_doc in L. cbn [tf_new tf_trackers tf_nodes] in L.
      destruct trackers, nodes; cbn in L; injection L; auto. }
    subst v'. cbn [depth]. apply le_n_S. apply (fold_max_le (fun kv => depth (snd kv))).
    assert (DL : forall l : list value, Forall (fun x => depth x = 1%nat) l ->
       (depth (VList l) <= 2)%nat).
    { intros l HF. cbn [depth]. apply le_n_S. apply fold_max_le. eapply Forall_impl; [|exact HF]. cbn; lia. }
    assert (HT : (depth (VList (map (fun u => VList [VBytes u]) trackers)) <= 2047)%nat).
    { etransitivity; [apply DL|lia]. clear. induction trackers; cbn; constructor; auto. }
    assert (HN : (depth (VList (map node_value nodes)) <= 2047)%nat).
    { etransitivity; [apply DL|lia]. clear. induction nodes; cbn; constructor; auto. }
    unfold tf_doc. cbn [tf_new tf_trackers tf_nodes tf_created_by tf_date].
    apply Forall_app. split.
    { destruct trackers; constructor; [exact HT|constructor]. }
    apply Forall_app. split.
    { constructor; [|constructor; [|constructor; [|constructor]]]; cbn [snd]; [cbn [depth]; lia|cbn [depth]; lia|lia]. }
    destruct nodes; constructor; [exact HN|constructor].
  Qed.
End File.

Definition ex_file : torrent_file :=
  tf_new (mkTI (sha1 ex_data) ex_data) [bs "udp://b/"; bs "http://a/"] [mkSA (V4 2130706433) 6881; mkSA (V6 1) 80] 1700000000.
Lemma ex_file_bytes : tf_bytes ex_file =
  bs "d13:announce-listll8:udp://b/el9:http://a/ee10:created by17:demagnetize 0.7.013:creation datei1700000000e4:info"
  ++ ex_data ++ bs "5:nodesll9:127.0.0.1i6881eel3:::1i80eeee".
Proof. vm_compute. reflexivity. Qed.
Lemma ex_nodes_wf : Forall wf_sa [mkSA (V4 2130706433) 6881; mkSA (V6 1) 80].
Proof. repeat constructor; cbn; reflexivity. Qed.

Lemma ex_file_order : exists doc, tf_bytes ex_file = encode (VDict doc) /\ canonical (VDict doc) /\
    lookup (bs "announce-list") doc = Some (VList [VList [VBytes (bs "udp://b/")]; VList [VBytes (bs "http://a/")]]).
Proof.
  destruct ex_fetch as [tr H].
  destruct (file_ok _ _ _ _ _ (tf_trackers ex_file) (tf_nodes ex_file) (tf_date ex_file) H ex_nodes_wf)
    as (doc & v & E & C & _).
  exists doc. split; [exact E|]. split; [exact C|].
  now destruct (file_order _ _ _ _ _ _ _ _ H doc E C).
Qed.

Lemma unix_now_spec ns :
  let s := Z.quot ns 1000000000 in
  ((Z.abs s < 2 ^ 63)%Z -> unix_now ns = s) /\
  ((2 ^ 63 <= s)%Z -> unix_now ns = (2 ^ 63 - 1)%Z) /\
  ((s <= - 2 ^ 63)%Z -> unix_now ns = (- 2 ^ 63)%Z) /\
  (- 2 ^ 63 <= unix_now ns < 2 ^ 63)%Z.
Proof.
  cbv zeta. change (2 ^ 63)%Z with 9223372036854775808%Z. unfold unix_now, I64_MAX, I64_MIN.
  destruct (Z.leb_spec 0 ns) as [H|H].
  - rewrite Z.quot_div_nonneg by lia. destruct (Z.leb_spec (ns / 1000000000) 9223372036854775807); lia.
  - replace (Z.quot ns 1000000000) with (- ((- ns) / 1000000000))%Z.
    2:{ rewrite <- Z.quot_div_nonneg by lia. rewrite Z.quot_opp_l by lia. lia. }
    destruct (Z.leb_spec ((- ns) / 1000000000) 9223372036854775807); lia.
Qed.
