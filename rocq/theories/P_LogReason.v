(** Lemmas: texts, peers and reasons in log records (C111). *)
From Verif Require Import Base BaseFacts S_Utf8 M_Utf8 P_Utf8 S_Magnet M_Net M_IpText M_Util M_Types M_Bencode M_Torrent M_Extensions M_Messages M_Peer M_Session M_Tracker M_SockText M_Udp M_Http M_Announce M_Mse M_DhtMsg M_Template S_Download P_Bencode M_Log S_Log P_Log P_LogRead P_LogMsg.

Lemma text_valid s : utf8_valid s = true -> is_text s. Proof. apply utf8_valid_iff. Qed.
Lemma be_val_lt s : be_val s < 256 ^ N.of_nat (length s).
Proof. apply be_val_bound. Qed.
Lemma compact_wf s i : from_compact_ip s = Some i -> wf_ip i.
Proof.
  unfold from_compact_ip. pose proof (be_val_lt s) as B. destruct (Nat.eqb_spec (length s) 4) as [L|_]; [rewrite L in B; intros [= <-]; exact B|].
  destruct (Nat.eqb_spec (length s) 16) as [L|_]; [rewrite L in B; intros [= <-]; exact B|discriminate].
Qed.
Lemma decode_m_text d : forall l k n, decode_m d = Some l -> In (k, n) l -> is_text k.
Proof.
  induction d as [|[k v] d IH]; intros l k' n E I; cbn [decode_m] in E; [injection E as <-; destruct I|].
  destruct (utf8_valid k) eqn:U; [|discriminate E]. destruct (as_uint 8 v); [|discriminate E]. destruct (decode_m d) as [l'|]; [|discriminate E]. injection E as <-.
  destruct I as [[= <- <-]|I]; [now apply text_valid|eauto].
Qed.
Lemma eh_fields_readable d : forall h g, eh_fields d h = Some g -> readable (ExtHandshake h) -> readable (ExtHandshake g).
Proof.
  induction d as [|[k v] d IH]; intros h g E R; cbn [eh_fields] in E; [injection E as <-; exact R|]. destruct R as (R1 & R2 & R3).
  repeat match type of E with context [bytes_eqb k ?x] => destruct (bytes_eqb k x) end.
  - destruct (as_uint 8 v); [|discriminate E]. apply IH in E; auto. split; [exact R1|split; [exact R2|exact R3]].
  - destruct (as_dict v) as [d'|]; [|discriminate E]. cbn [obind] in E. destruct (decode_m d') as [m|] eqn:M; [|discriminate E]. apply IH in E; auto. split; auto.
    cbn [eh_m]. intros l k' n [= <-]. intros J. eapply decode_m_text; eauto.
  - unfold as_string in E. destruct v; try discriminate E. destruct (utf8_valid s) eqn:U; [|discriminate E]. apply IH in E; auto. split; auto. split; auto.
    cbn [eh_v]. intros x [= <-]. now apply text_valid.
  - destruct (as_uint 32 v); [|discriminate E]. apply IH in E; auto. split; [exact R1|split; [exact R2|exact R3]].
  - destruct (as_bytes v); [|discriminate E]. cbn [obind] in E. destruct (from_compact_ip b) eqn:F; [|discriminate E]. apply IH in E; auto. split; auto. split; auto.
    cbn [eh_yourip]. intros i' [= <-]. now apply compact_wf in F.
  - apply IH in E; auto. split; [exact R1|split; [exact R2|exact R3]].
Qed.
Lemma decode_readable buf r m : msg_decode buf r = Ok m -> readable m.
Proof.
  unfold msg_decode. intros E. destruct (core_decode buf) as [c|]; [|discriminate E].
  destruct c; try (injection E as <-; exact I). cbn [res_bind] in E. destruct (msg_id =? 0).
  - unfold eh_decode in E. destruct (decode_tree DEFAULT_MAX_DEPTH payload) as [v|]; [|discriminate E]. destruct v; try discriminate E.
    destruct (eh_fields d (mkEH None None None None None)) as [h|] eqn:F; [|discriminate E]. injection E as <-. apply eh_fields_readable in F; auto.
    split; [|split]; discriminate.
  - destruct (reg_for_message_id r msg_id) as [[]|]; [|discriminate E]. destruct (mm_decode payload); [|discriminate E]. injection E as <-. exact I.
Qed.

Section Texts.
Variable plain : N -> bool.
Lemma debug_str_inj a b : is_text a -> is_text b -> debug_str plain a = debug_str plain b -> a = b.
Proof. intros A B E. apply (debug_str_app plain a b [] []); auto. now rewrite !app_nil_r. Qed.
Lemma warning_iff u s a b : is_text a -> is_text b -> (record_text plain (LWarning u s a) = record_text plain (LWarning u s b) <-> a = b).
Proof.
  intros A B. split; [|now intros ->]. cbn [record_text]. intros E. do 4 apply app_inv_head in E. now apply debug_str_inj.
Qed.
Lemma failure_iff u s src a src' b : is_text a -> is_text b ->
  (record_text plain (LTrackerFailed u s src (Some (TEFailure a))) = record_text plain (LTrackerFailed u s src' (Some (TEFailure b))) <-> a = b).
Proof.
  intros A B. split; [|now intros ->]. cbn [record_text tracker_chain chain]. intros E. do 6 apply app_inv_head in E. now apply debug_str_inj.
Qed.
Lemma node_error_iff i a e f : is_text (er_message e) -> is_text (er_message f) ->
  (record_text plain (LNodeError i a e) = record_text plain (LNodeError i a f) <-> er_code e = er_code f /\ er_message e = er_message f).
Proof.
  intros A B. cbn [record_text]. unfold show_rpc_error. split; [|now intros [-> ->]]. intros E. do 2 apply app_inv_head in E.
  assert (C : er_code e = er_code f /\ debug_str plain (er_message e) = debug_str plain (er_message f)).
  { destruct (er_code e), (er_code f); cbn [show_code] in E |- *; try (exfalso; lazy -[dec debug_str] in E; discriminate E);
      try (do 2 apply app_inv_head in E; now split).
    rewrite <- !app_assoc in E. apply app_inv_head in E. apply dec_app in E as [-> E]; try reflexivity. apply app_inv_head in E. now split. }
  destruct C as [C1 C]. split; auto. now apply debug_str_inj.
Qed.
Lemma peers_iff u s l k : Forall wf_sa l -> Forall wf_sa k -> (record_text plain (LPeers u s l) = record_text plain (LPeers u s k) <-> l = k).
Proof.
  intros L K. split; [|now intros ->]. cbn [record_text]. intros E. do 4 apply app_inv_head in E.
  assert (E' : comma_list (map show_peer l) ++ [] = comma_list (map show_peer k) ++ []) by now rewrite !app_nil_r.
  apply (comma_list_app show_peer wf_sa) in E' as [-> _]; auto; try exact I.
  - intros a b x y A B. now apply show_peer_app.
  - intros a x y _ F. unfold show_peer in F. lazy -[show_sockaddr] in F. discriminate F.
Qed.
Lemma reason_kind d d' e e' : ~ connection_lost (d_hs d) -> ~ connection_lost (d_hs d') ->
  hd [] (peer_chain plain d e) = hd [] (peer_chain plain d' e') -> kind e = kind e'.
Proof.
  unfold connection_lost. intros D D' E. destruct d as [h x g r], d' as [h' x' g' r']. cbn [d_hs d_expected d_digest d_src] in *.
  destruct e as [| | | | | | | | | |s| | | | |c|p|b| | | |], e' as [| | | | | | | | | |s'| | | | |c'|p'|b'| | | |]; try reflexivity;
    try (destruct s); try (destruct s'); try (destruct c); try (destruct c'); try (destruct p); try (destruct p');
    try (exfalso; lazy -[dec show_info_hash show_msg MAX_INFO_LENGTH hs_chain] in E; discriminate E);
    try (exfalso; cbn [peer_chain] in E; destruct h; try (apply D; auto; fail); lazy -[dec show_info_hash show_msg hex MAX_INFO_LENGTH] in E; discriminate E);
    try (exfalso; cbn [peer_chain] in E; destruct h'; try (apply D'; auto; fail); lazy -[dec show_info_hash show_msg hex MAX_INFO_LENGTH] in E; discriminate E).
  all: exfalso; cbn [peer_chain hd] in E; apply app_inv_head in E; apply dec_app in E as [_ E]; try reflexivity; lazy -[dec] in E; discriminate E.
Qed.
Lemma quoted_iff u s src src' i n e f a b : is_text a -> is_text b -> is_text (er_message e) -> is_text (er_message f) ->
  (record_text plain (LWarning u s a) = record_text plain (LWarning u s b) <-> a = b) /\
  (record_text plain (LTrackerFailed u s src (Some (TEFailure a))) = record_text plain (LTrackerFailed u s src' (Some (TEFailure b))) <-> a = b) /\
  (record_text plain (LNodeError i n e) = record_text plain (LNodeError i n f) <-> er_code e = er_code f /\ er_message e = er_message f).
Proof. intros A B C D. split; [now apply warning_iff|]. split; [now apply failure_iff|now apply node_error_iff]. Qed.
End Texts.
Lemma reasons_coincide : exists d e e', kind e <> kind e' /\ forall plain, chain (peer_chain plain d e) = chain (peer_chain plain d e').
Proof. exists (mkDetails HDisconnect [] [] []), Disconnect, ECryptoHandshake. split; [discriminate|reflexivity]. Qed.
Definition bad_peers6 : bytes := bs "d8:completei45e10:downloadedi8384e10:incompletei4e8:intervali900e12:min intervali300e6:peers66:" ++ repeat x00 6 ++ bs "10:tracker id7:AniRenae".
Lemma bendy_breaks : exists body message context,
  http_result (RResponse 200 (Some body)) = Err (TEHttp HEParse) /\
  forall plain, ~ one_line (record_text plain (LTrackerError [bendy_text message context] (Some (TEHttp HEParse)))).
Proof.
  exists bad_peers6, (bs "malformed content discovered: compact representation of SocketAddrV6 had invalid length 6"), (bs "peers6").
  split; [vm_compute; reflexivity|]. intros plain F. unfold one_line in F. rewrite Forall_forall in F. specialize (F x0a).
  assert (32 <= b2n x0a); [|lazy in H; congruence]. apply F. cbn [record_text tracker_chain http_chain chain]. unfold bendy_text.
  apply in_or_app. right. apply in_or_app. right. apply in_or_app. right. apply in_or_app. right. now left.
Qed.
Definition csi_data : bytes := bs "d4:name3:a" ++ utf8_char 155 ++ bs "e".
Lemma saving_not_clean : exists data t, bencoded_dict data /\ parse_template (bs "{name}.torrent") = Ret (Ok t) /\
  forall plain, exists r, saving_record None (mkTI (repeat xab 20) data) t = Ret (Some r) /\ ~ clean (record_text plain r).
Proof.
  exists csi_data. eexists. split; [apply check_bencode_dict_iff; vm_compute; reflexivity|]. split; [vm_compute; reflexivity|]. intros plain.
  eexists. split; [vm_compute; reflexivity|].
  match goal with |- ~ clean ?t => replace t with (utf8 (map b2n (bs "Saving torrent for info hash abababababababababababababababababababab to file a") ++ [155] ++ map b2n (bs ".torrent"))) by reflexivity end.
  apply not_clean with 155; [|apply in_or_app; right; now left|right; lia].
  apply Forall_app. split; [|apply Forall_app; split; [repeat constructor; unfold scalar; lia|]].
  all: apply Forall_map, Forall_forall; intros b B; left; pose proof (b2n_bound b); lia.
Qed.
