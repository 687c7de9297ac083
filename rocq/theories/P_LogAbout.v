(** Lemmas: what can be read back from a log record (C111), all records. *)
From Verif Require Import Base BaseFacts S_Utf8 M_Utf8 P_Utf8 S_Magnet M_Net M_IpText P_IpText M_Util M_Types M_Bencode M_Torrent M_Extensions M_Messages M_Peer M_Session M_Tracker M_SockText S_SockText P_SockText M_Udp M_Http M_Announce M_Mse M_DhtMsg M_Template S_Download P_Bencode M_Log S_Log P_Log P_LogRead P_LogMsg P_LogReason S_LogReason P_LogReason3 P_LogReason4 S_LogAbout.
Definition no_sp (b : byte) : Prop := b2n b <> 32.
Lemma sp_app a : forall b x y, Forall no_sp a -> Forall no_sp b -> a ++ bs " " ++ x = b ++ bs " " ++ y -> a = b /\ x = y.
Proof.
  induction a as [|c a IH]; intros [|d b] x y A B E; cbn [app] in E.
  - split; auto. cbn [app] in E. now apply app_inv_head in E.
  - exfalso. inversion B as [|? ? D _]; subst. apply D. injection E as <- _. reflexivity.
  - exfalso. inversion A as [|? ? D _]; subst. apply D. injection E as -> _. reflexivity.
  - inversion A; inversion B; subst. injection E as <- E. apply IH in E as [-> ->]; auto.
Qed.
Lemma dec_no_sp n : Forall no_sp (dec n).
Proof. eapply Forall_impl; [|apply dec_digits]. intros b H. apply is_digit_spec in H. unfold no_sp. lia. Qed.
Lemma lit_no_sp t : forallb (fun b => negb (b2n b =? 32)) t = true -> Forall no_sp t.
Proof. intros H. apply Forall_forall. intros b I. rewrite forallb_forall in H. specialize (H b I). apply negb_true_iff, N.eqb_neq in H. exact H. Qed.
Lemma hex_no_sp n : Forall no_sp (hex n).
Proof.
  destruct (hex_run n) as (vs & F & _). induction F as [|b v l vs B F IH]; constructor; auto. intros E. unfold digit_val in B. rewrite E in B. discriminate.
Qed.
Lemma join_no_sp l : Forall no_sp (join_segs l).
Proof.
  induction l as [|x l IH]; [constructor|]. cbn [join_segs]. destruct l; [apply hex_no_sp|].
  apply Forall_app. split; [apply hex_no_sp|]. apply Forall_app. split; [apply lit_no_sp; reflexivity|exact IH].
Qed.
Lemma v4_no_sp n : Forall no_sp (show_ipv4 n).
Proof.
  destruct (be_bytes4 n) as (a & b & c & d & E). unfold show_ipv4. rewrite E.
  repeat (apply Forall_app; split; [try apply dec_no_sp; try (apply lit_no_sp; reflexivity)|]). apply dec_no_sp.
Qed.
Lemma ip_no_sp i : Forall no_sp (show_ip i).
Proof.
  destruct i as [n|n]; [apply v4_no_sp|]. cbn [show_ip]. unfold show_ipv6. destruct (n / 2 ^ 32 =? 65535).
  - apply Forall_app. split; [|apply v4_no_sp]. apply lit_no_sp. reflexivity.
  - destruct (zero_run 0 (segments n) (O, O) (O, O)) as [st len]. destruct (Nat.ltb 1 len); [|apply join_no_sp].
    repeat (apply Forall_app; split); try apply join_no_sp. apply lit_no_sp. reflexivity.
Qed.
Lemma sa_no_sp a : Forall no_sp (show_sockaddr a).
Proof.
  pose proof (ip_no_sp (sa_ip a)) as I. unfold show_sockaddr. destruct (sa_ip a); cbn [show_ip] in I.
  - apply Forall_app. split; auto. constructor; [discriminate|apply dec_no_sp].
  - constructor; [discriminate|]. apply Forall_app. split; auto. constructor; [discriminate|]. constructor; [discriminate|apply dec_no_sp].
Qed.
Lemma sa_app a b x y : wf_sa a -> wf_sa b -> show_sockaddr a ++ bs " " ++ x = show_sockaddr b ++ bs " " ++ y -> a = b /\ x = y.
Proof.
  intros A B E. apply sp_app in E as [E ->]; auto using sa_no_sp.
  split; auto. pose proof (show_sockaddr_text a A) as T. rewrite E in T. destruct (sockaddr_text_inj _ _ _ _ _ (show_sockaddr_text b B) T). auto.
Qed.
Lemma tracker_app u v x y : wf_url u -> wf_url v -> show_tracker u ++ x = show_tracker v ++ y -> u = v /\ x = y.
Proof. intros U V E. unfold show_tracker in E. rewrite <- !app_assoc in E. apply app_inv_head in E. now apply upto in E. Qed.
Lemma ih_first h x : length h = 20%nat -> exists c r, show_info_hash h ++ x = c :: r /\ c <> hd x00 dq /\ c <> "t"%byte /\ exists c2 r2, r = c2 :: r2 /\ c2 <> "t"%byte.
Proof.
  destruct h as [|b h]; [discriminate|]. intros _. cbn [show_info_hash flat_map app]. eexists. eexists. split; [reflexivity|].
  assert (G : forall n, n < 16 -> hex_digit n <> hd x00 dq /\ hex_digit n <> "t"%byte) by (intros n H; do 16 (destruct n as [|n] using N.peano_ind; [split; discriminate|clear IHn]); lia).
  destruct (G (b2n b / 16)); [pose proof (b2n_bound b); apply N.div_lt_upper_bound; lia|]. split; [assumption|]. split; [assumption|].
  eexists. eexists. split; [reflexivity|]. apply G. apply N.mod_lt. lia.
Qed.

Section Texts.
Variable plain : N -> bool.
Lemma subj_app s t x y : wf_subject s -> wf_subject t -> subj plain s ++ x = subj plain t ++ y -> s = t /\ x = y.
Proof.
  destruct s as [n h], t as [m g]. unfold wf_subject, subj, show_subject. cbn [s_name s_hash]. intros (H & N) (G & M) E.
  destruct n as [n|], m as [m|].
  - rewrite <- !app_assoc in E. apply debug_str_app in E as [-> E]; auto. apply app_inv_head in E. apply ih_app in E as [-> E]; [|congruence]. apply app_inv_head in E. auto.
  - exfalso. destruct (ih_first g y G) as (c & r & EQ & A & _). rewrite EQ in E. unfold debug_str in E. cbn [app dq hd bs] in *. injection E as E _. congruence.
  - exfalso. destruct (ih_first h x H) as (c & r & EQ & A & _). rewrite EQ in E. unfold debug_str in E. cbn [app dq hd bs] in *. injection E as E _. congruence.
  - apply ih_app in E as [-> E]; [|congruence]. auto.
Qed.
Lemma node_app i a j b x y : wf_node i a -> wf_node j b -> show_node i a ++ bs " " ++ x = show_node j b ++ bs " " ++ y -> i = j /\ a = b /\ x = y.
Proof.
  unfold wf_node, show_node. intros (I & A) (J & B) E. destruct i as [i|], j as [j|].
  - rewrite <- !app_assoc in E. apply app_inv_head in E. apply ih_app in E as [-> E]; [|rewrite I, J; reflexivity]. apply app_inv_head in E. apply sa_app in E as [-> ->]; auto.
  - exfalso. rewrite <- !app_assoc in E. change (bs "DHT node at ") with (bs "DHT node " ++ bs "at ") in E. rewrite <- !app_assoc in E. apply app_inv_head in E.
    destruct (ih_first i (bs " at " ++ show_sockaddr a ++ bs " " ++ x) (I i eq_refl)) as (c & r & EQ & _ & _ & c2 & r2 & -> & N). rewrite EQ in E. change (bs "at ") with ["a"%byte; "t"%byte; " "%byte] in E; cbn [app] in E; injection E as _ E _. congruence.
  - exfalso. rewrite <- !app_assoc in E. change (bs "DHT node at ") with (bs "DHT node " ++ bs "at ") in E. rewrite <- !app_assoc in E. apply app_inv_head in E.
    destruct (ih_first j (bs " at " ++ show_sockaddr b ++ bs " " ++ y) (J j eq_refl)) as (c & r & EQ & _ & _ & c2 & r2 & -> & N). rewrite EQ in E. change (bs "at ") with ["a"%byte; "t"%byte; " "%byte] in E; cbn [app] in E; injection E as _ E _. congruence.
  - rewrite <- !app_assoc in E. apply app_inv_head in E. apply sa_app in E as [-> ->]; auto.
Qed.
Lemma group r : wf_record r ->
  match r with
  | LNodeReply id a n k ih => record_text plain r = show_node id a ++ bs " " ++ bs "replied with " ++ dec (N.of_nat n) ++ bs " peer(s) and " ++ dec (N.of_nat k) ++ bs " node(s) for info hash " ++ show_info_hash ih
  | LNodeError id a e => record_text plain r = show_node id a ++ bs " " ++ bs "replied with " ++ bs "error message: " ++ show_rpc_error plain e
  | LNodeInvalid id a src e => record_text plain r = show_node id a ++ bs " " ++ bs "sent invalid reply message: " ++ chain (response_chain plain src e)
  | _ => True
  end.
Proof. destruct r; intros _; try exact I; reflexivity. Qed.
Lemma rpc_inj e f : is_text (er_message e) -> is_text (er_message f) -> show_rpc_error plain e = show_rpc_error plain f -> er_code e = er_code f /\ er_message e = er_message f.
Proof. intros A B E. apply (proj1 (node_error_iff plain None (mkSA (V4 0) 0) e f A B)). cbn [record_text]. now rewrite E. Qed.
Ltac far E := exfalso; cbn [record_text] in E; unfold show_peer, show_tracker, show_node in E;
  repeat match type of E with context [match ?i with Some _ => _ | None => _ end] => destruct i end;
  lazy -[show_sockaddr subj dec chain show_msg show_shake show_info_hash comma_list debug_str method_text show_rpc_error] in E; discriminate E.
Ltac peers E := cbn [record_text] in E; apply show_peer_app in E as [-> E]; [|tauto|tauto].
Ltac urls E := cbn [record_text] in E; apply tracker_app in E as [-> E]; [|tauto|tauto].
Ltac near E := exfalso; lazy -[dec chain show_msg show_shake show_info_hash comma_list debug_str method_text show_rpc_error subj] in E; discriminate E.
Lemma records r r' : wf_record r -> wf_record r' -> record_text plain r = record_text plain r' -> tells_same r r'.
Proof.
  intros W W' E. pose proof (group r W) as G. pose proof (group r' W') as G'.
  destruct r, r'; try (far E); cbn [tells_same wf_record] in *; try exact I; try rewrite G, G' in E; clear G G';
    try (peers E; near E); try (urls E; near E); try (apply node_app in E as (_ & _ & E); [|tauto|tauto]; near E).
  - now apply (shake_iff plain) in E.
  - now apply (received_iff plain) in E.
  - cbn [record_text] in E. apply app_inv_head in E. peers E. split; [reflexivity|]. apply app_inv_head in E. apply show_msg_iff in E; tauto.
  - cbn [record_text] in E. apply app_inv_head in E. apply dec_app in E as [-> E]; try reflexivity. apply app_inv_head in E.
    assert (X : show_peer p ++ [] = show_peer p0 ++ []) by now rewrite !app_nil_r. apply show_peer_app in X as [-> _]; auto.
  - peers E. split; [reflexivity|]. apply app_inv_head in E. destruct m, m0; try reflexivity; discriminate E.
  - cbn [record_text] in E. apply app_inv_head in E. peers E. reflexivity.
  - cbn [record_text] in E. apply app_inv_head in E. apply subj_app in E as [-> E]; [|tauto|tauto]. apply app_inv_head in E. peers E. auto.
  - cbn [record_text] in E. apply app_inv_head in E. apply subj_app in E as [-> E]; [|tauto|tauto]. apply app_inv_head in E.
    assert (X : show_peer p ++ [] = show_peer p0 ++ []) by now rewrite !app_nil_r. apply show_peer_app in X as [-> _]; tauto.
  - urls E. apply app_inv_head in E. apply dec_app in E as [L E]; try reflexivity. apply app_inv_head in E.
    assert (X : subj plain s ++ [] = subj plain s0 ++ []) by now rewrite !app_nil_r. apply subj_app in X as [-> _]; [|tauto|tauto]. split; [reflexivity|]. split; [reflexivity|]. lia.
  - urls E. change (bs " returned peers for ") with (bs " returned " ++ bs "peers for ") in E. rewrite <- ?app_assoc in E. apply app_inv_head in E. apply dec_not in E; [exact E|reflexivity].
  - urls E. change (bs " returned peers for ") with (bs " returned " ++ bs "peers for ") in E. rewrite <- ?app_assoc in E. apply app_inv_head in E. symmetry in E. apply dec_not in E; [exact E|reflexivity].
  - urls E. apply app_inv_head in E. apply subj_app in E as [-> E]; [|tauto|tauto]. split; [reflexivity|]. split; [reflexivity|].
    apply (peers_iff plain url0 s0); [tauto|tauto|]. cbn [record_text]. now rewrite E.
  - urls E. apply app_inv_head in E. apply subj_app in E as [-> E]; [|tauto|tauto]. apply app_inv_head in E. apply debug_str_inj in E; tauto.
  - cbn [record_text] in E. apply app_inv_head in E. urls E. apply app_inv_head in E. apply subj_app in E as [-> E]; tauto.
  - cbn [record_text] in E. do 5 apply app_inv_head in E. urls E. apply app_inv_head in E. apply subj_app in E as [-> E]; tauto.
  - apply node_app in E as (-> & -> & E); [|tauto|tauto]. apply app_inv_head in E. apply dec_app in E as [N1 E]; try reflexivity. apply app_inv_head in E. apply dec_app in E as [N2 E]; try reflexivity. apply app_inv_head in E.
    apply ih_alone in E; [|destruct W, W'; congruence]. repeat split; auto; lia.
  - apply node_app in E as (-> & -> & E); [|tauto|tauto]. apply app_inv_head in E. apply dec_not in E; [exact E|reflexivity].
  - apply node_app in E as (-> & -> & E); [|tauto|tauto]. apply app_inv_head in E. symmetry in E. apply dec_not in E; [exact E|reflexivity].
  - apply node_app in E as (-> & -> & E); [|tauto|tauto]. do 2 apply app_inv_head in E. apply rpc_inj in E; tauto.
  - apply node_app in E as (-> & -> & E); tauto.
  - cbn [record_text] in E. apply app_inv_head in E. apply subj_app in E as [-> E]; [|tauto|tauto]. apply app_inv_head in E. auto.
Qed.
End Texts.
