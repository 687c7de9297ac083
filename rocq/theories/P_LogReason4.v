From Verif Require Import Base BaseFacts S_Utf8 M_Utf8 P_Utf8 S_Magnet M_Net M_IpText P_IpText M_Util M_Types M_Bencode M_Torrent M_Extensions M_Messages M_Peer M_Session M_Tracker M_SockText M_Udp M_Http M_Announce M_Mse M_DhtMsg M_Template S_Download P_Bencode M_Log S_Log P_Log P_LogRead P_LogMsg P_LogReason S_LogReason P_LogReason3.
Section Texts.
Variable plain : N -> bool.
Lemma upto c : forall u v x y : bytes, ~ In c u -> ~ In c v -> u ++ c :: x = v ++ c :: y -> u = v /\ x = y.
Proof.
  induction u as [|a u IH]; intros [|b v] x y U V E; cbn [app] in E.
  - injection E as ->. auto.
  - injection E as -> _. exfalso. apply V. now left.
  - injection E as -> _. exfalso. apply U. now left.
  - injection E as -> E. apply IH in E as [-> ->]; auto; intros I; [apply U|apply V]; now right.
Qed.
Lemma tracker_chain_full src src' e e' : tracker_fits e -> tracker_fits e' -> chain (tracker_chain plain src e) = chain (tracker_chain plain src' e') -> same_tracker_reason e e'.
Proof.
  intros F F' E.
  destruct e as [[a|[]|[]|]|], e' as [[a'|[]|[]|]|]; cbn [tracker_fits] in F, F'; try contradiction; try exact I; try reflexivity;
    try (exfalso; cbn [tracker_chain http_chain udp_chain] in E; unfold hex0x in E; try (destruct src); try (destruct src'); cbn [chain] in E; lazy -[dec hex chain packet_text debug_str] in E; discriminate E).
  all: cbn [tracker_chain http_chain udp_chain chain same_tracker_reason] in *.
  - cut E. apply debug_str_inj in E; auto. now subst.
  - cut E. now apply debug_str_inj in E.
  - destruct e, e0; try reflexivity; discriminate E.
  - cut E. apply dec_app in E as [-> E]; try reflexivity. cut E. apply dec_alone in E. now subst.
  - unfold hex0x in E. do 2 cut E. apply hex_app in E as [-> E]; try reflexivity. do 2 cut E. apply hex_alone in E. now subst.
  - cut E. now apply debug_str_inj in E.
  - cut E. apply debug_str_inj in E; auto. now subst.
Qed.
Lemma tracker_reason_full u u' s src src' e e' : ~ In ">"%byte u -> ~ In ">"%byte u' -> tracker_fits e -> tracker_fits e' ->
  record_text plain (LTrackerFailed u s src e) = record_text plain (LTrackerFailed u' s src' e') -> u = u' /\ same_tracker_reason e e'.
Proof.
  intros U U' F F' E. cbn [record_text] in E. apply app_inv_head in E. unfold show_tracker in E. rewrite <- !app_assoc in E. apply app_inv_head in E.
  apply upto in E as [-> E]; auto. split; [reflexivity|].
  apply (tracker_chain_full src src' e e' F F'). do 3 apply app_inv_head in E. exact E.
Qed.
Lemma stop_reason_full u u' s src src' e e' : ~ In ">"%byte u -> ~ In ">"%byte u' -> tracker_fits e -> tracker_fits e' ->
  record_text plain (LStopFailed u s src e) = record_text plain (LStopFailed u' s src' e') -> u = u' /\ same_tracker_reason e e'.
Proof.
  intros U U' F F' E. cbn [record_text] in E. do 5 apply app_inv_head in E. unfold show_tracker in E. rewrite <- !app_assoc in E. apply app_inv_head in E.
  apply upto in E as [-> E]; auto. split; [reflexivity|].
  apply (tracker_chain_full src src' e e' F F'). do 3 apply app_inv_head in E. exact E.
Qed.
Lemma node_reason_full i a src src' e e' : node_fits e -> node_fits e' ->
  record_text plain (LNodeInvalid i a src e) = record_text plain (LNodeInvalid i a src' e') -> same_node_reason e e'.
Proof.
  intros F F' E. cbn [record_text] in E. do 2 apply app_inv_head in E.
  destruct e as [|e|], e' as [|e'|]; cbn [same_node_reason node_fits] in *; try exact I; try (exfalso; cbn [response_chain] in E; try (destruct src); try (destruct src'); cbn [chain] in E; lazy -[chain show_rpc_error] in E; discriminate E).
  cbn [response_chain chain] in E. do 2 apply app_inv_head in E. apply (proj1 (node_error_iff plain i a e e' F F')). cbn [record_text]. now rewrite E.
Qed.
End Texts.
