From Verif Require Import Base BaseFacts S_Utf8 M_Utf8 P_Utf8 S_Magnet M_Net M_IpText P_IpText M_Util M_Types M_Bencode M_Torrent M_Extensions M_Messages M_Peer M_Session M_Tracker M_SockText M_Udp M_Http M_Announce M_Mse M_DhtMsg M_Template S_Download P_Bencode M_Log S_Log P_Log P_LogRead P_LogMsg P_LogReason S_LogReason.
Section Texts.
Variable plain : N -> bool.
Lemma chain_kind d d' e e' : ~ connection_lost (d_hs d) -> ~ connection_lost (d_hs d') ->
  chain (peer_chain plain d e) = chain (peer_chain plain d' e') -> kind e = kind e'.
Proof.
  unfold connection_lost. intros D D' E. destruct d as [h x g r], d' as [h' x' g' r']. cbn [d_hs d_expected d_digest d_src] in *.
  destruct e as [| | | | | | | | | |s| |q|t| |c|p|b| | | |], e' as [| | | | | | | | | |s'| |q'|t'| |c'|p'|b'| | | |]; try reflexivity;
    try (destruct s); try (destruct s'); try (destruct c); try (destruct c'); try (destruct p); try (destruct p'); try (destruct q); try (destruct q');
    try (exfalso; cbn [peer_chain message_chain shake_chain chain] in E; try (destruct r); try (destruct r'); cbn [chain] in E; lazy -[dec show_info_hash show_msg MAX_INFO_LENGTH hs_chain chain registry_text build_text packet_text hex] in E; discriminate E).
  all: try (exfalso; cbn [peer_chain] in E; destruct h; try (apply D; auto; fail); cbn [hs_chain chain] in E; try destruct r'; cbn [chain message_chain] in E; lazy -[dec show_info_hash show_msg hex MAX_INFO_LENGTH chain registry_text build_text packet_text] in E; discriminate E).
  all: try (exfalso; cbn [peer_chain] in E; destruct h'; try (apply D'; auto; fail); cbn [hs_chain chain] in E; try destruct r; cbn [chain message_chain] in E; lazy -[dec show_info_hash show_msg hex MAX_INFO_LENGTH chain registry_text build_text packet_text] in E; discriminate E).
  all: exfalso; cbn [peer_chain chain] in E; apply app_inv_head in E; apply dec_app in E as [_ E]; try reflexivity; lazy -[dec] in E; discriminate E.
Qed.
End Texts.
