(** query-peer: exactly when it succeeds, and why it fails. *)
From Verif Require Import Base BaseFacts M_Net M_Sha1 M_Types M_Torrent M_Template S_Template M_Save M_Tracker M_Peer M_Session M_Mse M_GetInfo M_Write M_Config M_Magnet M_Get S_Get
  M_Commands S_Bencode S_Download S_TorrentFile S_GetInfo S_Reason2 S_Write2 S_Write3 P_GetInfo3 P_GetInfo6 P_Reason2 P_Write3 P_Write4 P_Write5 P_Commands.

Section QP.
Context (cfg : config) (pid ih : bytes) (p : peer) (src : bytes) (ts : list tok) (template : list elem) (cut : bytes -> list bytes) (clock : Z).
Context (encrypt prefer no : bool) (now : N) (enc plain : dial_w).
Hypothesis LH : length ih = 20%nat.
Hypothesis LP : length pid = 20%nat.
Hypothesis W : wf_ip (sa_ip (pr_addr p)).
Hypothesis READS : reads src ts.
Hypothesis PARSE : parse_template src = Ret (Ok template).
Hypothesis CUT : forall b, concat (cut b) = b.
Hypothesis NE : forall t0, d_tcp (fst enc) <> Some (t0, Err ECryptoHandshake).
Notation mode := (if encrypt then Some Encrypt else if prefer then Some Prefer else if no then Some Plain else None).
Notation fetched := (get_info_w ih pid (sa_ip (pr_addr p)) (peer_flags encrypt prefer no) (c_encrypt cfg) (pr_crypto p) (ns (c_handshake_timeout cfg)) (c_dh_timeout cfg) now enc plain).
Notation cmd fail := (query_peer cfg pid encrypt prefer no template p ih now enc plain clock cut fail).
Lemma mode_flags : mode = peer_flags encrypt prefer no.
Proof. destruct encrypt, prefer, no; reflexivity. Qed.
Lemma qp_exactly l :
  (exists ops, cmd None = Ret (l, Some (ops, true))) <->
  (exists meta, bencoded_dict meta /\ sha1 meta = ih /\ blen meta <= 20971520 /\
    obtainable_w ih pid (sa_ip (pr_addr p)) meta mode (c_encrypt cfg) (pr_crypto p) (ns (c_handshake_timeout cfg)) (c_dh_timeout cfg) now enc plain l).
Proof.
  rewrite mode_flags. split.
  - intros (ops & H). unfold query_peer in H. destruct fetched as [[l' [[info|e]| |]]|] eqn:E; try discriminate.
    pose proof (obtained_w _ _ _ _ _ _ _ _ _ _ _ _ _ LH LP W E) as (_ & A1 & _ & _). destruct info as [h meta]. cbn in A1. subst h.
    assert (l' = l) by (destruct (save _ _ _ _); [injection H as -> _; reflexivity|discriminate]). subst l'.
    exists meta. apply (get_info_w_exact ih pid _ LH LP W) in E; [exact E|exact NE].
  - intros (meta & O). apply (get_info_w_exact ih pid (sa_ip (pr_addr p)) LH LP W) in O; [|exact NE].
    unfold query_peer. rewrite O.
    destruct (obtained_w _ _ _ _ _ _ _ _ _ _ _ _ _ LH LP W O) as (_ & A1 & A2 & A3).
    destruct (qp_saved pid ih src ts template cut clock LH LP READS PARSE CUT (mkTI ih meta) A1 A3) as (doc & d & ops' & _ & _ & _ & _ & SV & _). rewrite SV. eauto.
Qed.
Lemma qp_reason (CF : forall t0, d_tcp (fst enc) = Some (t0, Ok tt) -> (now + t0) / 1000000000 + c_dh_timeout cfg < 2 ^ 63) l ops : cmd None = Ret (l, Some (ops, false)) ->
  ops = [] /\ exists x, fetch_failed_w ih mode (c_encrypt cfg) (pr_crypto p) (ns (c_handshake_timeout cfg)) (c_dh_timeout cfg) now enc plain l x.
Proof.
  intros H. destruct (qp_failure cfg pid ih p src ts template cut clock encrypt prefer no now enc plain LH LP W READS PARSE CUT l ops H) as (-> & e & E).
  split; [reflexivity|]. exists e. rewrite mode_flags. eapply get_info_w_why; eauto.
Qed.
End QP.
