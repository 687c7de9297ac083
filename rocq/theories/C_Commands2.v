(** Property C95, continued: query-peer succeeds exactly if the peer serves the metadata in
    time (S_GetInfo), and otherwise fails for one of the reasons of S_Reason2. *)
From Verif Require Import Base BaseFacts M_Net M_Sha1 M_Types M_Torrent M_Template S_Template M_Save M_Tracker M_Peer M_Session M_Mse M_GetInfo M_Write M_Config M_Magnet M_Get S_Get
  M_Commands S_Bencode S_Download S_TorrentFile S_GetInfo S_Reason2 S_Write2 S_Write3 P_Download P_Session P_GetInfo3 P_Get3 P_Write4 P_Commands2.

Theorem C95_query_peer_exactly : forall cfg pid ih p src ts template cut clock encrypt prefer no now enc plain,
  length ih = 20%nat -> length pid = 20%nat -> wf_ip (sa_ip (pr_addr p)) ->
  reads src ts -> parse_template src = Ret (Ok template) -> (forall b, concat (cut b) = b) ->
  (forall t0, d_tcp (fst enc) <> Some (t0, Err ECryptoHandshake)) -> forall l,
  (exists ops, query_peer cfg pid encrypt prefer no template p ih now enc plain clock cut None = Ret (l, Some (ops, true))) <->
  (exists meta, bencoded_dict meta /\ sha1 meta = ih /\ blen meta <= 20971520 /\
    obtainable_w ih pid (sa_ip (pr_addr p)) meta (if encrypt then Some Encrypt else if prefer then Some Prefer else if no then Some Plain else None) (c_encrypt cfg)
      (pr_crypto p) (ns (c_handshake_timeout cfg)) (c_dh_timeout cfg) now enc plain l).
Proof. exact qp_exactly. Qed.
Print Assumptions C95_query_peer_exactly.
Theorem C95_query_peer_reason : forall cfg pid ih p src ts template cut clock encrypt prefer no now enc plain,
  length ih = 20%nat -> length pid = 20%nat -> wf_ip (sa_ip (pr_addr p)) ->
  reads src ts -> parse_template src = Ret (Ok template) -> (forall b, concat (cut b) = b) ->
  (forall t0, d_tcp (fst enc) <> Some (t0, Err ECryptoHandshake)) ->
  (forall t0, d_tcp (fst enc) = Some (t0, Ok tt) -> (now + t0) / 1000000000 + c_dh_timeout cfg < 2 ^ 63) -> forall l ops,
  query_peer cfg pid encrypt prefer no template p ih now enc plain clock cut None = Ret (l, Some (ops, false)) ->
  ops = [] /\ exists x, fetch_failed_w ih (if encrypt then Some Encrypt else if prefer then Some Prefer else if no then Some Plain else None) (c_encrypt cfg)
      (pr_crypto p) (ns (c_handshake_timeout cfg)) (c_dh_timeout cfg) now enc plain l x.
Proof. exact qp_reason. Qed.
Print Assumptions C95_query_peer_reason.
Example C95_query_peer_exactly_nonvacuous :
  bencoded_dict ex_data /\ blen ex_data <= 20971520 /\
  obtainable_w (sha1 ex_data) (bs "-DM0070-aaaaaaaaaaaa") (V4 2130706433) ex_data (Some Plain) CPNever false (ns 60) 30 0 (mkDial None [] [] 0 [], []) (mkDial (Some (ns 1, Ok tt)) (ex_reads 0) [] 0 [], []) [false] /\
  fetch_failed_w (sha1 ex_data) (Some Plain) CPNever true (ns 60) 30 0 (mkDial None [] [] 0 [], []) (mkDial None [] [] 0 [], []) [] CantRequireCrypto /\
  fetch_failed_w (sha1 ex_data) None CPNever false (ns 60) 30 0 (mkDial None [] [] 0 [], []) (mkDial (Some (ns 1, Err EConnect)) [] [] 0 [], []) [false] EConnect.
Proof.
  split; [exact (proj1 ex_session)|]. split; [vm_compute; discriminate|]. split.
  - apply obtainable_nil. left. split; [reflexivity|]. split; [split; [reflexivity|auto]|]. exists (ns 1). split; [reflexivity|]. split; [vm_compute; discriminate|exact (ex_plain 0)].
  - split; [constructor; split; auto|]. apply fw_plain; [split; auto|]. left. apply pf_tcp. eapply nt_error; [reflexivity|vm_compute; discriminate].
Qed.
