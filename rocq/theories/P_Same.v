From Verif Require Import Base BaseFacts M_Net M_Sha1 M_Tracker M_Torrent M_Template S_Template M_Save P_Save M_Types M_Utf8 M_Http M_Magnet M_Peer M_Session M_Mse M_GetInfo M_Config
  M_Nursery S_Nursery M_Resolve S_Resolve S_Quiet P_Resolve P_Resolve3 P_Resolve4 M_Get S_Get S_Bencode M_Bencode S_Download S_GetInfo S_TorrentFile P_TorrentFile P_Dest P_Dht P_GetInfo3 P_GetInfo6 M_Write S_Write2 P_Write3 P_Write4 P_Get P_Http S_Same.

Section G.
Context (show_url : url -> bytes) (cfg : config) (pid : bytes) (m : magnet) (w : world).
Hypothesis LH : length (mg_hash m) = 20%nat.
Hypothesis LP : length pid = 20%nat.
Hypothesis WF : forall c, to_try m w c -> wf_ip (sa_ip (contact_addr c)).
Notation ih := (mg_hash m).
Context (s : bytes) (ts : list tok) (template : list elem) (cut : bytes -> list bytes).
Hypothesis READS : reads s ts.
Hypothesis PARSE : parse_template s = Ret (Ok template).
Hypothesis CUT : forall b, concat (cut b) = b.

Definition full (trackers : list bytes) (nodes : list sockaddr) (now : Z) (d : list (bytes * value)) : list (bytes * value) :=
  tf_doc (tf_new (mkTI ih (encode (VDict d))) trackers nodes now) (VDict d).

Lemma save_leaves info trackers nodes now ops : ti_hash info = ih -> bencoded_dict (ti_data info) ->
  save cut None (tf_new info trackers nodes now) template = Ret (ops, true) ->
  exists d, ti_data info = encode (VDict d) /\ canonical (VDict d) /\ leaves ops (text_of m ts d) (encode (VDict (full trackers nodes now d))).
Proof.
  intros HH BD SV. destruct info as [h data]. cbn [ti_hash ti_data] in *. subst h.
  destruct (destination s ts template ih data READS PARSE BD) as (d & E & C & DST). cbv zeta in DST.
  change (expand ts _ (show_info_hash ih)) with (text_of m ts d) in DST.
  exists d. split; [exact E|]. split; [exact C|]. subst data.
  set (tf := tf_new (mkTI ih (encode (VDict d))) trackers nodes now) in *.
  assert (E2 : tf_bytes tf = encode (VDict (full trackers nodes now d))) by (apply tf_bytes_doc; reflexivity).
  assert (SD : save_dest (tf_info tf) template = save_dest (mkTI ih (encode (VDict d))) template) by reflexivity.
  unfold save in SV. rewrite SD in SV. destruct DST as [(TX & D)|(TX & D)]; rewrite D in SV; injection SV as SV; symmetry in SV.
  - left. split; [exact TX|]. subst ops. split; [|intros; apply stdout_nothing]. rewrite printed_stdout, CUT. exact E2.
  - right. split; [exact TX|]. change (ops = save_ops (Path (text_of m ts d)) (cut (tf_bytes tf))) in SV. rewrite SV. split; [apply printed_file|]. intros f.
    pose proof (crash_states (text_of m ts d) (cut (tf_bytes tf)) (length (save_ops (Path (text_of m ts d)) (cut (tf_bytes tf)))) f) as (_ & Q & R). cbv zeta in Q, R.
    rewrite firstn_all in Q, R. split; [|exact Q]. rewrite R by lia. f_equal. rewrite CUT. exact E2.
Qed.
Lemma get_leaves l ops : get_cmd show_url cfg pid m w l template cut None = Some (Ret (ops, true)) ->
  exists d, canonical (VDict d) /\ sha1 (encode (VDict d)) = ih /\
    leaves ops (text_of m ts d) (encode (VDict (full (map (url_string show_url) (mg_trackers m)) (file_nodes m w) (unix_now (w_clock w)) d))).
Proof.
  intros H. unfold get_cmd, get_start, get_run in H. destruct (r_start _ _ _ _) as [s0|] eqn:H0; [|discriminate].
  destruct (rrun _ _ _ _ _ _) as [[[s1 hT] hP]|] eqn:R; [|discriminate]. destruct (existsb _ _); [discriminate|].
  destruct (r_main s1) as [| | | | |[info|]|] eqn:EM; try discriminate. injection H as H.
  destruct (c_success _ _ sa_spec _ _ _ _ _ _ _ _ _ _ _ _ H0 R EM) as (b & c & _ & _ & FC & _ & K).
  destruct (fetch_authentic cfg pid m w LH LP WF c info K FC) as (A1 & A2 & A3).
  destruct (save_leaves _ _ _ _ _ A1 A3 H) as (d & E & C & L). exists d. split; [exact C|]. split; [rewrite <- E; exact A2|exact L].
Qed.
End G.

Lemma full_lookup m m' trackers nodes nodes' now now' d k : k <> bs "creation date" -> k <> bs "nodes" \/ nodes = nodes' ->
  lookup k (full m trackers nodes now d) = lookup k (full m' trackers nodes' now' d).
Proof.
  intros K K2. unfold full, tf_doc, tf_new. cbn [tf_trackers tf_created_by tf_date tf_nodes].
  rewrite !lookup_app. destruct (lookup k (match trackers with [] => _ | _ => _ end)); [reflexivity|].
  assert (B : bytes_eqb k (bs "creation date") = false) by (apply Bool.not_true_iff_false; rewrite bytes_eqb_eq; exact K).
  cbn [lookup]. rewrite B. destruct (bytes_eqb k (bs "created by")); [reflexivity|]. destruct (bytes_eqb k (bs "info")); [reflexivity|].
  destruct K2 as [K2| ->]; [|reflexivity].
  assert (B2 : bytes_eqb k (bs "nodes") = false) by (apply Bool.not_true_iff_false; rewrite bytes_eqb_eq; exact K2).
  destruct nodes, nodes'; cbn [lookup]; rewrite ?B2; reflexivity.
Qed.
Lemma full_info m trackers nodes now d : lookup (bs "info") (full m trackers nodes now d) = Some (VDict d).
Proof. unfold full, tf_doc, tf_new. cbn [tf_trackers tf_created_by tf_date tf_nodes]. rewrite lookup_app. destruct trackers; reflexivity. Qed.
Lemma full_date m trackers nodes now d : lookup (bs "creation date") (full m trackers nodes now d) = Some (VInt now).
Proof. unfold full, tf_doc, tf_new. cbn [tf_trackers tf_created_by tf_date tf_nodes]. rewrite lookup_app. destruct trackers; reflexivity. Qed.

Lemma same_file show_url cfg cfg' pid pid' m m' w w' s s' ts template template' cut cut' l l' ops ops' :
  length (mg_hash m) = 20%nat -> length pid = 20%nat -> length pid' = 20%nat ->
  (forall c, to_try m w c -> wf_ip (sa_ip (contact_addr c))) -> (forall c, to_try m' w' c -> wf_ip (sa_ip (contact_addr c))) ->
  reads s ts -> parse_template s = Ret (Ok template) -> reads s' ts -> parse_template s' = Ret (Ok template') ->
  (forall b, concat (cut b) = b) -> (forall b, concat (cut' b) = b) ->
  mg_hash m' = mg_hash m -> mg_trackers m' = mg_trackers m ->
  get_cmd show_url cfg pid m w l template cut None = Some (Ret (ops, true)) ->
  get_cmd show_url cfg' pid' m' w' l' template' cut' None = Some (Ret (ops', true)) ->
  exists path doc info path' doc' info',
    leaves ops path (encode (VDict doc)) /\ leaves ops' path' (encode (VDict doc')) /\
    lookup (bs "info") doc = Some info /\ lookup (bs "info") doc' = Some info' /\
    sha1 (encode info) = mg_hash m /\ sha1 (encode info') = mg_hash m /\
    (encode info = encode info' ->
       path = path' /\
       (forall k, k <> bs "creation date" -> k <> bs "nodes" \/ file_nodes m w = file_nodes m' w' -> lookup k doc = lookup k doc') /\
       (file_nodes m w = file_nodes m' w' -> unix_now (w_clock w) = unix_now (w_clock w') -> doc = doc')).
Proof.
  intros LH LP LP' WF WF' RD PT RD' PT' CUT CUT' EH ET H H'. assert (LH' : length (mg_hash m') = 20%nat) by (rewrite EH; exact LH).
  destruct (get_leaves show_url cfg pid m w LH LP WF s ts template cut RD PT CUT l ops H) as (d & C & SH & L).
  destruct (get_leaves show_url cfg' pid' m' w' LH' LP' WF' s' ts template' cut' RD' PT' CUT' l' ops' H') as (d' & C' & SH' & L').
  rewrite ET in L'. eexists _, _, (VDict d), _, _, (VDict d').
  split; [exact L|]. split; [exact L'|]. split; [apply full_info|]. split; [apply full_info|]. split; [exact SH|]. split; [rewrite <- EH; exact SH'|].
  intros E. apply P_Bencode.encode_inj in E; [|exact C|exact C']. injection E as <-.
  split; [unfold text_of; rewrite EH; reflexivity|]. split; [intros k K K2; apply full_lookup; auto|].
  intros EN EU. unfold full. rewrite EN, EU, EH. reflexivity.
Qed.
Lemma same_file_trackers show_url cfg cfg' pid pid' m m' w w' s s' ts template template' cut cut' l l' ops ops' :
  length (mg_hash m) = 20%nat -> length pid = 20%nat -> length pid' = 20%nat ->
  (forall c, to_try m w c -> wf_ip (sa_ip (contact_addr c))) -> (forall c, to_try m' w' c -> wf_ip (sa_ip (contact_addr c))) ->
  reads s ts -> parse_template s = Ret (Ok template) -> reads s' ts -> parse_template s' = Ret (Ok template') ->
  (forall b, concat (cut b) = b) -> (forall b, concat (cut' b) = b) ->
  mg_hash m' = mg_hash m -> mg_trackers m' = mg_trackers m -> mg_trackers m <> [] ->
  get_cmd show_url cfg pid m w l template cut None = Some (Ret (ops, true)) ->
  get_cmd show_url cfg' pid' m' w' l' template' cut' None = Some (Ret (ops', true)) ->
  exists path doc info path' doc' info',
    leaves ops path (encode (VDict doc)) /\ leaves ops' path' (encode (VDict doc')) /\
    lookup (bs "info") doc = Some info /\ lookup (bs "info") doc' = Some info' /\
    sha1 (encode info) = mg_hash m /\ sha1 (encode info') = mg_hash m /\
    (encode info = encode info' ->
       path = path' /\
       (forall k, k <> bs "creation date" -> lookup k doc = lookup k doc') /\
       (unix_now (w_clock w) = unix_now (w_clock w') -> doc = doc')).
Proof.
  intros LH LP LP' WF WF' RD PT RD' PT' CUT CUT' EH ET NE H H'.
  assert (EN : file_nodes m w = file_nodes m' w') by (unfold file_nodes; rewrite ET; destruct (mg_trackers m); [contradiction|reflexivity]).
  destruct (same_file show_url cfg cfg' pid pid' m m' w w' s s' ts template template' cut cut' l l' ops ops' LH LP LP' WF WF' RD PT RD' PT' CUT CUT' EH ET H H')
    as (path & doc & info & path' & doc' & info' & A & B & C & D & E & F & G).
  exists path, doc, info, path', doc', info'. do 6 (split; [assumption|]). intros EI. destruct (G EI) as (G1 & G2 & G3).
  split; [exact G1|]. split; [intros k K; apply G2; auto|]. auto.
Qed.
