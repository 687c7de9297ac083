From Verif Require Import Base BaseFacts M_Net M_Sha1 M_Tracker M_Torrent M_Template S_Template M_Save P_Save M_Types M_Utf8 M_Http M_Magnet M_Peer M_Session M_Mse M_GetInfo M_Config
  M_Nursery S_Nursery M_Resolve S_Resolve S_Quiet P_Resolve P_Resolve3 P_Resolve4 M_Get S_Get S_Bencode M_Bencode S_Download S_GetInfo S_TorrentFile P_TorrentFile P_Dest P_Dht P_GetInfo3 P_GetInfo6 M_Write S_Write2 P_Write3 P_Write4.

Section G.
Context (show_url : url -> bytes) (cfg : config) (pid : bytes) (m : magnet) (w : world).
Hypothesis LH : length (mg_hash m) = 20%nat.
Hypothesis LP : length pid = 20%nat.
Hypothesis WF : forall c, to_try m w c -> wf_ip (sa_ip (contact_addr c)).
Notation ih := (mg_hash m).
Notation fetch := (contact_fetch cfg pid ih w).
Notation hang := (hangs cfg pid ih w).

Lemma fetch_authentic c i : to_try m w c -> fetch c = Ret (Some i) -> ti_hash i = ih /\ sha1 (ti_data i) = ih /\ bencoded_dict (ti_data i).
Proof.
  intros K H. unfold contact_fetch in H. destruct (contact_info cfg pid ih w c) as [[l [[x|e]| |]]|] eqn:E; try discriminate. injection H as ->.
  unfold contact_info in E. destruct (w_meet w c) as [[now enc] plain]. destruct (obtained_w _ _ _ _ _ _ _ _ _ _ _ _ _ LH LP (WF _ K) E) as [_ A]. exact A.
Qed.
Lemma fetch_panics c : to_try m w c -> clock_fits cfg w c -> fetch c <> Panic.
Proof.
  intros K F H. unfold contact_fetch, contact_info in H. destruct (w_meet w c) as [[now enc] plain] eqn:E.
  pose proof (get_info_w_panic ih pid (sa_ip (contact_addr c)) LH LP (WF _ K) None (c_encrypt cfg) (pr_crypto (snd c)) (ns (c_handshake_timeout cfg)) (c_dh_timeout cfg) now enc plain) as (G1 & G2).
  destruct (get_info_w _ _ _ _ _ _ _ _ _ _ _) as [[l [[x|e]| |]]|] eqn:E2; try discriminate.
  - eapply G2. reflexivity.
  - destruct (G1 eq_refl) as (_ & t0 & T1 & _ & T2). specialize (F _ _ _ _ E T1). lia.
Qed.
Lemma serves_fetch c : to_try m w c -> serves cfg pid ih w c -> hang c = false /\ exists meta, fetch c = Ret (Some (mkTI ih meta)) /\ sha1 meta = ih.
Proof.
  intros K (meta & BD & SH & LB & now & enc & plain & l0 & E & S).
  assert (G : exists l, contact_info cfg pid ih w c = Ret (l, SDone (Ok (mkTI ih meta)))).
  { exists l0. unfold contact_info. rewrite E. apply (get_info_w_both ih pid (sa_ip (contact_addr c)) LH LP (WF _ K)). auto. }
  destruct G as (l & G). unfold hangs, contact_fetch. rewrite G. split; [reflexivity|]. exists meta. auto.
Qed.
(** ... and conversely. *)
Lemma fetch_serves c i : to_try m w c -> tcp_errors w c -> fetch c = Ret (Some i) -> serves_meta cfg pid ih w c (ti_data i).
Proof.
  intros K T H. pose proof (fetch_authentic c i K H) as (A1 & _ & _). unfold contact_fetch in H. destruct (contact_info cfg pid ih w c) as [[l [[x|e]| |]]|] eqn:E; try discriminate. injection H as ->.
  unfold contact_info in E. destruct (w_meet w c) as [[now enc] plain] eqn:M. destruct i as [h meta]. cbn [ti_hash] in A1. subst h.
  apply (get_info_w_exact ih pid (sa_ip (contact_addr c)) LH LP (WF _ K)) in E as (B1 & B2 & B3 & B4); [|intros t0; eapply T, M].
  unfold serves_meta. cbn [ti_data]. repeat (split; [assumption|]). rewrite M. exists now, enc, plain, l. auto.
Qed.
Lemma failed_serves c conns e : to_try m w c -> tcp_errors w c -> contact_info cfg pid ih w c = Ret (conns, SDone (Err e)) -> ~ serves cfg pid ih w c.
Proof. intros K T E S. destruct (serves_fetch c K S) as (_ & meta & F & _). unfold contact_fetch in F. rewrite E in F. discriminate F. Qed.
Lemma failed_fetch c : hang c = false -> fetch c = Ret None -> exists conns e, contact_info cfg pid ih w c = Ret (conns, SDone (Err e)).
Proof.
  unfold hangs, contact_fetch. destruct (contact_info cfg pid ih w c) as [[l [[x|e]| |]]|]; try discriminate. intros _ _. eauto.
Qed.

Notation nt := (N.to_nat (c_tracker_jobs cfg)).
Notation np := (N.to_nat (c_peer_jobs cfg)).
Lemma sa_spec a b : sa_eqb a b = true <-> a = b.
Proof. exact (sa_eqb_eq a b). Qed.

Lemma not_hung {R} (h : list (job contact * outcome R)) : existsb (fun d => hang (snd (fst d))) h = false <-> forall j r, In (j, r) h -> hang (snd j) = false.
Proof.
  rewrite <- Bool.not_true_iff_false, existsb_exists. split.
  - intros H j r X. destruct (hang (snd j)) eqn:E; [exfalso; apply H; exists (j, r); auto|reflexivity].
  - intros H ([j r] & X & E). cbn [fst] in E. rewrite (H _ _ X) in E. discriminate.
Qed.

(** The file *)
Lemma file_says info trackers nodes now : bencoded_dict (ti_data info) -> Forall wf_sa nodes ->
  exists doc d, ti_data info = encode (VDict d) /\ canonical (VDict d) /\ tf_bytes (tf_new info trackers nodes now) = encode (VDict doc) /\ canonical (VDict doc) /\
    says doc trackers nodes (bs "demagnetize 0.7.0") now (VDict d).
Proof.
  intros (d & E & C & _) HN. exists (tf_doc (tf_new info trackers nodes now) (VDict d)), d.
  split; [exact E|]. split; [exact C|]. split; [apply tf_bytes_doc; exact E|]. split; [apply tf_doc_canonical; exact C|].
  apply (tf_doc_says (tf_new info trackers nodes now)). exact HN.
Qed.

Context (s : bytes) (ts : list tok) (template : list elem) (cut : bytes -> list bytes).
Hypothesis READS : reads s ts.
Hypothesis PARSE : parse_template s = Ret (Ok template).
Hypothesis CUT : forall b, concat (cut b) = b.

Lemma printed_stdout l : printed (map OStdout l) = concat l.
Proof. unfold printed. rewrite map_map, map_id. reflexivity. Qed.
Lemma printed_file p l : printed (OMkdirs p :: OCreate p :: map (OWrite p) l) = [].
Proof. unfold printed. cbn [map concat app]. rewrite map_map. induction l as [|x l IH]; [reflexivity|exact IH]. Qed.
Lemma stdout_nothing l f : fs_run f (map OStdout l) = f.
Proof. unfold fs_run. induction l as [|x l IH]; [reflexivity|exact IH]. Qed.

Definition name_of (d : list (bytes * value)) : bytes := match lookup (bs "name") d with Some (VBytes n) => from_utf8_lossy n | _ => bs "NONAME" end.
Definition text_of (d : list (bytes * value)) : bytes := expand ts (sanitize (name_of d)) (show_info_hash ih).

Lemma save_none info trackers nodes now : ti_hash info = ih -> bencoded_dict (ti_data info) -> Forall wf_sa nodes ->
  let tf := tf_new info trackers nodes now in
  exists doc d ops, ti_data info = encode (VDict d) /\ canonical (VDict d) /\ canonical (VDict doc) /\
    says doc trackers nodes (bs "demagnetize 0.7.0") now (VDict d) /\
    save cut None tf template = Ret (ops, true) /\ (forall k, save cut (Some k) tf template = Ret (firstn k ops, false)) /\
    ((text_of d = bs "-" /\ printed ops = encode (VDict doc) /\ forall f, fs_run f ops = f) \/
     (text_of d <> bs "-" /\ printed ops = [] /\ forall f, fs_run f ops (text_of d) = Some (encode (VDict doc)) /\ forall q, q <> text_of d -> fs_run f ops q = f q)).
Proof.
  intros HH BD HN tf. destruct (file_says info trackers nodes now BD HN) as (doc & d & E & C & E2 & C2 & SY).
  destruct (destination s ts template (ti_hash info) (ti_data info) READS PARSE BD) as (d' & E' & C' & DST). cbv zeta in DST.
  assert (d' = d) as ->. { rewrite E in E'. apply P_Bencode.encode_inj in E'; auto. congruence. }
  rewrite HH in DST. change (expand ts _ (show_info_hash ih)) with (text_of d) in DST.
  assert (SD : save_dest (tf_info tf) template = save_dest (mkTI ih (ti_data info)) template). { unfold tf, tf_new. cbn [tf_info]. destruct info as [h0 d0]. cbn in HH. subst h0. reflexivity. }
  exists doc, d. destruct DST as [(TX & D)|(TX & D)].
  - exists (map OStdout (cut (tf_bytes tf))). do 4 (split; [assumption|]). unfold save. rewrite SD, D. cbn [save_ops].
    split; [reflexivity|]. split; [reflexivity|]. left. split; [exact TX|]. split; [|intros; apply stdout_nothing].
    rewrite printed_stdout, CUT. exact E2.
  - exists (save_ops (Path (text_of d)) (cut (tf_bytes tf))). do 4 (split; [assumption|]). unfold save. rewrite SD, D.
    split; [reflexivity|]. split; [reflexivity|]. right. split; [exact TX|]. split; [apply printed_file|]. intros f.
    pose proof (crash_states (text_of d) (cut (tf_bytes tf)) (length (save_ops (Path (text_of d)) (cut (tf_bytes tf)))) f) as (_ & Q & R). cbv zeta in Q, R.
    rewrite firstn_all in Q, R. split; [|exact Q]. rewrite R by lia. f_equal. rewrite CUT. exact E2.
Qed.

(** Success *)
Lemma get_success_from l ops : Forall wf_sa (file_nodes m w) -> get_cmd show_url cfg pid m w l template cut None = Some (Ret (ops, true)) ->
  exists doc d c, to_try m w c /\ fetch c = Ret (Some (mkTI ih (encode (VDict d)))) /\ canonical (VDict d) /\ sha1 (encode (VDict d)) = ih /\ canonical (VDict doc) /\
    says doc (map (url_string show_url) (mg_trackers m)) (file_nodes m w) (bs "demagnetize 0.7.0") (unix_now (w_clock w)) (VDict d) /\
    ((text_of d = bs "-" /\ printed ops = encode (VDict doc) /\ forall f, fs_run f ops = f) \/
     (text_of d <> bs "-" /\ printed ops = [] /\ forall f, fs_run f ops (text_of d) = Some (encode (VDict doc)) /\ forall q, q <> text_of d -> fs_run f ops q = f q)).
Proof.
  intros HN H. unfold get_cmd, get_start, get_run in H. destruct (r_start _ _ _ _) as [s0|] eqn:H0; [|discriminate].
  destruct (rrun _ _ _ _ _ _) as [[[s1 hT] hP]|] eqn:R; [|discriminate]. destruct (existsb _ _); [discriminate|].
  destruct (r_main s1) as [| | | | |[info|]|] eqn:EM; try discriminate. injection H as H.
  destruct (c_success _ _ sa_spec _ _ _ _ _ _ _ _ _ _ _ _ H0 R EM) as (b & c & _ & _ & FC & _ & K).
  destruct (fetch_authentic c info K FC) as (A1 & A2 & A3).
  destruct (save_none info (map (url_string show_url) (mg_trackers m)) (file_nodes m w) (unix_now (w_clock w)) A1 A3 HN) as (doc & d & ops' & E & C & C2 & SY & SV & _ & DST).
  rewrite SV in H. injection H as <-. exists doc, d, c. rewrite <- E. destruct info as [h data]. cbn [ti_hash ti_data] in *. subst h. auto 8.
Qed.
Lemma get_success l ops : Forall wf_sa (file_nodes m w) -> get_cmd show_url cfg pid m w l template cut None = Some (Ret (ops, true)) ->
  exists doc d, canonical (VDict d) /\ sha1 (encode (VDict d)) = ih /\ canonical (VDict doc) /\
    says doc (map (url_string show_url) (mg_trackers m)) (file_nodes m w) (bs "demagnetize 0.7.0") (unix_now (w_clock w)) (VDict d) /\
    ((text_of d = bs "-" /\ printed ops = encode (VDict doc) /\ forall f, fs_run f ops = f) \/
     (text_of d <> bs "-" /\ printed ops = [] /\ forall f, fs_run f ops (text_of d) = Some (encode (VDict doc)) /\ forall q, q <> text_of d -> fs_run f ops q = f q)).
Proof. intros HN H. destruct (get_success_from l ops HN H) as (doc & d & c & _ & _ & R). exists doc, d. exact R. Qed.
(** A failure while saving happens on the way to success. *)
Lemma get_fail_some l k ops b : Forall wf_sa (file_nodes m w) -> get_cmd show_url cfg pid m w l template cut (Some k) = Some (Ret (ops, b)) ->
  b = false /\ (get_cmd show_url cfg pid m w l template cut None = Some (Ret ([], false)) /\ ops = [] \/
    exists all, get_cmd show_url cfg pid m w l template cut None = Some (Ret (all, true)) /\ ops = firstn k all).
Proof.
  intros HN H. unfold get_cmd, get_start, get_run in *. destruct (r_start _ _ _ _) as [s0|] eqn:H0; [|injection H as <- <-; auto].
  destruct (rrun _ _ _ _ _ _) as [[[s1 hT] hP]|] eqn:R; [|discriminate]. destruct (existsb _ _); [discriminate|].
  destruct (r_main s1) as [| | | | |[info|]|] eqn:EM; try discriminate; [|injection H as <- <-; auto]. injection H as H.
  destruct (c_success _ _ sa_spec _ _ _ _ _ _ _ _ _ _ _ _ H0 R EM) as (? & c & _ & _ & FC & _ & K).
  destruct (fetch_authentic c info K FC) as (A1 & A2 & A3).
  destruct (save_none info (map (url_string show_url) (mg_trackers m)) (file_nodes m w) (unix_now (w_clock w)) A1 A3 HN) as (doc & d & ops' & E & C & C2 & SY & SV & SK & DST).
  rewrite SK in H. injection H as <- <-. split; [reflexivity|]. right. exists ops'. rewrite SV. auto.
Qed.
(** Failure *)
Lemma get_failure l ops : c_tracker_jobs cfg <> 0 -> c_peer_jobs cfg <> 0 -> (forall k, w_announce w k <> Panic) ->
  get_cmd show_url cfg pid m w l template cut None = Some (Ret (ops, false)) ->
  ops = [] /\
  ((mg_trackers m = [] /\ w_dht w = None) \/
   (forall c, to_try m w c -> exists c' conns e, to_try m w c' /\ contact_addr c' = contact_addr c /\ contact_info cfg pid ih w c' = Ret (conns, SDone (Err e)))).
Proof.
  intros N1 N0 CALM H. assert (M1 : nt <> 0%nat) by lia. assert (M0 : np <> 0%nat) by lia. unfold get_cmd, get_start, get_run in H. destruct (r_start _ _ _ _) as [s0|] eqn:H0.
  - destruct (rrun _ _ _ _ _ _) as [[[s1 hT] hP]|] eqn:R; [|discriminate]. destruct (existsb _ _) eqn:EX; [discriminate|].
    destruct (r_main s1) as [| | | | |[info|]|] eqn:EM; try discriminate.
    + injection H as H. unfold save in H. destruct (save_dest _ _); discriminate.
    + injection H as <-. split; [reflexivity|]. right. intros c K.
      destruct (c_failure _ _ sa_spec _ _ _ _ _ _ _ _ _ _ _ M0 M1 CALM H0 R EM) as (F1 & F2).
      destruct (F2 c K) as (c' & P1 & P2).
      assert (HG : hang c' = false).
      { (* its job has ended *)
        pose proof (proj1 (not_hung (finished hP)) EX) as NH.
        destruct (reach_inv _ _ sa_spec _ _ _ _ _ _ _ _ _ _ _ H0 R) as (V & _ & _).
        pose proof (v_alive _ _ _ _ _ _ _ _ _ _ V) as AL. rewrite EM in AL.
        destruct (P_Resolve.ended _ _ _ M0 (v_p _ _ _ _ _ _ _ _ _ _ V) (v_end _ _ _ _ _ _ _ _ _ _ V EM) AL (proj2 (v_done _ _ _ _ _ _ _ _ _ _ V))) as (PM & _).
        unfold contacted in P1. apply in_map_iff in P1. destruct P1 as (j & <- & P1).
        apply (Permutation.Permutation_in _ (Permutation.Permutation_sym PM)) in P1. apply in_map_iff in P1. destruct P1 as ([j' r] & EJ & P1). cbn in EJ. subst j'.
        apply (NH j r). apply (P_Nursery.i_res _ _ _ (v_p _ _ _ _ _ _ _ _ _ _ V)). auto. }
      destruct (failed_fetch c' HG (F1 _ P1)) as (conns & e & E). exists c', conns, e. split; [|auto].
      eapply (c_known _ _ sa_spec); eauto.
  - injection H as <-. split; [reflexivity|]. left. unfold r_start in H0. destruct (mg_trackers m); [|discriminate]. split; [reflexivity|].
    destruct (w_dht w) as [[]|]; [discriminate|reflexivity].
Qed.
Lemma get_source l ops : Forall wf_sa (file_nodes m w) -> (forall c, to_try m w c -> tcp_errors w c) ->
  get_cmd show_url cfg pid m w l template cut None = Some (Ret (ops, true)) ->
  exists doc d c, to_try m w c /\ serves_meta cfg pid ih w c (encode (VDict d)) /\ canonical (VDict d) /\ canonical (VDict doc) /\
    says doc (map (url_string show_url) (mg_trackers m)) (file_nodes m w) (bs "demagnetize 0.7.0") (unix_now (w_clock w)) (VDict d) /\
    ((text_of d = bs "-" /\ printed ops = encode (VDict doc) /\ forall f, fs_run f ops = f) \/
     (text_of d <> bs "-" /\ printed ops = [] /\ forall f, fs_run f ops (text_of d) = Some (encode (VDict doc)) /\ forall q, q <> text_of d -> fs_run f ops q = f q)).
Proof.
  intros HN T H. destruct (get_success_from l ops HN H) as (doc & d & c & K & F & C & _ & R). exists doc, d, c. split; [exact K|].
  split; [exact (fetch_serves c (mkTI ih (encode (VDict d))) K (T c K) F)|]. auto.
Qed.
Lemma get_verdict l ops b : Forall wf_sa (file_nodes m w) -> (forall c, to_try m w c -> tcp_errors w c) ->
  c_tracker_jobs cfg <> 0 -> c_peer_jobs cfg <> 0 -> (forall k, w_announce w k <> Panic) ->
  (forall c c', to_try m w c -> to_try m w c' -> contact_addr c = contact_addr c' -> c = c') ->
  get_cmd show_url cfg pid m w l template cut None = Some (Ret (ops, b)) ->
  (b = true <-> exists c, to_try m w c /\ serves cfg pid ih w c).
Proof.
  intros HN T N1 N0 CALM U H. split.
  - intros ->. destruct (get_source l ops HN T H) as (doc & d & c & K & S & _). exists c. split; [exact K|]. eexists. exact S.
  - intros (c & K & S). destruct b; [reflexivity|]. exfalso. destruct (get_failure l ops N1 N0 CALM H) as (_ & [(E1 & E2)|F]).
    + destruct K as [(_ & K)|(k & x & L & _)]; [|rewrite E1 in L; cbn in L; lia]. rewrite E2 in K. destruct K as (? & [=] & _).
    + destruct (F c K) as (c' & conns & e & K' & A & E). rewrite (U c' c K' K A) in E. exact (failed_serves c conns e K (T c K) E S).
Qed.
Lemma get_no_panic l fail : Forall wf_sa (file_nodes m w) -> (forall c, to_try m w c -> clock_fits cfg w c) -> get_cmd show_url cfg pid m w l template cut fail <> Some Panic.
Proof.
  intros HN CF H. unfold get_cmd, get_start, get_run in *. destruct (r_start _ _ _ _) as [s0|] eqn:H0; [|discriminate].
  destruct (rrun _ _ _ _ _ _) as [[[s1 hT] hP]|] eqn:R; [|discriminate]. destruct (existsb _ _); [discriminate|].
  destruct (r_main s1) as [| | | | |[info|]|] eqn:EM; try discriminate.
  - destruct (c_success _ _ sa_spec _ _ _ _ _ _ _ _ _ _ _ _ H0 R EM) as (? & c & _ & _ & FC & _ & K).
    destruct (fetch_authentic c info K FC) as (A1 & A2 & A3).
    destruct (save_none info (map (url_string show_url) (mg_trackers m)) (file_nodes m w) (unix_now (w_clock w)) A1 A3 HN) as (doc & d & ops' & E & C & C2 & SY & SV & SK & DST).
    destruct fail as [k|]; [rewrite SK in H|rewrite SV in H]; discriminate.
  - destruct (reach_inv _ _ sa_spec _ _ _ _ _ _ _ _ _ _ _ H0 R) as (V & _ & _).
    destruct (panics _ _ _ _ _ _ _ _ _ _ V EM) as (c & C1 & C2). apply (fetch_panics c); auto; [|apply CF]; eapply (c_known _ _ sa_spec); eauto.
Qed.
End G.
