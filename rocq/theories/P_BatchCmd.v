From Verif Require Import Base BaseFacts M_Net M_Sha1 M_Types M_Tracker M_Torrent M_Utf8 M_Template S_Template P_Template S_Path M_Save P_Save S_Disk P_Disk M_Magnet S_Magnet P_Magnet M_Config M_Http
  M_Nursery S_Nursery P_Nursery M_Resolve P_Resolve P_Resolve2 M_Batch P_Batch M_Get S_Get P_Get M_BatchCmd S_Bencode M_Bencode S_Download S_TorrentFile S_GetInfo S_BatchCmd P_TorrentFile P_Dest P_Dht.
From Verif Require Import P_Resolve3 P_Resolve4 M_Form.
From Coq Require Import Permutation.
Local Open Scope nat_scope.

(** What the command 'get' asks for *)
Lemma get_ops show_url cfg pid m w s ts template cut l fail ops b :
  length (mg_hash m) = 20 -> length pid = 20 -> sound_world m w -> reads s ts -> parse_template s = Ret (Ok template) ->
  get_cmd show_url cfg pid m w l template cut fail = Some (Ret (ops, b)) ->
  (ops = [] /\ b = false) \/
  exists path contents, torrent_of ts (mg_hash m) (map (url_string show_url) (mg_trackers m)) (file_nodes m w) (unix_now (w_clock w)) path contents /\
    let all := save_ops (output_arg path) (cut contents) in
    (b = true /\ ops = all) \/ (b = false /\ exists k, ops = firstn k all).
Proof.
  intros LH LP (WF & HN) RD PT H. unfold get_cmd, get_start, get_run in H. destruct (r_start _ _ _ _) as [s0|] eqn:H0; [|injection H as <- <-; auto].
  destruct (rrun _ _ _ _ _ _) as [[[s1 hT] hP]|] eqn:R; [|discriminate]. destruct (existsb _ _); [discriminate|].
  destruct (r_main s1) as [| | | | |[info|]|] eqn:EM; try discriminate; [|injection H as <- <-; auto]. injection H as H. right.
  destruct (c_success _ _ sa_spec _ _ _ _ _ _ _ _ _ _ _ _ H0 R EM) as (? & c & _ & _ & FC & _ & K).
  destruct (fetch_authentic cfg pid m w LH LP WF c info K FC) as (A1 & A2 & A3).
  destruct (file_says info (map (url_string show_url) (mg_trackers m)) (file_nodes m w) (unix_now (w_clock w)) A3 HN) as (doc & d & E & C & E2 & C2 & SY).
  destruct (destination s ts template (ti_hash info) (ti_data info) RD PT A3) as (d' & E' & C' & DST). cbv zeta in DST.
  assert (d' = d) as ->. { rewrite E in E'. apply P_Bencode.encode_inj in E'; auto. congruence. }
  rewrite A1 in DST.
  set (path := expand ts _ _) in DST. exists path, (encode (VDict doc)). split.
  { exists doc, d. rewrite <- E. auto 8. }
  unfold save in H. set (tf := tf_new _ _ _ _) in *.
  assert (SD : save_dest (tf_info tf) template = Ret (output_arg path)).
  { assert (SD : save_dest (tf_info tf) template = save_dest (mkTI (mg_hash m) (ti_data info)) template). { unfold tf, tf_new. cbn [tf_info]. destruct info as [h0 d0]. cbn in A1. subst h0. reflexivity. }
    rewrite SD. unfold output_arg. destruct DST as [(TX & ->)|(TX & ->)].
    - rewrite TX. reflexivity.
    - apply bytes_eqb_neq in TX. rewrite TX. reflexivity. }
  rewrite SD in H. rewrite E2 in H.
  cbv zeta. destruct fail as [k|]; injection H as <- <-; [right|left]; eauto.
Qed.

(** Magnet links in the file have hashes of 20 bytes. *)
Lemma magnets_hash parse_url content k m : nth_error (batch_magnets parse_url content) k = Some m -> length (mg_hash m) = 20.
Proof.
  unfold batch_magnets, parse_magnets_file. intros H.
  assert (G : forall ls i acc ms, Forall (fun m => length (mg_hash m) = 20) acc -> magnets_go parse_url i ls acc = Ok ms -> Forall (fun m => length (mg_hash m) = 20) ms).
  { clear. induction ls as [|x ls IH]; intros i acc ms F H; cbn [magnets_go] in H; [injection H as <-; exact F|].
    destruct (negb (utf8_valid x)); [discriminate|]. destruct (trim (strip_cr x)) as [|c r] eqn:ET; [eauto|]. destruct (Byte.eqb c "#"); [eauto|].
    destruct (magnet_from_str parse_url (c :: r)) as [mg|] eqn:EM; [|discriminate]. apply IH in H; [exact H|]. apply Forall_app. split; [exact F|]. constructor; [|constructor].
    unfold magnet_from_str in EM. destruct (parse_url (c :: r)) as [u|]; [|discriminate]. destruct (negb _); [discriminate|].
    destruct (magnet_go parse_url (query_pairs u) None None []) as [[[ih dn] trs]|] eqn:EG; [|discriminate]. cbn [res_bind] in EM. destruct ih as [h|]; [|discriminate]. injection EM as <-. cbn [mg_hash].
    apply magnet_go_spec in EG. destruct EG as (EG & _). destruct EG as [(_ & X)|(_ & v & h' & _ & Y & Z)]; [discriminate|]. injection Z as <-.
    apply parse_xt_iff in Y. destruct Y as (y & _ & D). exact (proj1 D). }
  destruct (magnets_go parse_url 0 (raw_lines content []) []) as [ms|] eqn:E; [|destruct k; discriminate].
  apply G in E; [|constructor]. rewrite Forall_forall in E. apply E. eapply nth_error_In; eauto.
Qed.

Section B.
Context (show_url : url -> bytes) (parse_url : bytes -> option url) (cfg : config) (pid : bytes) (template : list elem) (content : bytes) (trips : nat -> trip).
Notation magnets := (batch_magnets parse_url content).
Notation bjob := (bjob show_url cfg pid template magnets trips).
Notation ops := (bjob_ops show_url cfg pid template magnets trips).
Notation ends := (bjob_ends show_url cfg pid template magnets trips).
Notation result := (bjob_result show_url cfg pid template magnets trips).
Notation cstep := (cstep show_url cfg pid template magnets trips).
Notation crun := (crun show_url cfg pid template magnets trips).
Notation run := (batch_cmd show_url parse_url cfg pid template content trips).
Notation n := (N.to_nat (c_batch_jobs cfg)).
Notation parsed := (parse_magnets_file parse_url content).
Implicit Types (s : cst) (h : list (obs magnet bool)).

Record cinv s h : Prop := {
  c_inv : binv result n parsed (c_batch s) h;
  c_part : forall k, exists rest, requests k (c_log s) ++ rest = ops k;
  c_fin : forall j r, In (j, r) (finished h) -> requests (fst j) (c_log s) = ops (fst j) /\ ends (fst j) = true
}.
Lemma cinv_start : cinv (c_start parse_url cfg content) [].
Proof. split; cbn [c_batch c_log c_start]; [apply binv_start|intros k; exists (ops k); reflexivity|intros ? ? []]. Qed.
Lemma requests_app k a b : requests k (a ++ b) = requests k a ++ requests k b.
Proof. exact (of_task_app k a b). Qed.
Lemma bstep_finished (b : bst magnet) e b' o : bstep result b e = Some (b', o) -> forall j r, In (j, r) (finished o) ->
  exists x, e = BWork (KFinish x) /\ nth_error (n_workers (b_pool b)) x = Some (WRunning j).
Proof.
  intros H j r F. destruct e as [|e]; cbn [bstep] in H.
  - exfalso. destruct (b_main b) as [[|m rest]|su to|ok|] eqn:EM; cbn [nstep] in H; try discriminate;
    repeat match type of H with
    | match (match ?x with _ => _ end) with _ => _ end = Some _ => destruct x eqn:?; try discriminate
    | match (if ?x then _ else _) with _ => _ end = Some _ => destruct x eqn:?; try discriminate
    end; injection H as <- <-; cbn in F; destruct F.
  - destruct (wstep _ (b_pool b) e) as [[p o']|] eqn:E1; [|discriminate]. injection H as <- <-.
    destruct e as [x|x|x|x|x|x|x]; cbn [wstep] in E1; try (cbn [nstep] in E1;
      repeat match type of E1 with
      | (match ?x with _ => _ end) = Some _ => destruct x eqn:?; try discriminate
      end; injection E1 as <- <-; cbn in F; destruct F; fail).
    exists x. split; [reflexivity|]. destruct (nth_error (n_workers (b_pool b)) x) as [[| | |j'| |]|] eqn:EN; try discriminate.
    cbn [nstep] in E1. rewrite EN in E1. injection E1 as <- <-. cbn in F. destruct F as [F|[]]. congruence.
Qed.
Lemma cinv_step s h e s' o : cinv s h -> cstep s e = Some (s', o) -> cinv s' (h ++ o).
Proof.
  intros [V1 V2 V3] H. destruct e as [e|k]; cbn [M_BatchCmd.cstep] in H.
  - destruct (may_finish _ _ _ _ _ _ s e) eqn:EM; [|discriminate]. destruct (bstep result (c_batch s) e) as [[b' o']|] eqn:EB; [|discriminate]. injection H as <- <-.
    split; cbn [c_batch c_log]; [eapply binv_step; eauto|exact V2|]. intros j r X. rewrite finished_app in X. apply in_app_or in X. destruct X as [X|X]; [eauto|].
    destruct (bstep_finished _ _ _ _ EB _ _ X) as (x & -> & EN). cbn [may_finish] in EM. rewrite EN in EM. apply andb_prop in EM. destruct EM as (E1 & E2).
    split; [|exact E1]. apply Nat.eqb_eq in E2. destruct (V2 (fst j)) as (rest & R). rewrite <- R in E2 |- *. rewrite app_length in E2.
    destruct rest; [now rewrite app_nil_r|cbn in E2; lia].
  - destruct (is_running _ _); [|discriminate]. destruct (nth_error (ops k) _) as [o'|] eqn:EN; [|discriminate]. injection H as <- <-. rewrite app_nil_r.
    destruct (V2 k) as (rest & R). rewrite <- R, nth_error_app2, Nat.sub_diag in EN by lia. destruct rest as [|x rest]; [discriminate|]. cbn in EN. injection EN as ->.
    assert (SK : requests k [(k, o')] = [o']) by apply of_task_same.
    split; cbn [c_batch c_log]; [exact V1| |].
    + intros i. rewrite requests_app. destruct (Nat.eq_dec i k) as [->|N].
      * exists rest. rewrite SK, <- app_assoc. exact R.
      * destruct (V2 i) as (r' & R'). exists r'. replace (requests i [(k, o')]) with (@nil op); [now rewrite app_nil_r|]. symmetry. apply of_task_other. auto.
    + intros j r X. destruct (V3 j r X) as (F1 & F2). split; [|exact F2]. rewrite requests_app. destruct (Nat.eq_dec (fst j) k) as [E|N].
      * exfalso. rewrite E in F1. rewrite F1 in R. apply (f_equal (@length op)) in R. rewrite app_length in R. cbn in R. lia.
      * replace (requests (fst j) [(k, o')]) with (@nil op); [now rewrite app_nil_r|]. symmetry. apply of_task_other. auto.
Qed.
Lemma cinv_run l : forall s h s' h', cinv s h -> crun s l = Some (s', h') -> cinv s' (h ++ h').
Proof.
  induction l as [|e l IH]; intros s h s' h' V H; cbn [M_BatchCmd.crun] in H; [injection H as <- <-; rewrite app_nil_r; exact V|].
  destruct (cstep s e) as [[s1 o1]|] eqn:E1; [|discriminate]. destruct (crun s1 l) as [[s2 o2]|] eqn:E2; [|discriminate]. injection H as <- <-.
  rewrite app_assoc. eapply IH; [|exact E2]. eapply cinv_step; eauto.
Qed.
Lemma creach l s h : run l = Some (s, h) -> cinv s h.
Proof. intros H. exact (cinv_run _ _ _ _ _ cinv_start H). Qed.

(** At the end every job has ended and made its requests. *)
Lemma all_ended l s h ok : n <> 0 -> run l = Some (s, h) -> b_main (c_batch s) = BExit ok ->
  (forall k, k < length magnets -> requests k (c_log s) = ops k /\ ends k = true) /\
  (ok = true <-> (exists ms, parsed = Ok ms) /\ forall k, k < length magnets -> result k = Ret true).
Proof.
  intros N0 H EX. pose proof (creach _ _ _ H) as V. pose proof (c_inv _ _ V) as VB. pose proof (b_st _ _ _ _ _ VB) as B. rewrite EX in B.
  assert (EMS : ms parsed = magnets) by reflexivity.
  destruct B as [(su & to & S1 & S2 & (C1 & C2 & C3) & S4 & S5)|[(P1 & ->)|((e & P1) & ->)]].
  - destruct (ended n _ _ N0 (b_inv _ _ _ _ _ VB) S2 (proj2 (b_flags _ _ _ _ _ VB)) (proj1 (b_flags _ _ _ _ _ VB))) as (PM & _).
    rewrite EMS in S1.
    assert (DV : forall j r, In (j, r) (delivered h) -> In (j, r) (finished h)). { intros j r X. apply (i_res _ _ _ (b_inv _ _ _ _ _ VB)). auto. }
    assert (KS : forall k, k < length magnets <-> In k (map fst (S_Nursery.accepted h))).
    { intros k. rewrite (i_num _ _ _ (b_inv _ _ _ _ _ VB)), in_seq, <- S1, map_length, <- (map_length fst), (i_num _ _ _ (b_inv _ _ _ _ _ VB)), seq_length. lia. }
    assert (KD : forall k, k < length magnets -> exists j r, In (j, r) (delivered h) /\ fst j = k).
    { intros k K. apply KS in K. apply in_map_iff in K. destruct K as (j & <- & IN). apply (Permutation_in _ (Permutation_sym PM)) in IN.
      apply in_map_iff in IN. destruct IN as ([j' r] & EJ & IN). cbn in EJ. subst j'. eauto. }
    split.
    + intros k K. destruct (KD k K) as (j & r & IN & <-). eapply (c_fin _ _ V). apply DV. exact IN.
    + rewrite S4, Nat.eqb_eq, C1, C2, (filter_all result 0). split.
      * intros ALL. split; [eauto|]. intros k K. destruct (KD k K) as (j & r & IN & <-). specialize (ALL _ IN). unfold yes in ALL. cbn [snd] in ALL.
        rewrite <- (b_fin _ _ _ _ _ VB j r (DV _ _ IN)). destruct r as [[]|]; congruence.
      * intros (_ & ALL) [j r] IN. rewrite (b_fin _ _ _ _ _ VB j r (DV _ _ IN)). unfold yes. cbn [snd]. rewrite ALL; [reflexivity|]. apply KS. apply in_map.
        apply (Permutation_in _ PM). apply in_map_iff. exists (j, r). auto.
  - unfold batch_magnets. rewrite P1. split; [intros k K; cbn in K; lia|]. split; [|auto]. intros _. split; [eauto|]. intros k K. cbn in K. lia.
  - unfold batch_magnets. rewrite P1. split; [intros k K; cbn in K; lia|]. split; [discriminate|]. intros ((ms & X) & _). discriminate.
Qed.

Context (src : bytes) (ts : list tok).
Hypothesis LP : length pid = 20.
Hypothesis READS : reads src ts.
Hypothesis PARSE : parse_template src = Ret (Ok template).
Hypothesis CUT : forall k b, concat (t_cut (trips k) b) = b.
Hypothesis SOUND : forall k m, nth_error magnets k = Some m -> sound_world m (t_world (trips k)).
Notation file_for := (S_BatchCmd.file_for show_url trips ts).

Lemma job_ops k m all b : nth_error magnets k = Some m -> bjob k = Some (Ret (all, b)) ->
  ops k = all /\
  ((all = [] /\ b = false) \/
   exists path contents, file_for k m path contents /\
    let whole := save_ops (output_arg path) (t_cut (trips k) contents) in
    (b = true /\ all = whole) \/ (b = false /\ exists i, all = firstn i whole)).
Proof.
  intros E J. split; [unfold bjob_ops; now rewrite J|]. unfold M_BatchCmd.bjob in J. rewrite E in J.
  eapply get_ops; eauto. eapply magnets_hash; eauto.
Qed.
Lemma in_requests k o log : In (k, o) log <-> In o (requests k log).
Proof.
  unfold requests. rewrite in_map_iff. split.
  - intros X. exists (k, o). split; [reflexivity|]. apply filter_In. split; [exact X|apply Nat.eqb_refl].
  - intros ([k' o'] & E & X). apply filter_In in X. destruct X as (X & Y). apply Nat.eqb_eq in Y. cbn in E, Y. now subst.
Qed.
Lemma saved l s h ok : n <> 0 -> run l = Some (s, h) -> b_main (c_batch s) = BExit ok ->
  forall k m all, nth_error magnets k = Some m -> bjob k = Some (Ret (all, true)) ->
  exists path contents, file_for k m path contents /\
    if bytes_eqb path (bs "-")
    then (forall j o, In (j, o) (c_log s) -> j <> k -> forall c, o <> OStdout c) -> on_stdout (c_log s) = contents
    else forall cwd f, (forall j o, In (j, o) (c_log s) -> j <> k -> ~ opens cwd (locate cwd path) (j, o)) -> files_after cwd f (c_log s) (locate cwd path) = Some contents.
Proof.
  intros N0 H EX k m all E J. destruct (all_ended _ _ _ _ N0 H EX) as (AE & _). destruct (AE k) as (RQ & _). { apply nth_error_Some. rewrite E. discriminate. }
  destruct (job_ops k m all true E J) as (OP & [(_ & X)|(path & contents & F & [(_ & W)|(X & _)])]); try discriminate.
  exists path, contents. split; [exact F|]. rewrite OP, W in RQ. unfold output_arg in RQ. destruct (bytes_eqb path (bs "-")).
  - intros O. rewrite (stdout_alone k _ O). change (of_task k (c_log s)) with (requests k (c_log s)). rewrite RQ. cbn [save_ops]. rewrite map_map, map_id. apply CUT.
  - intros cwd f O. cbn [save_ops] in RQ.
    destruct (alone cwd f k path (t_cut (trips k) contents) (c_log s)) as (_ & P).
    + exists []. rewrite app_nil_r. exact RQ.
    + exact O.
    + change (of_task k (c_log s)) with (requests k (c_log s)) in P. rewrite RQ in P. destruct P as (cs & E1 & E2 & _).
      unfold files_after. rewrite E2. f_equal. apply (f_equal (map (fun o => match o with OWrite _ c => c | _ => [] end))) in E1. rewrite !map_map, !map_id in E1. rewrite <- E1. apply CUT.
Qed.
End B.
