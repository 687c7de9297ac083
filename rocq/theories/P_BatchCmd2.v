From Verif Require Import Base BaseFacts M_Net M_Sha1 M_Types M_Tracker M_Torrent M_Utf8 M_Template S_Template P_Template S_Path M_Save P_Save S_Disk P_Disk M_Magnet M_Config M_Http
  P_Types   M_Nursery S_Nursery P_Nursery M_Resolve P_Resolve M_Batch P_Batch M_Get S_Get P_Get M_BatchCmd S_Bencode M_Bencode S_Download S_TorrentFile S_BatchCmd P_BatchCmd.
Local Open Scope nat_scope.

Lemma finite_choice {X} (P : nat -> X -> Prop) n : (forall k, k < n -> exists x, P k x) -> exists l, length l = n /\ forall k x, nth_error l k = Some x -> P k x.
Proof.
  induction n as [|n IH]; intros H; [exists []; split; [reflexivity|intros [|k] x; discriminate]|].
  destruct IH as (l & L & Q); [intros k K; apply H; lia|]. destruct (H n) as (x & PX); [lia|]. exists (l ++ [x]). split; [rewrite app_length; cbn; lia|].
  intros k y E. destruct (Nat.lt_ge_cases k (length l)) as [K|K].
  - rewrite nth_error_app1 in E by lia. eauto.
  - rewrite nth_error_app2 in E by lia. destruct (k - length l) as [|d] eqn:ED; cbn in E; [|destruct d; discriminate]. injection E as <-. assert (k = n) by lia. subst k. exact PX.
Qed.

(** A last component that is a name *)
Lemma locate_last cwd p s : no_slash s -> plain_component s ->
  (exists dir, locate cwd (p ++ "/"%byte :: s) = s :: dir) /\ exists dir, locate cwd s = s :: dir.
Proof.
  intros H1 (N1 & N2 & N3).
  assert (EN : forall dir, enter dir s = s :: dir). { intros dir. unfold enter. apply bytes_eqb_neq in N1, N2, N3. now rewrite N1, N2, N3. }
  unfold locate. split.
  - rewrite split_app by auto. rewrite fold_left_app. cbn [fold_left]. rewrite EN. eauto.
  - rewrite split_no_slash by auto. cbn [fold_left]. rewrite EN. eauto.
Qed.
Lemma hash_last_place ts dir last cwd n1 n2 h1 h2 :
  ts = dir ++ Ch "/" :: last \/ ts = last ->
  slash_free last -> In THash last -> length h1 = 20 -> length h2 = 20 -> h1 <> h2 ->
  locate cwd (expand ts (sanitize n1) (show_info_hash h1)) <> locate cwd (expand ts (sanitize n2) (show_info_hash h2)).
Proof.
  intros HR SF HI L1 L2 NE E.
  set (f1 := expand last (sanitize n1) (show_info_hash h1)) in *.
  set (f2 := expand last (sanitize n2) (show_info_hash h2)) in *.
  assert (NF : f1 <> f2).
  { apply expand_no_collision; auto; [now rewrite !show_length, L1, L2|].
    intros Eh. apply NE. pose proof (hex_decode_show h1) as E1. pose proof (hex_decode_show h2) as E2.
    rewrite Eh in E1. congruence. }
  assert (S1 : no_slash f1) by (apply expand_no_slash; auto using sanitize_no_slash, hash_no_slash).
  assert (S2 : no_slash f2) by (apply expand_no_slash; auto using sanitize_no_slash, hash_no_slash).
  assert (PC : forall n h, length h = 20 -> plain_component (expand last n (show_info_hash h))).
  { intros n h L. destruct (show_info_hash h) as [|b r] eqn:Eh.
    - pose proof (show_length h). rewrite Eh, L in *. discriminate.
    - apply (plain_of_char _ b).
      + unfold expand. apply in_flat_map. exists THash. split; [auto|left; reflexivity].
      + intros ->. pose proof (show_hex h) as HF. rewrite Eh in HF. inversion HF as [|? ? Hb _]. cbv in Hb.
        repeat (destruct Hb as [Hb|Hb]; [discriminate|]). destruct Hb. }
  pose proof (PC (sanitize n1) h1 L1) as P1. pose proof (PC (sanitize n2) h2 L2) as P2. fold f1 in P1. fold f2 in P2.
  destruct HR as [-> | ->].
  - rewrite !expand_app in E.
    change (expand (Ch "/" :: last) (sanitize n1) (show_info_hash h1)) with ("/"%byte :: f1) in E.
    change (expand (Ch "/" :: last) (sanitize n2) (show_info_hash h2)) with ("/"%byte :: f2) in E.
    match type of E with locate _ (?a ++ _ :: _) = locate _ (?b ++ _ :: _) =>
      destruct (proj1 (locate_last cwd a f1 S1 P1)) as (d1 & E1); destruct (proj1 (locate_last cwd b f2 S2 P2)) as (d2 & E2) end.
    rewrite E1, E2 in E. congruence.
  - fold f1 f2 in E. destruct (proj2 (locate_last cwd [] f1 S1 P1)) as (d1 & E1). destruct (proj2 (locate_last cwd [] f2 S2 P2)) as (d2 & E2). congruence.
Qed.
Lemma hash_not_dash ts n h : In THash ts -> length h = 20 -> expand ts n (show_info_hash h) <> bs "-".
Proof.
  intros HI L E. assert (Lx : 40 <= length (expand ts n (show_info_hash h))); [|rewrite E in Lx; cbn in Lx; lia].
  clear E. induction ts as [|x r IH]; [destruct HI|]. unfold expand in *. cbn [flat_map]. rewrite app_length.
  destruct HI as [->|HI]; [rewrite show_length, L; lia|]. specialize (IH HI). lia.
Qed.

Section B.
Context (show_url : url -> bytes) (parse_url : bytes -> option url) (cfg : config) (pid : bytes) (template : list elem) (content : bytes) (trips : nat -> trip).
Notation magnets := (batch_magnets parse_url content).
Notation bjob := (bjob show_url cfg pid template magnets trips).
Notation ops := (bjob_ops show_url cfg pid template magnets trips).
Notation result := (bjob_result show_url cfg pid template magnets trips).
Notation run := (batch_cmd show_url parse_url cfg pid template content trips).
Notation n := (N.to_nat (c_batch_jobs cfg)).
Notation parsed := (parse_magnets_file parse_url content).
Context (src : bytes) (ts : list tok).
Hypothesis N0 : c_batch_jobs cfg <> 0%N.
Hypothesis LP : length pid = 20.
Hypothesis READS : reads src ts.
Hypothesis PARSE : parse_template src = Ret (Ok template).
Hypothesis CUT : forall k b, concat (t_cut (trips k) b) = b.
Hypothesis SOUND : forall k m, nth_error magnets k = Some m -> sound_world m (t_world (trips k)).
Notation file_for := (S_BatchCmd.file_for show_url trips ts).
Notation whole k pc := (save_ops (output_arg (fst pc)) (t_cut (trips k) (snd pc))).

Lemma n_pos : n <> 0.
Proof using N0. intros E. apply N0. clear - E. lia. Qed.
Lemma result_true k : k < length magnets -> result k = Ret true -> exists m all, nth_error magnets k = Some m /\ bjob k = Some (Ret (all, true)).
Proof using.
  intros K R. destruct (nth_error magnets k) as [m|] eqn:E; [|apply nth_error_None in E; clear - K E; lia]. unfold bjob_result in R.
  destruct (bjob k) as [[[all b]|]|] eqn:J; try discriminate. injection R as ->. eauto.
Qed.
Lemma truthful_cmd l s h ok : run l = Some (s, h) -> b_main (c_batch s) = BExit ok ->
  (ok = true <-> (exists ms, parsed = Ok ms) /\ forall k, k < length magnets -> exists all, bjob k = Some (Ret (all, true))).
Proof using N0.
  intros H EX. rewrite (proj2 (all_ended _ _ _ _ _ _ _ _ _ _ _ n_pos H EX)). split; intros (A & B); (split; [exact A|]); intros k K.
  - destruct (result_true k K (B k K)) as (m & all & _ & J). eauto.
  - destruct (B k K) as (all & J). unfold bjob_result. now rewrite J.
Qed.
Lemma all_saved l s h : run l = Some (s, h) -> b_main (c_batch s) = BExit true ->
  exists files, length files = length magnets /\
    (forall k m pc, nth_error magnets k = Some m -> nth_error files k = Some pc -> file_for k m (fst pc) (snd pc)) /\
    forall k pc, nth_error files k = Some pc -> requests k (c_log s) = whole k pc.
Proof.
  intros H EX. destruct (all_ended _ _ _ _ _ _ _ _ _ _ _ n_pos H EX) as (AE & T). destruct (proj1 T eq_refl) as (_ & RT).
  destruct (finite_choice (fun k (pc : bytes * bytes) => (forall m, nth_error magnets k = Some m -> file_for k m (fst pc) (snd pc)) /\ requests k (c_log s) = whole k pc) (length magnets)) as (files & L & Q).
  - intros k K. destruct (result_true k K (RT k K)) as (m & all & E & J).
    destruct (job_ops show_url parse_url cfg pid template content trips src ts LP READS PARSE SOUND k m all true E J) as (OP & [(_ & X)|(path & contents & F & [(_ & W)|(X & _)])]); try discriminate.
    exists (path, contents). cbn [fst snd]. split; [intros m' E'; rewrite E in E'; injection E' as <-; exact F|]. rewrite (proj1 (AE k K)), OP. exact W.
  - exists files. split; [exact L|]. split; [intros k m pc E1 E2; exact (proj1 (Q k pc E2) m E1)|intros k pc E; exact (proj2 (Q k pc E))].
Qed.
(** Only the jobs for the magnet links make requests. *)
Lemma log_jobs l s h j o : run l = Some (s, h) -> In (j, o) (c_log s) -> j < length magnets.
Proof.
  intros H X. pose proof (creach _ _ _ _ _ _ _ _ _ _ H) as V. destruct (c_part _ _ _ _ _ _ _ _ _ V j) as (rest & R). apply in_requests in X.
  assert (Y : In o (ops j)) by (rewrite <- R; apply in_or_app; auto). apply nth_error_Some. intros E. unfold bjob_ops, M_BatchCmd.bjob in Y. rewrite E in Y. destruct Y.
Qed.
Lemma whole_opens cwd q k pc o : In o (whole k pc) -> opens cwd q (k, o) -> fst pc <> bs "-" /\ q = locate cwd (fst pc).
Proof.
  intros X (p & E & Q). cbn [snd] in E. subst o. unfold output_arg in X. destruct (bytes_eqb_spec (fst pc) (bs "-")) as [E|E].
  - exfalso. cbn [save_ops] in X. apply in_map_iff in X. destruct X as (? & ? & _). discriminate.
  - split; [exact E|]. cbn [save_ops] in X. destruct X as [X|[X|X]]; [discriminate|congruence|]. apply in_map_iff in X. destruct X as (? & ? & _). discriminate.
Qed.
Lemma saved_distinct l s h : run l = Some (s, h) -> b_main (c_batch s) = BExit true ->
  exists files, length files = length magnets /\
    (forall k m path contents, nth_error magnets k = Some m -> nth_error files k = Some (path, contents) -> file_for k m path contents) /\
    (forall cwd f, 
      (forall j k pj cj pk ck, nth_error files j = Some (pj, cj) -> nth_error files k = Some (pk, ck) -> j <> k -> pj <> bs "-" -> pk <> bs "-" -> locate cwd pj <> locate cwd pk) ->
      (forall k path contents, nth_error files k = Some (path, contents) -> path <> bs "-" -> files_after cwd f (c_log s) (locate cwd path) = Some contents) /\
      (forall q, (forall k path contents, nth_error files k = Some (path, contents) -> path <> bs "-" -> q <> locate cwd path) -> files_after cwd f (c_log s) q = f q)) /\
    (forall k contents, nth_error files k = Some (bs "-", contents) -> (forall j c, nth_error files j = Some (bs "-", c) -> j = k) -> on_stdout (c_log s) = contents).
Proof.
  intros H EX. destruct (all_saved l s h H EX) as (files & L & FF & RQ). exists files. split; [exact L|]. split; [intros k m path contents E1 E2; exact (FF k m (path, contents) E1 E2)|].
  assert (HAS : forall j o, In (j, o) (c_log s) -> exists pc, nth_error files j = Some pc /\ In o (whole j pc)).
  { intros j o X. pose proof (log_jobs _ _ _ _ _ H X) as J. destruct (nth_error files j) as [pc|] eqn:E; [|apply nth_error_None in E; lia]. exists pc. split; [reflexivity|].
    rewrite <- (RQ j pc E). apply in_requests. exact X. }
  split.
  - intros cwd f D. split.
    + intros k path contents E ND. destruct (alone cwd f k path (t_cut (trips k) contents) (c_log s)) as (_ & P).
      * exists []. rewrite app_nil_r. pose proof (RQ k _ E) as R. cbn [fst snd] in R. unfold output_arg in R. apply bytes_eqb_neq in ND. rewrite ND in R. exact R.
      * intros j o X N O. destruct (HAS j o X) as ([pj cj] & EJ & XJ). destruct (whole_opens _ _ _ _ _ XJ O) as (NJ & EQ). cbn [fst] in *. exact (D k j _ _ _ _ E EJ (not_eq_sym N) ND NJ EQ).
      * change (of_task k (c_log s)) with (requests k (c_log s)) in P. rewrite (RQ k _ E) in P. cbn [fst snd] in P. unfold output_arg in P. apply bytes_eqb_neq in ND. rewrite ND in P. cbn [save_ops] in P.
        destruct P as (cs & E1 & E2 & _). unfold files_after. rewrite E2. f_equal. apply (f_equal (map (fun o => match o with OWrite _ c => c | _ => [] end))) in E1. rewrite !map_map, !map_id in E1. rewrite <- E1. apply CUT.
    + intros q HQ. apply (proj1 (untouched cwd f q (c_log s) ltac:(intros [j o] X O; destruct (HAS j o X) as ([pj cj] & EJ & XJ); destruct (whole_opens _ _ _ _ _ XJ O) as (NJ & EQ); exact (HQ _ _ _ EJ NJ EQ)))).
  - intros k contents E U. rewrite (stdout_alone k).
    + change (of_task k (c_log s)) with (requests k (c_log s)). rewrite (RQ k _ E). change (output_arg (fst (bs "-", contents))) with Stdout. cbn [save_ops]. rewrite map_map, map_id. apply CUT.
    + intros j o X N c ->. destruct (HAS j _ X) as ([pj cj] & EJ & XJ). unfold output_arg in XJ. cbn [fst] in XJ. destruct (bytes_eqb_spec pj (bs "-")) as [->|ND].
      * apply N. eapply U. exact EJ.
      * destruct XJ as [XJ|[XJ|XJ]]; try discriminate. apply in_map_iff in XJ. destruct XJ as (? & ? & _). discriminate.
Qed.
(** {hash} in the last component of the template *)
Lemma saved_hash l s h dir last : run l = Some (s, h) -> b_main (c_batch s) = BExit true ->
  ts = dir ++ Ch "/" :: last \/ ts = last -> slash_free last -> In THash last -> NoDup (map mg_hash magnets) ->
  exists files, length files = length magnets /\
    (forall k m path contents, nth_error magnets k = Some m -> nth_error files k = Some (path, contents) -> file_for k m path contents) /\
    forall cwd f,
      (forall k path contents, nth_error files k = Some (path, contents) -> files_after cwd f (c_log s) (locate cwd path) = Some contents) /\
      (forall q, (forall k path contents, nth_error files k = Some (path, contents) -> q <> locate cwd path) -> files_after cwd f (c_log s) q = f q).
Proof.
  intros H EX TS SF IH ND. destruct (saved_distinct l s h H EX) as (files & L & FF & D & _). exists files. split; [exact L|]. split; [exact FF|].
  assert (M : forall k pc, nth_error files k = Some pc -> exists m, nth_error magnets k = Some m).
  { intros k pc E. destruct (nth_error magnets k) as [m|] eqn:EM; [eauto|]. exfalso. apply nth_error_None in EM. assert (k < length files) by (apply nth_error_Some; congruence). lia. }
  assert (NDASH : forall k path contents, nth_error files k = Some (path, contents) -> path <> bs "-").
  { intros k path contents E. destruct (M _ _ E) as (m & EM). destruct (FF k m path contents EM E) as (doc & d & _ & _ & _ & _ & _ & ->). apply hash_not_dash.
    - destruct TS as [-> | ->]; [apply in_or_app; right; right; exact IH|exact IH].
    - eapply magnets_hash; eauto. }
  intros cwd f. destruct (D cwd f) as (D1 & D2).
  - intros j k pj cj pk ck EJ EK N _ _. destruct (M _ _ EJ) as (mj & MJ). destruct (M _ _ EK) as (mk & MK).
    destruct (FF j mj pj cj MJ EJ) as (doc & d & _ & _ & _ & _ & _ & ->). destruct (FF k mk pk ck MK EK) as (doc' & d' & _ & _ & _ & _ & _ & ->).
    eapply hash_last_place; eauto; try (eapply magnets_hash; eauto). intros EH. apply N. eapply NoDup_nth_error with (l := map mg_hash magnets); auto.
    + apply nth_error_Some. rewrite nth_error_map, MJ. discriminate.
    + rewrite !nth_error_map, MJ, MK. cbn. congruence.
  - split; [intros k path contents E; eauto|]. intros q Q. apply D2. intros k path contents E _. eauto.
Qed.
End B.

(** The jobs are the commands 'get'. *)
Lemma bjob_gets show_url cfg pid template magnets trips k m : nth_error magnets k = Some m -> bjob show_url cfg pid template magnets trips k = gets show_url cfg pid template (trips k) m.
Proof. intros E. unfold bjob, gets. now rewrite E. Qed.
Lemma truthful_gets show_url parse_url cfg pid template content trips l s h ok : c_batch_jobs cfg <> 0%N ->
  batch_cmd show_url parse_url cfg pid template content trips l = Some (s, h) -> b_main (c_batch s) = BExit ok ->
  (ok = true <-> (exists ms, parse_magnets_file parse_url content = Ok ms) /\
     forall k m, nth_error (batch_magnets parse_url content) k = Some m -> exists ops, gets show_url cfg pid template (trips k) m = Some (Ret (ops, true))).
Proof.
  intros N0 H EX. rewrite (truthful_cmd show_url parse_url cfg pid template content trips N0 l s h ok H EX).
  split; intros (A & B); (split; [exact A|]).
  - intros k m E. rewrite <- (bjob_gets _ _ _ _ _ _ _ _ E). apply B. apply nth_error_Some. congruence.
  - intros k K. destruct (nth_error (batch_magnets parse_url content) k) as [m|] eqn:E; [|apply nth_error_None in E; lia]. rewrite (bjob_gets _ _ _ _ _ _ _ _ E). eauto.
Qed.
Lemma ends_gets show_url cfg pid template magnets trips :
  (forall k m, nth_error magnets k = Some m -> gets show_url cfg pid template (trips k) m <> None) -> forall k, k < length magnets -> bjob_ends show_url cfg pid template magnets trips k = true.
Proof.
  intros H k K. destruct (nth_error magnets k) as [m|] eqn:E; [|apply nth_error_None in E; lia]. unfold bjob_ends. rewrite (bjob_gets _ _ _ _ _ _ _ _ E). specialize (H k m E).
  destruct (gets _ _ _ _ _ _); congruence.
Qed.
Lemma waits_gets show_url cfg pid template magnets trips n : n < length magnets ->
  (forall k m, k < n -> nth_error magnets k = Some m -> gets show_url cfg pid template (trips k) m = None) -> forall k, k < n -> bjob_ends show_url cfg pid template magnets trips k = false.
Proof.
  intros L H k K. destruct (nth_error magnets k) as [m|] eqn:E; [|apply nth_error_None in E; lia]. unfold bjob_ends. rewrite (bjob_gets _ _ _ _ _ _ _ _ E). now rewrite (H k m K E).
Qed.
