(** As many jobs that never end as there are workers *)
From Verif Require Import Base BaseFacts M_Types M_Tracker M_Template M_Save M_Magnet M_Config M_Http M_Nursery S_Nursery P_Nursery M_Resolve M_Batch M_Get M_BatchCmd.
Local Open Scope nat_scope.

Section B.
Context (show_url : url -> bytes) (parse_url : bytes -> option url) (cfg : config) (pid : bytes) (template : list elem) (content : bytes) (trips : nat -> trip).
Notation magnets := (batch_magnets parse_url content).
Notation ends := (bjob_ends show_url cfg pid template magnets trips).
Notation cstep := (cstep show_url cfg pid template magnets trips).
Notation crun := (crun show_url cfg pid template magnets trips).
Notation run := (batch_cmd show_url parse_url cfg pid template content trips).
Notation n := (N.to_nat (c_batch_jobs cfg)).

Definition jobs (l : list magnet) : list (job magnet) := combine (seq 0 (length l)) l.
Lemma combine_snoc {X Y} (a : list X) : forall (b : list Y) x y, length a = length b -> combine (a ++ [x]) (b ++ [y]) = combine a b ++ [(x, y)].
Proof. induction a as [|a0 a IH]; intros [|b0 b] x y H; try discriminate; [reflexivity|]. cbn. f_equal. apply IH. cbn in H. lia. Qed.
Lemma jobs_snoc l m : jobs (l ++ [m]) = jobs l ++ [(length l, m)].
Proof. unfold jobs. rewrite app_length. cbn [length]. rewrite Nat.add_1_r, seq_S. cbn [Nat.add]. apply combine_snoc. apply seq_length. Qed.
Lemma jobs_length l : length (jobs l) = length l.
Proof. etransitivity; [apply combine_length|]. rewrite seq_length. lia. Qed.
Lemma jobs_nth l : forall k j, nth_error (jobs l) k = Some j -> fst j = k.
Proof.
  unfold jobs. intros k j. assert (G : forall a k, nth_error (combine (seq a (length l)) l) k = Some j -> fst j = a + k).
  { clear k. induction l as [|m l IH]; intros a [|k] E; cbn in E; try discriminate; [injection E as <-; cbn; lia|]. apply IH in E. lia. }
  intros E. apply G in E. exact E.
Qed.

Lemma run_cat a : forall b s s1 h1 s2 h2, crun s a = Some (s1, h1) -> crun s1 b = Some (s2, h2) -> crun s (a ++ b) = Some (s2, h1 ++ h2).
Proof.
  induction a as [|e a IH]; intros b s s1 h1 s2 h2 A B; cbn [app M_BatchCmd.crun] in *; [injection A as <- <-; exact B|].
  destruct (cstep s e) as [[s3 o3]|]; [|discriminate]. destruct (crun s3 a) as [[s4 o4]|] eqn:E; [|discriminate]. injection A as <- <-.
  rewrite (IH _ _ _ _ _ _ E B), app_assoc. reflexivity.
Qed.
Lemma spawn_run rest : forall pre, exists h,
  crun (mkC (mkB (BSpawn rest) (mkN (jobs pre) false false 1 (repeat WIdle n) [] true (length pre))) []) (repeat (CTask BMain) (length rest + 1)) =
  Some (mkC (mkB (BRecv 0 0) (mkN (jobs (pre ++ rest)) true false 0 (repeat WIdle n) [] true (length (pre ++ rest)))) [], h) /\ started h = [].
Proof.
  induction rest as [|m rest IH]; intros pre.
  - rewrite app_nil_r. eexists. split; reflexivity.
  - destruct (IH (pre ++ [m])) as (h & R & ST). rewrite <- app_assoc in R. cbn [app] in R. cbn [length Nat.add repeat M_BatchCmd.crun]. 
    cbn [M_BatchCmd.cstep may_finish bstep c_batch b_main b_pool nstep n_handles n_closed n_queue n_done n_workers n_out n_alive n_next c_log].
    rewrite jobs_snoc, app_length in R. cbn [length] in R. rewrite Nat.add_1_r in R. rewrite R. eexists. split; [reflexivity|]. exact ST.
Qed.
Definition begin_ (i : nat) : list cev := map (fun e => CTask (BWork e)) [KTake i; KCheck i; KStart i].
Lemma set_mid {A} (a : list A) x y b : set_nth (a ++ x :: b) (length a) y = a ++ y :: b.
Proof. unfold set_nth. rewrite firstn_app, Nat.sub_diag, firstn_all, skipn_app, Nat.sub_diag, skipn_all. cbn. now rewrite app_nil_r. Qed.
Lemma nth_mid {A} (a : list A) x b : nth_error (a ++ x :: b) (length a) = Some x.
Proof. rewrite nth_error_app2, Nat.sub_diag by lia. reflexivity. Qed.
Definition busy (a q : list (job magnet)) (k : nat) : cst := mkC (mkB (BRecv 0 0) (mkN q true false 0 (map WRunning a ++ repeat WIdle k) [] true (length magnets))) [].
Lemma begin_run a j q k : exists h, crun (busy a (j :: q) (S k)) (begin_ (length a)) = Some (busy (a ++ [j]) q k, h) /\ started h = [j].
Proof.
  assert (G : forall pre post : list (wstate magnet bool), exists h,
    crun (mkC (mkB (BRecv 0 0) (mkN (j :: q) true false 0 (pre ++ WIdle :: post) [] true (length magnets))) []) (begin_ (length pre)) =
    Some (mkC (mkB (BRecv 0 0) (mkN q true false 0 (pre ++ WRunning j :: post) [] true (length magnets))) [], h) /\ started h = [j]).
  { intros pre post. unfold begin_. cbn [map M_BatchCmd.crun M_BatchCmd.cstep may_finish bstep wstep c_batch b_pool b_main nstep n_workers n_queue c_log].
    repeat (unfold set_w; rewrite ?nth_mid, ?set_mid; cbn [c_batch b_pool b_main n_workers n_queue n_closed n_done n_handles n_out n_alive n_next c_log]).
    eexists. split; reflexivity. }
  destruct (G (map WRunning a) (repeat WIdle k)) as (h & R & S). exists h. rewrite map_length in R. split; [|exact S]. unfold busy. rewrite map_app, <- app_assoc. exact R.
Qed.
Lemma begin_all b : forall a q, exists h, crun (busy a (b ++ q) (length b)) (flat_map begin_ (seq (length a) (length b))) = Some (busy (a ++ b) q 0, h) /\ started h = b.
Proof.
  induction b as [|j b IH]; intros a q; cbn [length seq flat_map app].
  - rewrite app_nil_r. eexists. split; reflexivity.
  - destruct (begin_run a j (b ++ q) (length b)) as (h1 & R1 & S1). destruct (IH (a ++ [j]) q) as (h2 & R2 & S2). rewrite app_length in R2. cbn [length] in R2. rewrite Nat.add_1_r in R2.
    rewrite <- app_assoc in R2. cbn [app] in R2. exists (h1 ++ h2). split; [eapply run_cat; eauto|]. unfold started in *; rewrite pick_app, S1, S2. reflexivity.
Qed.
Lemma starved : n <> 0 -> n < length magnets -> (forall k, k < n -> ends k = false) ->
  exists l s h, run l = Some (s, h) /\ (forall e, cstep s e = None) /\ b_main (c_batch s) = BRecv 0 0 /\ c_log s = [] /\
    forall j, In j (started h) -> fst j < n.
Proof.
  intros N0 L HG.
  destruct (spawn_run magnets []) as (h1 & R1 & S1). cbn [app length] in R1.
  assert (EJ : jobs magnets = firstn n (jobs magnets) ++ skipn n (jobs magnets)) by (symmetry; apply firstn_skipn).
  assert (LJ : length (firstn n (jobs magnets)) = n) by (rewrite firstn_length, jobs_length; lia).
  destruct (begin_all (firstn n (jobs magnets)) [] (skipn n (jobs magnets))) as (h2 & R2 & S2). rewrite <- EJ, LJ in R2. cbn [app length] in R2.
  assert (ES : c_start parse_url cfg content = mkC (mkB (BSpawn magnets) (mkN [] false false 1 (repeat WIdle n) [] true 0)) []).
  { unfold c_start, b_start, batch_magnets in *. destruct (parse_magnets_file parse_url content) as [[|m ms]|]; cbn [length] in L; try lia. reflexivity. }
  exists (repeat (CTask BMain) (length magnets + 1) ++ flat_map begin_ (seq 0 n)), (busy (firstn n (jobs magnets)) (skipn n (jobs magnets)) 0), (h1 ++ h2).
  assert (RUN : run (repeat (CTask BMain) (length magnets + 1) ++ flat_map begin_ (seq 0 n)) = Some (busy (firstn n (jobs magnets)) (skipn n (jobs magnets)) 0, h1 ++ h2)).
  { unfold batch_cmd. rewrite ES. eapply run_cat; [exact R1|]. exact R2. }
  split; [exact RUN|].
  assert (NTH : forall x w, nth_error (map (@WRunning magnet bool) (firstn n (jobs magnets)) ++ []) x = Some w -> exists j, w = WRunning j /\ fst j < n).
  { intros x w E. rewrite app_nil_r, nth_error_map in E. destruct (nth_error (firstn n (jobs magnets)) x) as [j|] eqn:EX; [|discriminate]. injection E as <-. exists j. split; [reflexivity|].
    assert (X : x < n) by (rewrite <- LJ; apply nth_error_Some; congruence). rewrite (jobs_nth magnets x j); [exact X|].
    rewrite EJ, nth_error_app1 by (rewrite LJ; exact X). exact EX. }
  assert (OPS : forall k, k < n -> bjob_ops show_url cfg pid template magnets trips k = []).
  { intros k K. specialize (HG k K). unfold bjob_ends in HG. unfold bjob_ops. destruct (bjob _ _ _ _ _ _ k); [discriminate|reflexivity]. }
  split; [|split; [reflexivity|split; [reflexivity|]]].
  - intros [[|[x|x|x|x|x|x|x]]|k]; unfold busy; cbn [M_BatchCmd.cstep may_finish bstep wstep c_batch b_pool b_main nstep n_workers n_queue n_closed n_done n_handles n_out n_alive n_next c_log repeat].
    + destruct (forallb is_stopped _) eqn:FB; [|reflexivity]. exfalso. rewrite forallb_forall in FB.
      destruct (firstn n (jobs magnets)) as [|j r]; [cbn in LJ; congruence|]. specialize (FB (WRunning j) (or_introl eq_refl)). discriminate.
    + destruct (nth_error _ x) as [w|] eqn:E; [|reflexivity]. destruct (NTH _ _ E) as (j & -> & _). reflexivity.
    + destruct (nth_error _ x) as [w|] eqn:E; [|reflexivity]. destruct (NTH _ _ E) as (j & -> & _). reflexivity.
    + destruct (nth_error _ x) as [w|] eqn:E; [|reflexivity]. destruct (NTH _ _ E) as (j & -> & _). reflexivity.
    + destruct (nth_error _ x) as [w|] eqn:E; [|reflexivity]. destruct (NTH _ _ E) as (j & -> & K). rewrite (HG _ K). reflexivity.
    + destruct (nth_error _ x) as [w|] eqn:E; [|reflexivity]. destruct (NTH _ _ E) as (j & -> & _). reflexivity.
    + destruct (nth_error _ x) as [w|] eqn:E; [|reflexivity]. destruct (NTH _ _ E) as (j & -> & _). reflexivity.
    + reflexivity.
    + destruct (is_running k _) eqn:IR; [|reflexivity]. unfold is_running in IR. cbn [n_workers] in IR. apply existsb_exists in IR. destruct IR as (w & W & E).
      apply In_nth_error in W. destruct W as (x & W). destruct (NTH _ _ W) as (j & -> & K). apply Nat.eqb_eq in E. subst k. rewrite (OPS _ K). destruct (length _); reflexivity.
  - intros j X. unfold started in *; rewrite pick_app, S1, S2 in X. cbn [app] in X. apply In_nth_error in X. destruct X as (x & X). destruct (NTH x (WRunning j)) as (j' & E & K).
    + rewrite app_nil_r, nth_error_map, X. reflexivity.
    + injection E as <-. exact K.
Qed.
End B.
