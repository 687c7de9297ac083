From Verif Require Import Base BaseFacts M_Net M_Tracker M_DhtMsg M_Dht S_Async S_Dht P_Nursery.
From Coq Require Import Permutation Sorted.

(** *** Equality tests *)
Lemma ip_eqb_eq a b : ip_eqb a b = true <-> a = b.
Proof. destruct a, b; cbn [ip_eqb]; rewrite ?N.eqb_eq; split; congruence. Qed.
Lemma sa_eqb_eq a b : sa_eqb a b = true <-> a = b.
Proof.
  destruct a as [a1 a2], b as [b1 b2]. unfold sa_eqb. cbn [sa_ip sa_port]. rewrite andb_true_iff, ip_eqb_eq, N.eqb_eq. split; [intros (-> & ->); reflexivity|].
  intros E. injection E. auto.
Qed.
Lemma key_eqb_eq a b : key_eqb a b = true <-> a = b.
Proof.
  destruct a, b. unfold key_eqb. cbn [fst snd]. rewrite andb_true_iff, sa_eqb_eq, bytes_eqb_eq. split; [intros (-> & ->); reflexivity|].
  intros E. injection E. auto.
Qed.
Lemma key_mem_in k l : key_mem k l = true <-> In k l.
Proof.
  unfold key_mem. rewrite existsb_exists. split.
  - intros (x & X & E). apply key_eqb_eq in E. subst. exact X.
  - intros X. exists k. split; [exact X|apply key_eqb_eq; reflexivity].
Qed.
Lemma key_remove_in k x l : In x (key_remove k l) <-> In x l /\ x <> k.
Proof.
  unfold key_remove. rewrite filter_In, negb_true_iff. split; intros (A & B); split; auto.
  - intros ->. rewrite (proj2 (key_eqb_eq k k) eq_refl) in B. discriminate.
  - destruct (key_eqb k x) eqn:E; [|reflexivity]. apply key_eqb_eq in E. congruence.
Qed.
Lemma key_insert_in k x l : In x (key_insert k l) <-> In x l \/ x = k.
Proof.
  unfold key_insert. destruct (key_mem k l) eqn:E.
  - apply key_mem_in in E. split; [auto|]. intros [A| ->]; auto.
  - rewrite in_app_iff. cbn. split; intros [A|A]; auto. destruct A as [A|[]]. auto.
Qed.
Lemma peer_eqb_eq a b : peer_eqb a b = true <-> a = b.
Proof.
  destruct a as [a1 a2 a3], b as [b1 b2 b3]. unfold peer_eqb. cbn [pr_addr pr_id pr_crypto]. rewrite !andb_true_iff, sa_eqb_eq, Bool.eqb_true_iff.
  assert (O : forall x y : option bytes, opt_eqb bytes_eqb x y = true <-> x = y).
  { intros [x|] [y|]; cbn [opt_eqb]; rewrite ?bytes_eqb_eq; split; congruence. }
  rewrite O. split; [intros ((-> & ->) & ->); reflexivity|]. intros E. injection E. auto.
Qed.

(** *** Distances *)
Lemma lxor_256 x y p q : p < 256 -> q < 256 -> N.lxor (x * 256 + p) (y * 256 + q) = N.lxor x y * 256 + N.lxor p q.
Proof.
  intros P Q.
  assert (T : forall x p n, p < 256 -> N.testbit (x * 256 + p) n = if n <? 8 then N.testbit p n else N.testbit x (n - 8)).
  { intros x0 p0 n P0. destruct (N.ltb_spec n 8) as [L|L].
    - rewrite <- (N.mod_pow2_bits_low _ 8) by lia. change (2 ^ 8) with 256. rewrite N.add_comm, N.mod_add, N.mod_small by lia. reflexivity.
    - replace n with (n - 8 + 8) at 1 by lia. rewrite <- N.div_pow2_bits. change (2 ^ 8) with 256. rewrite N.div_add_l, N.div_small by lia. f_equal. lia. }
  assert (R : N.lxor p q < 256).
  { destruct (N.eq_dec (N.lxor p q) 0) as [->|NZ]; [lia|]. change 256 with (2 ^ 8). apply N.log2_lt_pow2; [lia|].
    pose proof (N.log2_lxor p q). assert (forall z, z < 256 -> N.log2 z < 8) as B.
    { intros z Z. destruct (N.eq_dec z 0) as [->|]; [cbn; lia|]. apply N.log2_lt_pow2; [lia|exact Z]. }
    pose proof (B p P). pose proof (B q Q). lia. }
  apply N.bits_inj. intros n. rewrite N.lxor_spec, !T by auto. destruct (n <? 8); rewrite N.lxor_spec; reflexivity.
Qed.
Lemma distance_length a h : length a = length h -> length (distance a h) = length h.
Proof. intros L. unfold distance. rewrite map_length, combine_length. lia. Qed.
Lemma combine_snoc {A B} (l : list A) (m : list B) x y : length l = length m -> combine (l ++ [x]) (m ++ [y]) = combine l m ++ [(x, y)].
Proof. revert m. induction l as [|a l IH]; intros [|b m] L; try discriminate; [reflexivity|]. cbn. rewrite IH by (cbn in L; lia). reflexivity. Qed.
Lemma distance_val a h : length a = length h -> be_val (distance a h) = N.lxor (be_val a) (be_val h).
Proof.
  revert h. induction a as [|x a IH] using rev_ind; intros h L.
  - destruct h; [reflexivity|discriminate].
  - destruct (@exists_last _ h) as (h' & y & ->). { intros ->. rewrite app_length in L. cbn in L. lia. }
    rewrite !app_length in L. cbn in L. assert (L' : length a = length h') by lia.
    unfold distance in *. rewrite combine_snoc, map_app by exact L'. cbn [map fst snd]. rewrite !be_val_snoc, IH by exact L'.
    rewrite lxor_256 by apply b2n_bound. f_equal. apply b2n_n2b_small.
    pose proof (lxor_256 0 0 (b2n x) (b2n y) (b2n_bound x) (b2n_bound y)).
    destruct (N.eq_dec (N.lxor (b2n x) (b2n y)) 0) as [->|NZ]; [lia|]. change 256 with (2 ^ 8). apply N.log2_lt_pow2; [lia|].
    pose proof (N.log2_lxor (b2n x) (b2n y)). assert (forall z, z < 256 -> N.log2 z < 8) as B.
    { intros z Z. destruct (N.eq_dec z 0) as [->|]; [cbn; lia|]. apply N.log2_lt_pow2; [lia|exact Z]. }
    pose proof (B _ (b2n_bound x)). pose proof (B _ (b2n_bound y)). lia.
Qed.
Lemma be_val_cons x l : be_val (x :: l) = b2n x * 256 ^ N.of_nat (length l) + be_val l.
Proof.
  assert (G : forall l a, fold_left (fun a b => a * 256 + b2n b) l a = a * 256 ^ N.of_nat (length l) + be_val l).
  { clear l. intros l. induction l as [|y l0 IH] using rev_ind; intros a; [unfold be_val; cbn [fold_left length]; change (N.of_nat 0) with 0; rewrite N.pow_0_r; lia|]. rewrite fold_left_app, be_val_snoc, app_length, IH. cbn [fold_left length].
    replace (N.of_nat (length l0 + 1)) with (N.succ (N.of_nat (length l0))) by lia. rewrite N.pow_succ_r'. lia. }
  unfold be_val at 1. cbn [fold_left]. rewrite G. f_equal.
Qed.
Lemma ltb_val a b : length a = length b -> bytes_ltb a b = (be_val a <? be_val b).
Proof.
  revert b. induction a as [|x a IH]; intros [|y b] L; try discriminate; [reflexivity|].
  cbn [bytes_ltb]. cbn in L. rewrite !be_val_cons. replace (length b) with (length a) by lia.
  assert (B1 := be_val_bound a). assert (B2 := be_val_bound b). replace (length b) with (length a) in B2 by lia.
  set (P := 256 ^ N.of_nat (length a)) in *.
  destruct (N.ltb_spec (b2n x) (b2n y)) as [L1|L1]; [symmetry; apply N.ltb_lt; nia|].
  destruct (N.ltb_spec (b2n y) (b2n x)) as [L2|L2]; [symmetry; apply N.ltb_ge; nia|].
  assert (b2n x = b2n y) as E by lia. rewrite E, IH by lia. destruct (N.ltb_spec (be_val a) (be_val b)); symmetry; [apply N.ltb_lt|apply N.ltb_ge]; lia.
Qed.
Lemma distance_lt a b h : length a = length h -> length b = length h ->
  bytes_ltb (distance a h) (distance b h) = (N.lxor (be_val a) (be_val h) <? N.lxor (be_val b) (be_val h)).
Proof. intros A B. rewrite ltb_val, !distance_val by (rewrite ?distance_length; auto). reflexivity. Qed.
Lemma distance_inj a b h : length a = length h -> length b = length h -> distance a h = distance b h -> a = b.
Proof.
  intros A B E. apply be_val_inj; [congruence|]. apply (f_equal be_val) in E. rewrite !distance_val in E by auto.
  apply (f_equal (fun z => N.lxor z (be_val h))) in E. rewrite !N.lxor_assoc, !N.lxor_nilpotent, !N.lxor_0_r in E. exact E.
Qed.

(** *** The node space *)
Definition flat (m : list (bytes * list node_info)) : list node_info := concat (map snd m).
Definition dist (hash : bytes) (i : node_info) : bytes := distance (nd_id (ni_node i)) hash.
Definition setq (i : node_info) : node_info := mkInfo (ni_node i) true (ni_responsive i).
Definition setr (i : node_info) : node_info := mkInfo (ni_node i) (ni_queried i) true.
Definition klt (e f : bytes * list node_info) : Prop := bytes_ltb (fst e) (fst f) = true.
Definition wfm (hash : bytes) (m : list (bytes * list node_info)) : Prop :=
  StronglySorted klt m /\ Forall (fun e => Forall (fun i => dist hash i = fst e) (snd e)) m.
Definition dle (hash : bytes) (i j : node_info) : Prop := bytes_ltb (dist hash j) (dist hash i) = false.

Lemma wfm_cons hash e m : wfm hash (e :: m) <->
  (Forall (fun i => dist hash i = fst e) (snd e) /\ Forall (klt e) m /\ wfm hash m).
Proof.
  unfold wfm. split.
  - intros (A & B). inversion A; subst. inversion B; subst. tauto.
  - intros (A & B & C & D). split; constructor; auto.
Qed.
Lemma ltb_asym a b : bytes_ltb a b = true -> bytes_ltb b a = false.
Proof. intros H. destruct (bytes_ltb b a) eqn:E; [|reflexivity]. rewrite <- (bytes_ltb_irrefl a). symmetry. eapply bytes_ltb_trans; eauto. Qed.
Lemma in_flat i m : In i (flat m) <-> exists e, In e m /\ In i (snd e).
Proof.
  unfold flat. rewrite in_concat. split.
  - intros (b & B & X). apply in_map_iff in B. destruct B as (e & <- & E). eauto.
  - intros (e & E & X). exists (snd e). split; [apply in_map; exact E|exact X].
Qed.
Lemma wfm_in hash m e i : wfm hash m -> In e m -> In i (snd e) -> dist hash i = fst e.
Proof. intros (_ & W) E X. rewrite Forall_forall in W. specialize (W _ E). rewrite Forall_forall in W. apply W; exact X. Qed.
Lemma wfm_sorted hash m : wfm hash m -> StronglySorted (dle hash) (flat m).
Proof.
  induction m as [|[k b] m IH]; intros V; [constructor|]. pose proof V as V0. apply wfm_cons in V. destruct V as (A & B & C). cbn [fst snd] in *.
  unfold flat. cbn [map concat snd]. fold (flat m).
  assert (H : forall x y, In x b -> In y (flat m) -> dle hash x y).
  { intros x y X Y. apply in_flat in Y. destruct Y as (e & E & Y). unfold dle. rewrite (wfm_in _ _ _ _ C E Y). rewrite Forall_forall in A, B. rewrite (A _ X).
    apply ltb_asym. apply (B _ E). }
  specialize (IH C). clear V0. induction b as [|x b IHb]; [exact IH|]. cbn [app]. inversion_clear A as [|? ? A1 A2]. constructor.
  - apply IHb; auto. intros; apply H; auto. right. auto.
  - apply Forall_forall. intros y Y. apply in_app_iff in Y. destruct Y as [Y|Y]; [|apply H; auto; left; reflexivity].
    unfold dle. rewrite A1. rewrite Forall_forall in A2. rewrite (A2 _ Y). apply bytes_ltb_irrefl.
Qed.
Lemma push_keys m d i e : In e (bucket_push m d i) -> fst e = d \/ exists f, In f m /\ fst f = fst e.
Proof.
  induction m as [|[k b] m IH]; cbn [bucket_push].
  - intros [<-|[]]. auto.
  - destruct (bytes_eqb k d) eqn:E.
    + intros [<-|X]; right; [exists (k, b); split; [left; reflexivity|reflexivity]|exists e; split; [right; exact X|reflexivity]].
    + destruct (bytes_ltb d k).
      * intros [<-|X]; [auto|]. right. exists e. auto.
      * intros [<-|X]; [right; exists (k, b); split; [left|]; reflexivity|]. destruct (IH X) as [A|(f & F & A)]; [auto|]. right. exists f. split; [right|]; auto.
Qed.
Lemma push_wfm hash m i : wfm hash m -> wfm hash (bucket_push m (dist hash i) i).
Proof.
  induction m as [|[k b] m IH]; intros V.
  - cbn [bucket_push]. apply wfm_cons. cbn [fst snd]. split; [repeat constructor|]. split; constructor; constructor.
  - apply wfm_cons in V. destruct V as (A & B & C). cbn [fst snd] in *. cbn [bucket_push]. destruct (bytes_eqb_spec k (dist hash i)) as [->|NE].
    + apply wfm_cons. cbn [fst snd]. split; [constructor; auto|]. split; auto.
    + destruct (bytes_ltb (dist hash i) k) eqn:L.
      * apply wfm_cons. cbn [fst snd]. split; [repeat constructor|]. split; [|apply wfm_cons; auto].
        constructor; [exact L|]. apply Forall_forall. intros e E. rewrite Forall_forall in B. specialize (B _ E). unfold klt in *. cbn [fst] in *. eapply bytes_ltb_trans; eauto.
      * apply wfm_cons. cbn [fst snd]. split; [exact A|]. split; [|apply IH; exact C]. apply Forall_forall. intros e E. unfold klt. cbn [fst].
        apply push_keys in E. destruct E as [-> | (f & F & <-)]; [|rewrite Forall_forall in B; apply (B _ F)].
        destruct (bytes_ltb_total k (dist hash i)) as [X|[X|X]]; congruence.
Qed.
Lemma push_flat m d i : exists l1 l2, flat m = l1 ++ l2 /\ flat (bucket_push m d i) = l1 ++ i :: l2.
Proof.
  induction m as [|[k b] m IH]; cbn [bucket_push].
  - exists [], []. auto.
  - destruct (bytes_eqb k d); [exists [], (b ++ flat m); auto|]. destruct (bytes_ltb d k); [exists [], (b ++ flat m); auto|].
    destruct IH as (l1 & l2 & E1 & E2). exists (b ++ l1), l2. unfold flat in *. cbn [map concat snd]. rewrite E1, E2, !app_assoc. auto.
Qed.
Lemma mark_queried_spec k b : let '(k1, ns, b') := mark_queried k b in
  k1 = (k - length b)%nat /\ ns = map ni_node (filter (fun i => negb (ni_queried i)) (firstn k b)) /\ b' = map setq (firstn k b) ++ skipn k b.
Proof.
  revert k. induction b as [|i b IH]; intros [|k]; cbn [mark_queried]; try (split; [|split]; reflexivity).
  specialize (IH k). destruct (mark_queried k b) as [[k1 ns] b']. destruct IH as (-> & -> & ->). cbn [firstn filter map skipn length Nat.sub app].
  destruct i as [n q r]. destruct q; cbn [ni_queried negb map]; split; [reflexivity| |reflexivity|]; split; reflexivity.
Qed.
Lemma unq_spec k m : let (ns, m') := unqueried_go k m in
  ns = map ni_node (filter (fun i => negb (ni_queried i)) (firstn k (flat m))) /\ flat m' = map setq (firstn k (flat m)) ++ skipn k (flat m) /\
  map fst m' = map fst m.
Proof.
  revert k. induction m as [|[d b] m IH]; intros k; cbn [unqueried_go].
  - rewrite firstn_nil, skipn_nil. auto.
  - pose proof (mark_queried_spec k b) as Q. destruct (mark_queried k b) as [[k1 ns] b']. destruct Q as (-> & -> & ->).
    specialize (IH (k - length b)%nat). destruct (unqueried_go (k - length b) m) as [ns' m']. destruct IH as (-> & E & K).
    unfold flat in *. cbn [map concat snd fst]. rewrite E, K, firstn_app, skipn_app, filter_app, !map_app. split; [reflexivity|]. split; [|reflexivity].
    destruct (Nat.le_gt_cases (length b) k) as [L|L].
    + rewrite (skipn_all2 b), app_nil_r by lia. rewrite <- !app_assoc. reflexivity.
    + replace (k - length b)%nat with O by lia. cbn [firstn skipn map app]. rewrite !app_nil_r. rewrite <- !app_assoc. reflexivity.
Qed.
Lemma unq_wfm hash k m : wfm hash m -> wfm hash (snd (unqueried_go k m)).
Proof.
  revert k. induction m as [|[d b] m IH]; intros k V; cbn [unqueried_go]; [exact V|].
  apply wfm_cons in V. destruct V as (A & B & C). cbn [fst snd] in *.
  pose proof (mark_queried_spec k b) as Q. destruct (mark_queried k b) as [[k1 ns] b']. destruct Q as (-> & -> & ->).
  specialize (IH (k - length b)%nat C). pose proof (unq_spec (k - length b)%nat m) as S. destruct (unqueried_go (k - length b) m) as [ns' m']. destruct S as (_ & _ & K).
  cbn [snd] in *. apply wfm_cons. cbn [fst snd]. split; [|split; [|exact IH]].
  - rewrite Forall_forall in A. apply Forall_app. split; apply Forall_forall; intros i X.
    + apply in_map_iff in X. destruct X as (j & <- & X). change (dist hash (setq j)) with (dist hash j). apply A. rewrite <- (firstn_skipn k b). apply in_or_app. auto.
    + apply A. rewrite <- (firstn_skipn k b). apply in_or_app. auto.
  - rewrite Forall_forall in *. intros e E. assert (F : In (fst e) (map fst m)). { rewrite <- K. apply in_map. exact E. }
    apply in_map_iff in F. destruct F as (f & F1 & F2). unfold klt in *. cbn [fst] in *. rewrite <- F1. apply (B _ F2).
Qed.
Definition markm (hash id : bytes) (m : list (bytes * list node_info)) : list (bytes * list node_info) :=
  map (fun e => if bytes_eqb (fst e) (distance id hash) then (fst e, mark_first id (snd e)) else e) m.
Lemma mark_first_spec id b :
  (exists l1 i l2, b = l1 ++ i :: l2 /\ nd_id (ni_node i) = id /\ mark_first id b = l1 ++ setr i :: l2) \/
  ((forall i, In i b -> nd_id (ni_node i) <> id) /\ mark_first id b = b).
Proof.
  induction b as [|i b IH]; cbn [mark_first]; [right; split; [intros i []|reflexivity]|].
  destruct (bytes_eqb_spec (nd_id (ni_node i)) id) as [E|E].
  - left. exists [], i, b. auto.
  - destruct IH as [(l1 & j & l2 & -> & E2 & ->)|(N1 & ->)].
    + left. exists (i :: l1), j, l2. auto.
    + right. split; [|reflexivity]. intros j [<-|J]; auto.
Qed.
Lemma mark_spec hash id m : wfm hash m ->
  (exists l1 i l2, flat m = l1 ++ i :: l2 /\ nd_id (ni_node i) = id /\ flat (markm hash id m) = l1 ++ setr i :: l2) \/
  ((forall i, In i (flat m) -> nd_id (ni_node i) <> id) /\ flat (markm hash id m) = flat m).
Proof.
  induction m as [|[d b] m IH]; intros V; [right; split; [intros i []|reflexivity]|].
  apply wfm_cons in V. destruct V as (A & B & C). cbn [fst snd] in *. specialize (IH C). unfold markm, flat in *. cbn [map concat fst snd].
  destruct (bytes_eqb_spec d (distance id hash)) as [->|NE]; cbn [snd].
  - assert (K : map (fun e => if bytes_eqb (fst e) (distance id hash) then (fst e, mark_first id (snd e)) else e) m = m).
    { transitivity (map (fun e : bytes * list node_info => e) m); [|apply map_id]. apply map_ext_in. intros e E. rewrite Forall_forall in B. specialize (B _ E). unfold klt in B. cbn [fst] in B.
      apply bytes_ltb_neq in B. destruct (bytes_eqb_spec (fst e) (distance id hash)); congruence. }
    rewrite K. destruct (mark_first_spec id b) as [(l1 & i & l2 & -> & E2 & ->)|(N1 & ->)].
    + left. exists l1, i, (l2 ++ concat (map snd m)). rewrite <- !app_assoc. auto.
    + right. split; [|reflexivity]. intros i X E. apply in_app_iff in X. destruct X as [X|X]; [apply (N1 _ X E)|].
      apply in_flat in X. destruct X as (e & E1 & X). pose proof (wfm_in _ _ _ _ C E1 X) as D. unfold dist in D. rewrite E in D.
      rewrite Forall_forall in B. specialize (B _ E1). unfold klt in B. cbn [fst] in B. rewrite D in B. rewrite bytes_ltb_irrefl in B. discriminate.
  - destruct IH as [(l1 & i & l2 & E1 & E2 & E3)|(N1 & E3)]; rewrite E3.
    + left. exists (b ++ l1), i, l2. rewrite E1, !app_assoc. auto.
    + right. split; [|reflexivity]. intros i X E. apply in_app_iff in X. destruct X as [X|X]; [|apply (N1 _ X E)].
      rewrite Forall_forall in A. specialize (A _ X). unfold dist in A. congruence.
Qed.
Lemma mark_wfm hash id m : wfm hash m -> wfm hash (markm hash id m).
Proof.
  induction m as [|[d b] m IH]; intros V; [exact V|]. apply wfm_cons in V. destruct V as (A & B & C). cbn [fst snd] in *. unfold markm. cbn [map]. fold (markm hash id m).
  assert (K : forall e, In e (markm hash id m) -> exists f, In f m /\ fst f = fst e).
  { intros e E. apply in_map_iff in E. destruct E as (f & <- & F). exists f. split; [exact F|]. destruct (bytes_eqb (fst f) (distance id hash)); reflexivity. }
  apply wfm_cons. cbn [fst snd]. assert (KL : forall b', Forall (klt (d, b')) (markm hash id m)).
  { intros b'. apply Forall_forall. intros e E. destruct (K _ E) as (f & F & X). rewrite Forall_forall in B. specialize (B _ F). unfold klt in *. cbn [fst] in *. rewrite <- X. exact B. }
  destruct (bytes_eqb d (distance id hash)); cbn [fst snd]; (split; [|split; [apply KL|apply IH; exact C]]); [|exact A].
  rewrite Forall_forall in *. intros i X. destruct (mark_first_spec id b) as [(l1 & j & l2 & -> & E2 & E3)|(N1 & E3)]; rewrite E3 in X.
  - apply in_app_iff in X. destruct X as [X|[<-|X]].
    + apply A. apply in_or_app. auto.
    + change (dist hash (setr j)) with (dist hash j). apply A. apply in_or_app. right. left. reflexivity.
    + apply A. apply in_or_app. right. right. exact X.
  - apply A. exact X.
Qed.
