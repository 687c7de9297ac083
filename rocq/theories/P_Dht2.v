From Verif Require Import Base BaseFacts M_Net M_Tracker M_DhtMsg M_Dht S_Async S_Dht P_Nursery P_Dht.
From Coq Require Import Permutation Sorted.

(** *** What the projections of a history are of a longer one *)
Definition sid_of (o : aobs) : nat :=
  match o with OLookup i _ | OQuery i _ _ _ | OReply i _ _ _ | OTimeout i _ _ | OAnswer i _ | ODown i => i end.
Lemma asked_app h o sid : asked (h ++ o) sid = asked h sid ++ asked o sid.
Proof. apply flat_map_app. Qed.
Lemma told_app h o sid : told (h ++ o) sid = told h sid ++ told o sid.
Proof. apply flat_map_app. Qed.
Lemma given_app h o sid : given (h ++ o) sid = given h sid ++ given o sid.
Proof. apply flat_map_app. Qed.
Lemma txns_app h o : txns (h ++ o) = txns h ++ txns o.
Proof. apply flat_map_app. Qed.
Lemma answers_app h o sid : answers (h ++ o) sid = answers h sid ++ answers o sid.
Proof. apply flat_map_app. Qed.
Lemma downs_app h o sid : downs (h ++ o) sid = (downs h sid + downs o sid)%nat.
Proof. unfold downs. rewrite filter_app, app_length. reflexivity. Qed.
Lemma flat_map_none {A B} (f : A -> list B) l : (forall x, In x l -> f x = []) -> flat_map f l = [].
Proof. intros H. induction l as [|x l IH]; [reflexivity|]. cbn. rewrite (H x) by (left; reflexivity). apply IH. intros y Y. apply H. right. exact Y. Qed.
Definition others (sid : nat) (o : list aobs) : Prop := forall x, In x o -> sid_of x <> sid.
Lemma asked_others o sid : others sid o -> asked o sid = [].
Proof. intros H. apply flat_map_none. intros x X. specialize (H x X). destruct x; try reflexivity. cbn [sid_of] in H. destruct (Nat.eqb_spec sid0 sid); congruence. Qed.
Lemma told_others o sid : others sid o -> told o sid = [].
Proof. intros H. apply flat_map_none. intros x X. specialize (H x X). destruct x as [? ?|? ? ? ?|i ? ? [?|?]|? ? ?|? ?|?]; try reflexivity. cbn [sid_of] in H. destruct (Nat.eqb_spec i sid); congruence. Qed.
Lemma given_others o sid : others sid o -> given o sid = [].
Proof. intros H. apply flat_map_none. intros x X. specialize (H x X). destruct x as [? ?|? ? ? ?|i ? ? [?|?]|? ? ?|? ?|?]; try reflexivity. cbn [sid_of] in H. destruct (Nat.eqb_spec i sid); congruence. Qed.
Lemma answers_others o sid : others sid o -> answers o sid = [].
Proof. intros H. apply flat_map_none. intros x X. specialize (H x X). destruct x; try reflexivity. cbn [sid_of] in H. destruct (Nat.eqb_spec sid0 sid); congruence. Qed.
Lemma downs_others o sid : others sid o -> downs o sid = O.
Proof.
  intros H. unfold downs. induction o as [|x o IH]; [reflexivity|]. cbn [filter].
  assert (E : match x with ODown i => (i =? sid)%nat | _ => false end = false).
  { specialize (H x (or_introl eq_refl)). destruct x; try reflexivity. cbn [sid_of] in H. apply Nat.eqb_neq. exact H. }
  rewrite E. apply IH. intros y Y. apply H. right. exact Y.
Qed.

(** *** [firsts] *)
Lemma nodup_l {X} (a b : list X) : NoDup (a ++ b) -> NoDup a.
Proof. induction a as [|x a IH]; cbn; intros H; constructor; inversion H; subst; [rewrite in_app_iff in *; tauto|auto]. Qed.
Lemma keys_nodup {X K} (key : X -> K) l out : firsts key l out -> NoDup (map key out) /\ incl out l.
Proof.
  assert (G : firsts key l out -> NoDup (map key out) /\ incl out l /\ (forall k, In k (map key out) <-> In k (map key l))).
  { induction 1 as [|l out x F (N1 & N2 & N3) IN|l out x F (N1 & N2 & N3) IN].
    - split; [constructor|]. split; [apply incl_refl|reflexivity].
    - split; [exact N1|]. split; [intros y Y; apply in_or_app; auto|]. intros k. rewrite N3, map_app, in_app_iff. cbn. split; [auto|intros [Y|[<-|[]]]; auto].
    - split; [|split].
      + rewrite map_app. cbn. apply (Permutation_NoDup (Permutation_app_comm [key x] _)). cbn. constructor; [rewrite N3; exact IN|exact N1].
      + intros y Y. apply in_app_iff in Y. apply in_or_app. destruct Y as [Y|Y]; auto.
      + intros k. rewrite !map_app, !in_app_iff, N3. reflexivity. }
  intros F. apply G in F. tauto.
Qed.
Lemma keys_cover {X K} (key : X -> K) l out : firsts key l out -> forall x, In x l -> exists y, In y out /\ key y = key x.
Proof.
  induction 1 as [|l out x F IH IN|l out x F IH IN]; intros z Z.
  - destruct Z.
  - apply in_app_iff in Z. destruct Z as [Z|[<-|[]]]; [auto|]. apply in_map_iff in IN. destruct IN as (y & E & Y). destruct (IH _ Y) as (w & W1 & W2). exists w. split; congruence.
  - apply in_app_iff in Z. destruct Z as [Z|[<-|[]]].
    + destruct (IH _ Z) as (w & W1 & W2). exists w. split; [apply in_or_app; auto|exact W2].
    + exists x. split; [apply in_or_app; right; left; reflexivity|reflexivity].
Qed.
Lemma firsts_fun {X K} (key : X -> K) l o1 : firsts key l o1 -> forall o2, firsts key l o2 -> o1 = o2.
Proof.
  induction 1 as [|l o x F IH IN|l o x F IH IN]; intros o2 G; inversion G as [A B|l' o' x' F' IN' A B|l' o' x' F' IN' A B];
    try (apply (f_equal (@length _)) in A; rewrite ?app_length in A; cbn in A; lia); try reflexivity;
    apply app_inj_tail in A; destruct A as (-> & ->); try contradiction.
  - apply IH. congruence.
  - f_equal. apply IH. exact F'.
Qed.
Lemma firsts_keys {Y K} (key : Y -> K) l out : firsts key l out -> forall k, In k (map key out) <-> In k (map key l).
Proof.
  intros F k. split; intros H; apply in_map_iff in H; destruct H as (x & <- & X).
  - apply in_map. apply keys_nodup in F. apply F. exact X.
  - destruct (keys_cover _ _ _ F _ X) as (y & YY & <-). apply in_map. exact YY.
Qed.

(** *** Responded *)
Lemma responded_app h o sid n : responded h sid n -> responded (h ++ o) sid n.
Proof. intros (h1 & t & r & h2 & ns & -> & K & IN). exists h1, t, r, (h2 ++ o), ns. rewrite <- app_assoc. auto. Qed.
Lemma snoc_split {A} (h : list A) o h1 x h2 : h ++ [o] = h1 ++ x :: h2 -> (exists h2', h2 = h2' ++ [o] /\ h = h1 ++ x :: h2') \/ (h2 = [] /\ x = o /\ h = h1).
Proof.
  intros E. destruct h2 as [|y h2] using rev_ind.
  - right. apply app_inj_tail in E. destruct E. auto.
  - left. clear IHh2. exists h2. rewrite app_comm_cons, app_assoc in E. apply app_inj_tail in E. destruct E as (-> & ->). auto.
Qed.
Lemma responded_snoc h o sid n : responded (h ++ [o]) sid n <->
  responded h sid n \/ (exists t r ns, o = OReply sid (node_address n) t (Ok r) /\ known_nodes h sid ns /\ In n ns).
Proof.
  split.
  - intros (h1 & t & r & h2 & ns & E & K & IN). apply snoc_split in E. destruct E as [(h2' & -> & ->)|(-> & <- & ->)].
    + left. exists h1, t, r, h2', ns. auto.
    + right. exists t, r, ns. auto.
  - intros [R|(t & r & ns & -> & K & IN)]; [apply responded_app; exact R|]. exists h, t, r, [], ns. auto.
Qed.
Definition no_reply (sid : nat) (o : list aobs) : Prop := forall a t r, ~ In (OReply sid a t (Ok r)) o.
Lemma responded_frame h o sid n : no_reply sid o -> (responded (h ++ o) sid n <-> responded h sid n).
Proof.
  intros H. split; [|apply responded_app]. induction o as [|x o IH] using rev_ind; [rewrite app_nil_r; auto|].
  rewrite app_assoc, responded_snoc. intros [R|(t & r & ns & -> & _)].
  - apply IH; [|exact R]. intros a t r X. apply (H a t r). apply in_or_app. auto.
  - exfalso. eapply H. apply in_or_app. right. left. reflexivity.
Qed.

(** *** Peers *)
Lemma peers_extend_spec new : forall set, NoDup set -> NoDup (peers_extend set new) /\ forall p, In p (peers_extend set new) <-> In p set \/ In p new.
Proof.
  unfold peers_extend. induction new as [|x new IH]; intros set ND; cbn [fold_left].
  - split; [exact ND|]. intros p. cbn. tauto.
  - destruct (existsb (peer_eqb x) set) eqn:E.
    + destruct (IH set ND) as (A & B). split; [exact A|]. intros p. rewrite B. cbn. apply existsb_exists in E. destruct E as (y & Y & E). apply peer_eqb_eq in E. subst y.
      split; [intros [C|C]; auto|intros [C|[<-|C]]; auto].
    + destruct (IH (set ++ [x])) as (A & B).
      { apply (Permutation_NoDup (Permutation_app_comm [x] _)). cbn. constructor; [|exact ND]. intros X.
        assert (T : existsb (peer_eqb x) set = true). { apply existsb_exists. exists x. split; [exact X|apply peer_eqb_eq; reflexivity]. } congruence. }
      split; [exact A|]. intros p. rewrite B, in_app_iff. cbn. tauto.
Qed.

(** *** The node space of a session: [T] the nodes told, [R] the ids of the nodes that
    responded, [Q] the addresses queried because learned *)
Record spinv (hash : bytes) (T : list node) (R : bytes -> Prop) (Q : list sockaddr) (sp : node_space) : Prop := {
  p_hash : sp_hash sp = hash;
  p_wfm : wfm hash (sp_nodes sp);
  p_known : exists ns, firsts node_address T ns /\ Permutation (map ni_node (flat (sp_nodes sp))) ns /\
    forall a n, addr_get (sp_addr sp) a = Some n <-> In n ns /\ node_address n = a;
  p_q : forall i, In i (flat (sp_nodes sp)) -> (ni_queried i = true <-> In (node_address (ni_node i)) Q);
  p_qin : forall a, In a Q -> In a (map node_address T);
  p_qnd : NoDup Q;
  p_r1 : forall i, In i (flat (sp_nodes sp)) -> ni_responsive i = true -> R (nd_id (ni_node i));
  p_r2 : forall id, R id -> exists i, In i (flat (sp_nodes sp)) /\ nd_id (ni_node i) = id /\ ni_responsive i = true }.
Lemma spinv_ext hash T R R' Q sp : (forall id, R id <-> R' id) -> spinv hash T R Q sp -> spinv hash T R' Q sp.
Proof. intros E V. destruct V. constructor; auto; intros; [apply E|]; auto. apply p_r4, E; auto. Qed.
Lemma addr_get_cons m a n b : addr_get ((a, n) :: m) b = if sa_eqb a b then Some n else addr_get m b.
Proof. unfold addr_get. cbn [find fst]. destruct (sa_eqb a b); reflexivity. Qed.
Lemma spinv_add hash T R Q sp n : spinv hash T R Q sp -> spinv hash (T ++ [n]) R Q (space_add sp n).
Proof.
  intros V. destruct (p_known _ _ _ _ _ V) as (ns & F & P & AG). unfold space_add.
  destruct (addr_get (sp_addr sp) (node_address n)) as [n'|] eqn:G.
  - apply AG in G. destruct G as (IN & E). destruct V. constructor; auto.
    + exists ns. split; [|split; auto]. apply f_old; [exact F|]. rewrite <- E. apply (firsts_keys _ _ _ F). apply in_map. exact IN.
    + intros a A. rewrite map_app. apply in_or_app. auto.
  - assert (NI : ~ In (node_address n) (map node_address T)).
    { intros IN. apply (firsts_keys _ _ _ F) in IN. apply in_map_iff in IN. destruct IN as (n' & E & IN).
      rewrite (proj2 (AG (node_address n) n')) in G by auto. discriminate. }
    destruct (push_flat (sp_nodes sp) (distance (nd_id n) (sp_hash sp)) (mkInfo n false false)) as (l1 & l2 & E1 & E2).
    assert (INI : forall i, In i (l1 ++ mkInfo n false false :: l2) -> i = mkInfo n false false \/ In i (flat (sp_nodes sp))).
    { intros i X. rewrite E1. apply in_app_iff in X. rewrite in_app_iff. destruct X as [X|[X|X]]; auto. }
    constructor; cbn [sp_hash sp_nodes sp_addr].
    + apply V.
    + rewrite (p_hash _ _ _ _ _ V). apply (push_wfm hash _ (mkInfo n false false)). apply V.
    + exists (ns ++ [n]). split; [apply f_new; auto|]. split.
      * rewrite E2, map_app. cbn [map ni_node]. rewrite <- Permutation_middle. rewrite E1, map_app in P. rewrite P. apply Permutation_cons_append.
      * intros a m. rewrite addr_get_cons. destruct (sa_eqb (node_address n) a) eqn:S.
        -- apply sa_eqb_eq in S. subst a. rewrite in_app_iff. split.
           ++ intros [= <-]. split; [right; left|]; reflexivity.
           ++ intros ([IN|[<-|[]]] & E); [|reflexivity]. exfalso. apply NI. apply (firsts_keys _ _ _ F). rewrite <- E. apply in_map. exact IN.
        -- rewrite AG, in_app_iff. split; [intros (X & Y); auto|]. intros ([X|[<-|[]]] & Y); [auto|]. exfalso. rewrite (proj2 (sa_eqb_eq _ _) Y) in S. discriminate.
    + intros i X. rewrite E2 in X. apply INI in X. destruct X as [->|X]; [|apply (p_q _ _ _ _ _ V); exact X].
      cbn [ni_queried ni_node]. split; [discriminate|]. intros X. exfalso. apply NI. apply (p_qin _ _ _ _ _ V). exact X.
    + intros a A. rewrite map_app. apply in_or_app. left. apply (p_qin _ _ _ _ _ V). exact A.
    + apply V.
    + intros i X. rewrite E2 in X. apply INI in X. destruct X as [->|X]; [discriminate|apply (p_r1 _ _ _ _ _ V); exact X].
    + intros id X. destruct (p_r2 _ _ _ _ _ V _ X) as (i & I1 & I2). exists i. split; [|exact I2]. rewrite E2. rewrite E1 in I1. apply in_app_iff in I1. apply in_or_app. cbn. tauto.
Qed.
Lemma spinv_adds hash R Q l : forall T sp, spinv hash T R Q sp -> spinv hash (T ++ l) R Q (fold_left space_add l sp).
Proof.
  induction l as [|n l IH]; intros T sp V; cbn [fold_left]; [rewrite app_nil_r; exact V|].
  replace (T ++ n :: l) with ((T ++ [n]) ++ l) by (rewrite <- app_assoc; reflexivity). apply IH. apply spinv_add. exact V.
Qed.
Lemma spinv_mark hash T R Q sp n ns : spinv hash T R Q sp -> firsts node_address T ns -> In n ns ->
  spinv hash T (fun id => R id \/ id = nd_id n) Q (mark_responsive (nd_id n) sp).
Proof.
  intros V F0 IN. destruct (p_known _ _ _ _ _ V) as (ns' & F & P & AG). rewrite (firsts_fun _ _ _ F0 _ F) in IN.
  assert (H := mark_spec hash (nd_id n) _ (p_wfm _ _ _ _ _ V)).
  assert (EX : exists i, In i (flat (sp_nodes sp)) /\ ni_node i = n).
  { apply (Permutation_in _ (Permutation_sym P)) in IN. apply in_map_iff in IN. destruct IN as (i & E & X). eauto. }
  destruct H as [(l1 & j & l2 & E1 & E2 & E3)|(N1 & _)]; [|destruct EX as (i & X & E); exfalso; apply (N1 _ X); congruence].
  unfold mark_responsive. rewrite (p_hash _ _ _ _ _ V). fold (markm hash (nd_id n) (sp_nodes sp)).
  assert (INI : forall i, In i (l1 ++ setr j :: l2) -> exists i', In i' (flat (sp_nodes sp)) /\ ni_node i' = ni_node i /\ ni_queried i' = ni_queried i /\ (i = i' \/ i = setr j)).
  { intros i X. rewrite E1. apply in_app_iff in X. destruct X as [X|[X|X]].
    - exists i. rewrite in_app_iff. auto.
    - exists j. subst i. rewrite in_app_iff. cbn. auto 6.
    - exists i. rewrite in_app_iff. cbn. auto 6. }
  constructor; cbn [sp_hash sp_nodes sp_addr].
  - reflexivity.
  - apply mark_wfm. apply V.
  - exists ns'. split; [exact F|]. split; [|exact AG]. rewrite E3, map_app. cbn [map]. change (ni_node (setr j)) with (ni_node j). rewrite E1, map_app in P. exact P.
  - intros i X. rewrite E3 in X. destruct (INI _ X) as (i' & X' & <- & <- & _). apply (p_q _ _ _ _ _ V). exact X'.
  - apply V.
  - apply V.
  - intros i X R'. rewrite E3 in X. destruct (INI _ X) as (i' & X' & E & _ & [->|Y]).
    + left. apply (p_r1 _ _ _ _ _ V); auto.
    + right. subst i. exact E2.
  - intros id [X| ->].
    + destruct (p_r2 _ _ _ _ _ V _ X) as (i & I1 & I2 & I3). rewrite E3. rewrite E1 in I1. apply in_app_iff in I1. destruct I1 as [I1|[<-|I1]].
      * exists i. rewrite in_app_iff. auto.
      * exists (setr j). rewrite in_app_iff. cbn. auto.
      * exists i. rewrite in_app_iff. cbn. auto.
    + exists (setr j). rewrite E3, in_app_iff. cbn. auto.
Qed.
Lemma NoDup_app_intro {A} (a b : list A) : NoDup a -> NoDup b -> (forall x, In x a -> ~ In x b) -> NoDup (a ++ b).
Proof.
  induction a as [|x a IH]; intros A1 A2 D; [exact A2|]. inversion A1; subst. cbn. constructor.
  - rewrite in_app_iff. intros [X|X]; [contradiction|]. apply (D x); [left; reflexivity|exact X].
  - apply IH; auto. intros y Y. apply D. right. exact Y.
Qed.
Lemma NoDup_firstn {A} k (l : list A) : NoDup l -> NoDup (firstn k l).
Proof. intros H. rewrite <- (firstn_skipn k l) in H. eapply nodup_l; eauto. Qed.
Lemma map_filter_nodup {A B} (f : A -> B) p l : NoDup (map f l) -> NoDup (map f (filter p l)).
Proof.
  induction l as [|x l IH]; cbn [map filter]; intros H; [constructor|]. inversion H; subst. destruct (p x); cbn [map]; [|auto]. constructor; [|auto].
  intros X. apply H2. apply in_map_iff in X. destruct X as (y & E & Y). apply filter_In in Y. rewrite <- E. apply in_map. tauto.
Qed.
Lemma flat_nodup hash T R Q sp : spinv hash T R Q sp -> NoDup (map (fun i => node_address (ni_node i)) (flat (sp_nodes sp))).
Proof.
  intros V. destruct (p_known _ _ _ _ _ V) as (ns & F & P & _). rewrite <- (map_map ni_node node_address).
  apply (Permutation_NoDup (Permutation_map node_address (Permutation_sym P))). apply keys_nodup in F. tauto.
Qed.
Lemma spinv_query hash T R Q sp k ns sp' : spinv hash T R Q sp -> closest_unqueried k sp = (ns, sp') ->
  spinv hash T R (Q ++ map node_address ns) sp' /\
  ns = map ni_node (filter (fun i => negb (ni_queried i)) (firstn k (flat (sp_nodes sp)))).
Proof.
  intros V E. unfold closest_unqueried in E. pose proof (unq_spec k (sp_nodes sp)) as S. pose proof (unq_wfm hash k _ (p_wfm _ _ _ _ _ V)) as W.
  destruct (unqueried_go k (sp_nodes sp)) as [ns0 m']. cbn [snd] in W. injection E as <- <-. destruct S as (-> & S & _). split; [|reflexivity].
  set (fs := flat (sp_nodes sp)) in *. set (fresh := filter (fun i => negb (ni_queried i)) (firstn k fs)).
  assert (ND := flat_nodup _ _ _ _ _ V). fold fs in ND.
  assert (INF : forall i, In i (firstn k fs) -> In i fs) by (intros i X; rewrite <- (firstn_skipn k fs); apply in_or_app; auto).
  assert (INS : forall i, In i (skipn k fs) -> In i fs) by (intros i X; rewrite <- (firstn_skipn k fs); apply in_or_app; auto).
  destruct (p_known _ _ _ _ _ V) as (kn & F & P & AG). fold fs in P.
  assert (EM : map ni_node (flat m') = map ni_node fs).
  { rewrite S, map_app, map_map. change (map (fun x => ni_node (setq x)) (firstn k fs)) with (map ni_node (firstn k fs)). rewrite <- map_app, firstn_skipn. reflexivity. }
  constructor; cbn [sp_hash sp_nodes sp_addr].
  - apply V.
  - exact W.
  - exists kn. rewrite EM. auto.
  - intros i X. rewrite S in X. apply in_app_iff in X. rewrite in_app_iff, map_map. destruct X as [X|X].
    + apply in_map_iff in X. destruct X as (j & <- & X). cbn [ni_queried setq ni_node]. split; [intros _|reflexivity].
      destruct (ni_queried j) eqn:Q1.
      * left. apply (p_q _ _ _ _ _ V); auto.
      * right. apply (in_map (fun x => node_address (ni_node x))). apply filter_In. rewrite Q1. auto.
    + rewrite (p_q _ _ _ _ _ V) by auto. split; [auto|]. intros [A|A]; [exact A|]. exfalso.
      apply in_map_iff in A. destruct A as (j & EJ & J). apply filter_In in J. destruct J as (J & _).
      rewrite <- (firstn_skipn k fs), map_app in ND. 
      assert (D : forall a b : list sockaddr, NoDup (a ++ b) -> forall x, In x a -> ~ In x b).
      { intros a b. induction a as [|y a IH]; intros H x; [intros []|]. inversion H; subst. intros [<-|Y]; [|apply IH; auto]. intros B. apply H2. apply in_or_app. auto. }
      eapply D; [exact ND|apply (in_map (fun x => node_address (ni_node x))); exact J|]. rewrite EJ. apply (in_map (fun x => node_address (ni_node x))). exact X.
  - intros a A. apply in_app_iff in A. destruct A as [A|A]; [apply (p_qin _ _ _ _ _ V); exact A|]. rewrite map_map in A. apply in_map_iff in A. destruct A as (j & <- & J).
    apply (firsts_keys _ _ _ F). apply in_map. apply (Permutation_in _ P). apply in_map. apply INF. apply filter_In in J. tauto.
  - apply NoDup_app_intro; [apply V| |].
    + rewrite map_map. apply map_filter_nodup. rewrite <- firstn_map. apply NoDup_firstn. exact ND.
    + intros a A B. rewrite map_map in B. apply in_map_iff in B. destruct B as (j & <- & J). apply filter_In in J. destruct J as (J1 & J2).
      apply (p_q _ _ _ _ _ V) in A; [|auto]. rewrite A in J2. discriminate.
  - intros i X Y. rewrite S in X. apply in_app_iff in X. destruct X as [X|X]; [|apply (p_r1 _ _ _ _ _ V); auto].
    apply in_map_iff in X. destruct X as (j & <- & X). apply (p_r1 _ _ _ _ _ V j); auto.
  - intros id X. destruct (p_r2 _ _ _ _ _ V _ X) as (i & I1 & I2 & I3). fold fs in I1. rewrite <- (firstn_skipn k fs) in I1. apply in_app_iff in I1. rewrite S. destruct I1 as [I1|I1].
    + exists (setq i). rewrite in_app_iff. split; [left; apply in_map; exact I1|]. auto.
    + exists i. rewrite in_app_iff. auto.
Qed.
