From Verif Require Import Base BaseFacts M_Net M_Tracker M_DhtMsg S_Bencode S_Wire S_Http S_DhtMsg P_Wire P_DhtMsg M_Dht S_Async S_Dht P_Nursery P_Dht P_Dht2 P_Dht3 P_Dht4 P_Dht5.
From Coq Require Import Permutation Sorted.

Section D.
Context (my_id : bytes) (v6 : bool) (boot : list sockaddr).
Let sinv := sinv my_id v6 boot.
Let ainv := ainv my_id v6 boot.
Local Notation start := (actor_start my_id v6 boot).
Local Notation history := (history my_id v6 boot).

Lemma history_step a h e a' o : history a h -> wf_ev e -> astep a e = Some (a', o) -> history a' (h ++ o).
Proof.
  intros (l & WF & R) W E. exists (l ++ [e]). split; [apply Forall_app; auto|]. apply arun_app. exists a, h, o. split; [exact R|]. split; [|reflexivity]. cbn [arun]. rewrite E, app_nil_r. reflexivity.
Qed.
Lemma history_run a h l : forall a' o, history a h -> Forall wf_ev l -> arun a l = Some (a', o) -> history a' (h ++ o).
Proof. intros a' o (l0 & WF & R) W E. exists (l0 ++ l). split; [apply Forall_app; auto|]. apply arun_app. exists a, h, o. auto. Qed.
Lemma history_ind (P : actor -> list aobs -> Prop) : P start [] ->
  (forall a h e a' o, history a h -> P a h -> wf_ev e -> astep a e = Some (a', o) -> P a' (h ++ o)) -> forall a h, history a h -> P a h.
Proof.
  intros P0 PS a h (l & WF & R). revert a h R. induction l as [|e l IH] using rev_ind; intros a h R.
  - cbn in R. injection R as <- <-. exact P0.
  - apply Forall_app in WF. destruct WF as (WF & WE). inversion WE as [|? ? W1 _]; subst. apply arun_app in R. destruct R as (a1 & o1 & o & R1 & R2 & ->).
    cbn [arun] in R2. destruct (astep a1 e) as [[a2 o2]|] eqn:ST; [|discriminate]. injection R2 as <- <-. rewrite app_nil_r. eapply PS; eauto. exists l. auto.
Qed.
(** *** Unsolicited messages *)
Lemma in_flight_awaiting a h sid s addr txn : history a h -> In (sid, s) (a_sessions a) -> In (addr, txn) (ls_in_flight s) -> awaiting h sid addr txn.
Proof. intros H X Y. apply history_inv in H. destruct (ainv_session _ _ _ _ _ _ _ H X) as (hash & _ & SI & _). apply (s_fl _ _ _ _ _ _ _ SI). exact Y. Qed.
Lemma unsolicited a h from msg pick oks a' o : history a h ->
  (forall txn ty, prescan msg = Some (txn, ty) -> ty <> TQuery -> forall sid, ~ awaiting h sid from txn) ->
  astep a (ADatagram from msg pick oks) = Some (a', o) -> a' = a /\ o = [].
Proof.
  intros H N E. destruct pick as [sid|].
  - exfalso. apply datagram_some in E. destruct E as (txn & ty & s & s1 & r & o' & _ & PS & NQ & G & SM & _). apply message_shape in SM. destruct SM as (K & _).
    apply (N _ _ PS NQ sid). eapply in_flight_awaiting; eauto. apply ses_get_in. exact G.
  - unfold astep in E. destruct (a_running a); [|discriminate]. destruct (prescan msg) as [[txn [| |]]|]; try (split; congruence); destruct (existsb _ _); try discriminate; split; congruence.
Qed.
Lemma unsolicited_possible a h from msg oks : history a h -> a_running a = true ->
  (forall txn ty, prescan msg = Some (txn, ty) -> ty <> TQuery -> forall sid, ~ awaiting h sid from txn) ->
  astep a (ADatagram from msg None oks) = Some (a, []).
Proof.
  intros H RUN N. unfold astep. rewrite RUN. destruct (prescan msg) as [[txn ty]|]; [|reflexivity].
  assert (E : ty <> TQuery -> existsb (fun e => key_mem (from, txn) (ls_in_flight (snd e))) (a_sessions a) = false).
  { intros NQ. destruct (existsb _ _) eqn:E; [|reflexivity]. exfalso. apply existsb_exists in E. destruct E as ([sid s] & X & K). cbn [snd] in K. apply key_mem_in in K.
    apply (N _ _ eq_refl NQ sid). eapply in_flight_awaiting; eauto. }
  destruct ty; [reflexivity|rewrite E by discriminate; reflexivity|rewrite E by discriminate; reflexivity].
Qed.
Lemma carries_prescan msg txn : carries msg txn <-> exists ty, prescan msg = Some (txn, ty) /\ ty <> TQuery.
Proof.
  unfold carries. split.
  - intros (d & rest & ty & A & B & C & D & E). exists ty. split; [apply prescan_iff; exists d, rest; auto|exact E].
  - intros (ty & P & E). apply prescan_iff in P. destruct P as (d & rest & A & B & C & D). exists d, rest, ty. auto.
Qed.
Lemma unsolicited' a h from msg pick oks : history a h -> (forall txn sid, carries msg txn -> ~ awaiting h sid from txn) ->
  (forall a' o, astep a (ADatagram from msg pick oks) = Some (a', o) -> a' = a /\ o = []) /\ (a_running a = true -> astep a (ADatagram from msg None oks) = Some (a, [])).
Proof.
  intros H N. assert (N' : forall txn ty, prescan msg = Some (txn, ty) -> ty <> TQuery -> forall sid, ~ awaiting h sid from txn) by (intros txn ty P E sid; apply N; apply carries_prescan; eauto).
  split; [intros a' o E; eapply unsolicited; eauto|]. intros R. eapply unsolicited_possible; eauto.
Qed.
(** *** Timers *)
Lemma few_app h o : few (h ++ o) -> few h.
Proof. unfold few. rewrite txns_app, app_length. lia. Qed.
Lemma few_nodup a h i j t : history a h -> few h -> nth_error (txns h) i = Some t -> nth_error (txns h) j = Some t -> i = j.
Proof.
  intros H F A B. assert (LI : (i < length (txns h))%nat) by (apply nth_error_Some; congruence). assert (LJ : (j < length (txns h))%nat) by (apply nth_error_Some; congruence). unfold few in F.
  destruct (Nat.lt_trichotomy i j) as [L|[L|L]]; [exfalso|exact L|exfalso].
  - eapply (txn_distinct my_id v6 boot a h i j); eauto; lia.
  - eapply (txn_distinct my_id v6 boot a h j i); eauto; lia.
Qed.
Lemma awaiting_nth h sid addr txn : awaiting h sid addr txn -> exists h1 q h2, h = h1 ++ OQuery sid addr q true :: h2 /\ nth_error (txns h) (length (txns h1)) = Some txn.
Proof.
  intros (h1 & q & h2 & -> & <- & _). exists h1, q, h2. split; [reflexivity|]. rewrite txns_app, nth_error_app2, Nat.sub_diag by lia. reflexivity.
Qed.
Lemma split_unique h1 q1 h1' h2 q2 h2' s1 a1 b1 s2 a2 b2 : h1 ++ OQuery s1 a1 q1 b1 :: h1' = h2 ++ OQuery s2 a2 q2 b2 :: h2' -> length (txns h1) = length (txns h2) -> s1 = s2 /\ h1 = h2.
Proof.
  intros E L. apply app_eq_split in E. destruct E as [(m & -> & E)|(m & -> & E)].
  - rewrite txns_app, app_length in L. change (txns (OQuery s2 a2 q2 b2 :: m)) with (gq_txn q2 :: txns m) in L. cbn [length] in L. lia.
  - destruct m as [|x m]; cbn in E; injection E as E1 E2.
    + rewrite app_nil_r. split; [congruence|reflexivity].
    + subst x. rewrite txns_app, app_length in L. change (txns (OQuery s1 a1 q1 b1 :: m)) with (gq_txn q1 :: txns m) in L. cbn [length] in L. lia.
Qed.
Lemma await_unique a h s1 s2 a1 a2 t : history a h -> few h -> awaiting h s1 a1 t -> awaiting h s2 a2 t -> s1 = s2.
Proof.
  intros H F A B. apply awaiting_nth in A. destruct A as (h1 & q1 & h1' & E1 & N1). apply awaiting_nth in B. destruct B as (h2 & q2 & h2' & E2 & N2).
  assert (L := few_nodup _ _ _ _ _ H F N1 N2). rewrite E1 in E2. apply (split_unique _ _ _ _ _ _ _ _ _ _ _ _ E2 L).
Qed.
Definition tinv (a : actor) : Prop := forall sid s k, In (sid, s) (a_sessions a) -> In k (ls_in_flight s) -> In k (a_timers a).
Lemma combine_in {A B} (l : list A) : forall (m : list B) x, length m = length l -> In x l -> exists y, In (x, y) (combine l m).
Proof.
  induction l as [|a l IH]; intros [|b m] x L X; try discriminate; [destruct X|]. destruct X as [->|X].
  - exists b. left. reflexivity.
  - destruct (IH m x) as (y & Y); [cbn in L; lia|exact X|]. exists y. right. exact Y.
Qed.
Lemma out_tinv a sid s oks x a' o : NoDup (map fst (a_sessions a)) -> ses_get (a_sessions a) sid = Some x -> In sid (a_senders a) -> a_txn a < 2 ^ 32 ->
  (forall k, In k (ls_in_flight s) -> In k (a_timers a)) ->
  (forall i y k, i <> sid -> In (i, y) (a_sessions a) -> In k (ls_in_flight y) -> In k (a_timers a)) ->
  send_outgoing a sid s oks = (a', o) -> tinv a'.
Proof.
  intros ND G SN L T1 T2 E. pose proof (send_outgoing_spec a sid s oks x ND G SN L) as S. rewrite E in S.
  destruct S as (qs & bl & fl' & ans & EO & BL & QA & QG & QT & ET & FL & TM & _ & _ & _ & _ & _ & D). cbv zeta in D.
  assert (MONO : forall k, In k (a_timers a) -> In k (a_timers a')) by (intros k K; apply TM; auto).
  intros i y k X K. destruct D as [(NE & _ & ES & _)|(_ & _ & ES & _)]; rewrite ES in X.
  - apply ses_set_in in X. destruct X as [(-> & ->)|(NI & X)]; [|apply MONO; eapply T2; eauto]. cbn [ls_in_flight] in K. apply FL in K. destruct K as ([K|K] & NF); [apply MONO; auto|].
    apply TM. right. apply in_map_iff in K. destruct K as (p & <- & P). destruct (combine_in qs bl p BL P) as ([|] & Y); [eauto|]. exfalso. apply NF. eauto.
  - apply ses_del_in in X. destruct X as (X & NI). apply MONO. eapply T2; eauto.
Qed.
Lemma step_tinv a h e a' o : history a h -> few h -> tinv a -> astep a e = Some (a', o) -> tinv a'.
Proof.
  intros H F T E. apply history_inv in H as V. destruct e as [hash oks| |from msg [sid|] oks|k [sid|]].
  - unfold astep in E. destruct (a_running a) eqn:RUN; [|discriminate]. destruct (send_outgoing _ _ _ oks) as [a2 o2] eqn:SO. injection E as <- <-.
    assert (NK : ~ In (a_next a) (map fst (a_sessions a))). { intros X. apply in_map_iff in X. destruct X as ([i x] & EI & X). cbn in EI. subst i. pose proof (v_ses _ _ _ _ _ _ V _ _ X). lia. }
    assert (ND : NoDup (map fst (a_sessions a ++ [(a_next a, session_new hash (a_id a) (a_v6 a) (a_boot a))]))).
    { rewrite map_app. cbn [map fst]. apply NoDup_app_intro; [apply V|repeat constructor; intros []|]. intros x X [<-|[]]. contradiction. }
    eapply out_tinv in SO; [exact SO| | | | | |].
    + exact ND.
    + apply ses_get_iff; [exact ND|]. apply in_or_app. right. left. reflexivity.
    + cbn [a_senders]. apply in_or_app. right. left. reflexivity.
    + cbn [a_txn]. rewrite (v_txn _ _ _ _ _ _ V). apply N.mod_lt. discriminate.
    + intros k [].
    + cbn [a_sessions a_timers]. intros i y k NI X K. apply in_app_iff in X. destruct X as [X|[X|[]]]; [eapply T; eauto|congruence].
  - unfold astep in E. destruct (a_running a); [|discriminate]. injection E as <- <-. intros ? ? ? [].
  - apply datagram_some in E. destruct E as (txn & ty & s & s1 & r & o' & _ & PS & NQ & G & SM & SO & ->). apply message_shape in SM. destruct SM as (K & _ & _ & _ & EF & _).
    assert (IN : In sid (map fst (a_sessions a))) by (apply ses_get_in in G; apply (in_map fst) in G; exact G).
    eapply out_tinv in SO; [exact SO| | | | | |]; unfold with_sessions; cbn [a_sessions a_senders a_txn a_timers].
    + rewrite ses_set_keys. apply V.
    + eapply ses_set_get; eauto.
    + rewrite (v_snd _ _ _ _ _ _ V). exact IN.
    + rewrite (v_txn _ _ _ _ _ _ V). apply N.mod_lt. discriminate.
    + intros k X. rewrite EF in X. apply key_remove_in in X. eapply T; [apply ses_get_in; exact G|tauto].
    + intros i y k NI X Y. apply ses_set_in in X. destruct X as [(X & _)|(_ & X)]; [congruence|]. eapply T; eauto.
  - assert (a' = a); [|subst; exact T]. unfold astep in E. destruct (a_running a); [|discriminate]. destruct (prescan msg) as [[txn [| |]]|]; try congruence; destruct (existsb _ _); congruence.
  - apply timeout_some in E. destruct E as (s & s1 & o' & RUN & K & G & ST & -> & P).
    unfold session_timeout in ST. destruct (key_mem k (ls_in_flight s)) eqn:KM; [|discriminate]. apply key_mem_in in KM. assert (E1 : s1 = with_flight s (key_remove k (ls_in_flight s))) by congruence. clear ST.
    assert (IN := ses_get_in _ _ _ G). destruct (ainv_session _ _ _ _ _ _ _ V IN) as (hash & _ & _ & TQ & _).
    erewrite (postprocess_outgoing _ sid s1) in P; [|cbn [a_sessions]; rewrite ses_set_keys; apply V|cbn [a_sessions]; eapply ses_set_get; eauto|subst s1; exact TQ].
    eapply out_tinv in P; [exact P| | | | | |]; cbn [a_sessions a_senders a_txn a_timers].
    + rewrite ses_set_keys. apply V.
    + eapply ses_set_get; eauto.
    + rewrite (v_snd _ _ _ _ _ _ V). apply (in_map fst) in IN. exact IN.
    + rewrite (v_txn _ _ _ _ _ _ V). apply N.mod_lt. discriminate.
    + intros k' X. subst s1. cbn [with_flight ls_in_flight] in X. apply key_remove_in in X. apply key_remove_in. split; [eapply T; [exact IN|tauto]|tauto].
    + intros i y k' NI X Y. apply ses_set_in in X. destruct X as [(X & _)|(_ & X)]; [congruence|]. apply key_remove_in. split; [eapply T; eauto|]. intros ->.
      destruct k as [ad t]. apply NI. eapply (await_unique a h i sid ad ad t); eauto; eapply in_flight_awaiting; eauto.
  - unfold astep in E. destruct (a_running a); [|discriminate]. destruct (key_mem k (a_timers a)); [|discriminate]. destruct (existsb _ _) eqn:EX; [discriminate|]. injection E as <- <-.
    intros i y k' X Y. cbn [a_sessions a_timers] in *. apply key_remove_in. split; [eapply T; eauto|]. intros ->.
    assert (Z : existsb (fun e => key_mem k (ls_in_flight (snd e))) (a_sessions a) = true); [|congruence]. apply existsb_exists. exists (i, y). split; [exact X|]. apply key_mem_in. exact Y.
Qed.
Lemma history_tinv a h : history a h -> few h -> tinv a.
Proof.
  revert a h. apply (history_ind (fun a h => few h -> tinv a)).
  - intros _ ? ? ? [].
  - intros a h e a' o H IH W E F. apply few_app in F. eapply step_tinv; eauto.
Qed.
(** A timeout that a session waits for can happen. *)
Lemma timeout_possible a sid s k : a_running a = true -> NoDup (map fst (a_sessions a)) -> In (sid, s) (a_sessions a) -> In k (ls_in_flight s) -> In k (a_timers a) ->
  exists a' o, astep a (ATimeout k (Some sid)) = Some (a', o).
Proof.
  intros R ND X K T. unfold astep. rewrite R. apply key_mem_in in T. rewrite T. apply (ses_get_iff _ _ _ ND) in X. rewrite X. unfold session_timeout. apply key_mem_in in K. rewrite K.
  match goal with |- context [postprocess ?z sid] => destruct (postprocess z sid) as [a2 o2] end. eauto.
Qed.
Lemma running_unless_down a h sid s : history a h -> In (sid, s) (a_sessions a) -> a_running a = true.
Proof. intros H X. apply history_inv in H. destruct (a_running a) eqn:R; [reflexivity|]. rewrite (v_off _ _ _ _ _ _ H R) in X. destruct X. Qed.
Lemma lookup_answered a h sid hash : history a h -> In (OLookup sid hash) h -> few h ->
  (length (answers h sid) = 1%nat /\ downs h sid = O) \/
  (answers h sid = [] /\ downs h sid = 1%nat /\ a_running a = false) \/
  (answers h sid = [] /\ downs h sid = O /\ exists addr txn, awaiting h sid addr txn /\ In (addr, txn) (a_timers a) /\ exists a' o, astep a (ATimeout (addr, txn) (Some sid)) = Some (a', o)).
Proof.
  intros H X F. destruct (history_lookup _ _ _ _ _ _ _ H X) as (_ & _ & [(s & IN & SI & _ & FL & A & D)|(_ & s & _ & _ & [(_ & A & D)|(R & A & D)])]).
  - right. right. split; [exact A|]. split; [exact D|]. destruct (ls_in_flight s) as [|[addr txn] fl] eqn:E; [congruence|]. exists addr, txn.
    assert (K : In (addr, txn) (ls_in_flight s)) by (rewrite E; left; reflexivity). assert (T : In (addr, txn) (a_timers a)) by (eapply (history_tinv a h); eauto).
    split; [eapply in_flight_awaiting; eauto|]. split; [exact T|]. eapply timeout_possible; eauto.
    + eapply running_unless_down; eauto.
    + apply (v_nd _ _ _ _ _ _ (history_inv _ _ _ _ _ H)).
  - left. rewrite A. auto.
  - right. left. auto.
Qed.
Lemma lookup_at_most_once a h sid hash : history a h -> In (OLookup sid hash) h -> (length (answers h sid) + downs h sid <= 1)%nat.
Proof.
  intros H X. destruct (history_lookup _ _ _ _ _ _ _ H X) as (_ & _ & [(s & IN & SI & _ & FL & A & D)|(_ & s & _ & _ & [(_ & A & D)|(R & A & D)])]); rewrite A, D; cbn; lia.
Qed.
Lemma all_answered a h : history a h -> few h -> a_running a = true -> (forall k pick, astep a (ATimeout k pick) = None) ->
  forall sid hash, In (OLookup sid hash) h -> length (answers h sid) = 1%nat /\ downs h sid = O.
Proof.
  intros H F R N sid hash X. destruct (lookup_answered _ _ _ _ H X F) as [Q|[(_ & _ & Q)|(_ & _ & addr & txn & _ & _ & a' & o & E)]]; [exact Q|congruence|]. rewrite N in E. discriminate.
Qed.
Lemma send_all_nil_timers a sid : forall a' o, postprocess a sid = (a', o) -> a_timers a' = a_timers a /\ a_running a' = a_running a.
Proof.
  unfold postprocess. intros a' o. destruct (ses_get (a_sessions a) sid) as [s0|]; [|intros [= <- <-]; auto]. destruct (get_result s0) as [r|]; intros [= <- <-]; auto.
Qed.
Lemma filter_lt {A} (p : A -> bool) l x : In x l -> p x = false -> (length (filter p l) < length l)%nat.
Proof.
  intros X P. induction l as [|y l IH]; [destruct X|]. cbn [filter]. destruct X as [->|X].
  - rewrite P. cbn [length]. assert (G : forall m : list A, (length (filter p m) <= length m)%nat) by (induction m as [|z m IHm]; [reflexivity|cbn [filter length]; destruct (p z); cbn [length]; lia]). specialize (G l). lia.
  - specialize (IH X). destruct (p y); cbn [length]; lia.
Qed.
Lemma timeout_shrinks a e a' o : is_timeout e -> astep a e = Some (a', o) -> (length (a_timers a') < length (a_timers a))%nat /\ a_running a' = true /\ txns o = [].
Proof.
  intros T E. destruct e as [? ?| |? ? ? ?|k pick]; try destruct T.
  assert (KL : In k (a_timers a) -> (length (key_remove k (a_timers a)) < length (a_timers a))%nat).
  { intros K. unfold key_remove. apply (filter_lt _ _ k K). rewrite (proj2 (key_eqb_eq k k) eq_refl). reflexivity. }
  destruct pick as [sid|].
  - apply timeout_some in E. destruct E as (s & s1 & o' & RUN & K & _ & _ & -> & P). pose proof (postprocess_kinds _ _ _ _ P) as PK. apply send_all_nil_timers in P. cbn [a_timers a_running] in P. destruct P as (-> & ->). split; [auto|]. split; [reflexivity|].
    change (txns o' = []). apply flat_map_none. intros x X. specialize (PK x X). destruct x; try destruct PK; reflexivity.
  - unfold astep in E. destruct (a_running a) eqn:R; [|discriminate]. destruct (key_mem k (a_timers a)) eqn:K; [|discriminate]. apply key_mem_in in K. destruct (existsb _ _); [discriminate|]. injection E as <- <-. cbn [a_timers a_running]. auto.
Qed.
Lemma timeouts_finite l : forall a a' o, Forall is_timeout l -> arun a l = Some (a', o) -> (length l <= length (a_timers a))%nat.
Proof.
  induction l as [|e l IH]; intros a a' o F E; cbn [length]; [lia|]. inversion F as [|? ? F1 F2]; subst. cbn [arun] in E. destruct (astep a e) as [[a1 o1]|] eqn:ST; [|discriminate].
  destruct (arun a1 l) as [[a2 o2]|] eqn:R; [|discriminate]. specialize (IH _ _ _ F2 R). apply timeout_shrinks in ST; [|exact F1]. lia.
Qed.
(** Letting the timers fire ends all lookups. *)
Lemma timeouts_finish a h : history a h -> few h -> a_running a = true ->
  exists l a' o, Forall is_timeout l /\ arun a l = Some (a', o) /\ forall sid hash, In (OLookup sid hash) h -> length (answers (h ++ o) sid) = 1%nat /\ downs (h ++ o) sid = O.
Proof.
  remember (length (a_timers a)) as n eqn:EN. assert (LN : (length (a_timers a) <= n)%nat) by lia. clear EN. revert a h LN. induction n as [|n IH]; intros a h LN H F R.
  - exists [], a, []. split; [constructor|]. split; [reflexivity|]. rewrite app_nil_r. eapply all_answered; eauto. intros k pick. destruct (astep a (ATimeout k pick)) as [[a' o]|] eqn:E; [|reflexivity].
    apply timeout_shrinks in E; [|exact Logic.I]. lia.
  - destruct (a_timers a) as [|k ts] eqn:TS.
    + apply IH; auto. rewrite TS. cbn. lia.
    + assert (X : exists pick a' o, astep a (ATimeout k pick) = Some (a', o)).
      { destruct (existsb (fun e => key_mem k (ls_in_flight (snd e))) (a_sessions a)) eqn:EX.
        - apply existsb_exists in EX. destruct EX as ([sid s] & X & K). cbn [snd] in K. apply key_mem_in in K. exists (Some sid). eapply timeout_possible; eauto.
          + apply (v_nd _ _ _ _ _ _ (history_inv _ _ _ _ _ H)).
          + rewrite TS. left. reflexivity.
        - exists None. unfold astep. rewrite R. assert (KM : key_mem k (a_timers a) = true) by (apply key_mem_in; rewrite TS; left; reflexivity). rewrite KM, EX. eauto. }
      destruct X as (pick & a1 & o1 & E). pose proof (timeout_shrinks a (ATimeout k pick) a1 o1 Logic.I E) as (S1 & S2 & S3).
      assert (H1 : history a1 (h ++ o1)) by (eapply history_step; eauto; exact Logic.I).
      destruct (IH a1 (h ++ o1)) as (l & a' & o & L1 & L2 & L3); [rewrite TS in S1; cbn in *; lia|exact H1| |exact S2|].
      { unfold few in *. rewrite txns_app, S3, app_nil_r. exact F. }
      exists (ATimeout k pick :: l), a', (o1 ++ o). split; [constructor; [exact Logic.I|exact L1]|]. split; [cbn [arun]; rewrite E, L2; reflexivity|].
      intros sid hash X. rewrite app_assoc. apply (L3 sid hash). apply in_or_app. auto.
Qed.
(** *** Which nodes are queried after a reply *)
Lemma asked_only a h e a' o sid : history a h -> wf_ev e -> astep a e = Some (a', o) -> asked o sid <> [] ->
  (exists hash, In (OLookup sid hash) o /\ asked o sid = boot) \/ exists addr txn rsp, In (OReply sid addr txn (Ok rsp)) o.
Proof.
  intros H W E NE. apply history_inv in H as V. destruct e as [hash oks| |from msg [i|] oks|k [i|]].
  - unfold astep in E. destruct (a_running a) eqn:RUN; [|discriminate]. destruct (send_outgoing _ _ _ oks) as [a2 o2] eqn:SO. injection E as <- <-. left.
    pose proof (send_outgoing_kinds _ _ _ _ _ _ SO) as KI.
    destruct (Nat.eq_dec sid (a_next a)) as [->|NS].
    + exists hash. split; [left; reflexivity|].
      assert (NK : ~ In (a_next a) (map fst (a_sessions a))). { intros X. apply in_map_iff in X. destruct X as ([i x] & EI & X). cbn in EI. subst i. pose proof (v_ses _ _ _ _ _ _ V _ _ X). lia. }
      assert (ND : NoDup (map fst (a_sessions a ++ [(a_next a, session_new hash (a_id a) (a_v6 a) (a_boot a))]))).
      { rewrite map_app. cbn [map fst]. apply NoDup_app_intro; [apply V|repeat constructor; intros []|]. intros x X [<-|[]]. contradiction. }
      match type of SO with send_outgoing ?z ?i ?s oks = _ => pose proof (send_outgoing_spec z i s oks s) as S end. rewrite SO in S. cbn [a_sessions a_senders a_txn] in S.
      destruct S as (qs & bl & fl' & ans & EO & BL & QA & _ & _ & _ & _ & _ & _ & _ & _ & _ & _ & D).
      * exact ND.
      * apply ses_get_iff; [exact ND|]. apply in_or_app. right. left. reflexivity.
      * apply in_or_app. right. left. reflexivity.
      * rewrite (v_txn _ _ _ _ _ _ V). apply N.mod_lt. discriminate.
      * change (asked o2 (a_next a) = boot). cbv zeta in D. rewrite EO, asked_app, qobs_asked, QA by exact BL. cbn [session_new ls_to_query]. rewrite (v_boot _ _ _ _ _ _ V).
        destruct D as [(_ & -> & _)|(_ & -> & _)]; apply app_nil_r.
    + exfalso. apply NE. change (asked o2 sid = []). apply asked_others. intros x X. specialize (KI x X). destruct x; try destruct KI; cbn [sid_of]; congruence.
  - unfold astep in E. destruct (a_running a); [|discriminate]. injection E as <- <-. exfalso. apply NE. apply flat_map_none. intros x X. apply in_map_iff in X. destruct X as (j & <- & _). reflexivity.
  - apply datagram_some in E. destruct E as (txn & ty & s & s1 & r & o' & _ & PS & NQ & G & SM & SO & ->). right.
    assert (IN := ses_get_in _ _ _ G). destruct (ainv_session _ _ _ _ _ _ _ V IN) as (hash & _ & _ & TQ & _).
    pose proof (send_outgoing_kinds _ _ _ _ _ _ SO) as KI.
    destruct (Nat.eq_dec sid i) as [->|NS].
    + apply message_shape in SM. destruct SM as (K & _ & _ & _ & EF & SM). destruct r as [rsp|er]; [exists from, txn, rsp; left; reflexivity|]. exfalso. apply NE. destruct SM as (_ & _ & TQ1).
      change (asked o' i = []). match type of SO with send_outgoing ?z ?i ?s oks = _ => pose proof (send_outgoing_spec z i s oks s) as S end. rewrite SO in S. unfold with_sessions in S. cbn [a_sessions a_senders a_txn] in S.
      destruct S as (qs & bl & fl' & ans & EO & BL & QA & _ & _ & _ & _ & _ & _ & _ & _ & _ & _ & D).
      * rewrite ses_set_keys. apply V.
      * eapply ses_set_get; eauto.
      * rewrite (v_snd _ _ _ _ _ _ V). apply (in_map fst) in IN. exact IN.
      * rewrite (v_txn _ _ _ _ _ _ V). apply N.mod_lt. discriminate.
      * cbv zeta in D. rewrite EO, asked_app, qobs_asked, QA, TQ1, TQ by exact BL. destruct D as [(_ & -> & _)|(_ & -> & _)]; reflexivity.
    + exfalso. apply NE. change (asked o' sid = []). apply asked_others. intros x X. specialize (KI x X). destruct x; try destruct KI; cbn [sid_of]; congruence.
  - apply pick_none in E; [|eauto]. subst o. destruct (NE eq_refl).
  - apply timeout_some in E. destruct E as (s & s1 & o' & RUN & K & G & ST & -> & P). exfalso. apply NE. change (asked o' sid = []). pose proof (postprocess_kinds _ _ _ _ P) as PK.
    apply flat_map_none. intros x X. specialize (PK x X). destruct x; try destruct PK; reflexivity.
  - apply pick_none in E; [|eauto]. subst o. destruct (NE eq_refl).
Qed.
Lemma asked_closest a h e a' o sid addr txn rsp hash : history a h -> wf_ev e -> astep a e = Some (a', o) -> In (OReply sid addr txn (Ok rsp)) o -> In (OLookup sid hash) h ->
  exists rest top far kn, asked h sid = boot ++ rest /\ known_nodes (h ++ o) sid kn /\ Permutation (top ++ far) kn /\ length top = Nat.min 8 (length kn) /\
    StronglySorted (fun m n => xdist hash m <= xdist hash n) top /\
    (forall m n, In m top -> In n far -> xdist hash m <= xdist hash n) /\
    asked o sid = filter (fun x => negb (existsb (sa_eqb x) rest)) (map node_address top).
Proof.
  intros H W E X LK. apply history_inv in H as V. pose proof (step_replies _ _ _ _ _ _ _ _ E X) as (msg & oks & o1 & -> & -> & NR & _).
  apply datagram_some in E as E'. destruct E' as (txn0 & ty & s & s1 & r & o' & _ & PS & NQ & G & SM & SO & EO). injection EO as <- <- <-.
  assert (IN := ses_get_in _ _ _ G). destruct (ainv_session _ _ _ _ _ _ _ V IN) as (hash0 & LK0 & SI & TQ & _).
  assert (hash = hash0) as <- by (apply LK0; exact LK).
  apply message_shape in SM. destruct SM as (K & _ & _ & _ & EF & EP & ns & EC & EQ).
  destruct (s_space _ _ _ _ _ _ _ SI) as (rest & EA & SP). rewrite TQ, app_nil_r in EA.
  apply (reply_space h sid hash rest s addr txn rsp) in SP. destruct (spinv_query _ _ _ _ _ _ _ _ SP EC) as (_ & ENS).
  match type of EC with closest_unqueried _ ?z = _ => set (sp := z) in * end. set (fs := flat (sp_nodes sp)) in *.
  destruct (p_known _ _ _ _ _ SP) as (kn & F & P & _). fold fs in P.
  assert (TO : told (h ++ OReply sid addr txn (Ok rsp) :: o1) sid = told (h ++ [OReply sid addr txn (Ok rsp)]) sid).
  { change (OReply sid addr txn (Ok rsp) :: o1) with ([OReply sid addr txn (Ok rsp)] ++ o1). rewrite app_assoc, (told_app (h ++ _)).
    assert (T0 : told o1 sid = []); [|rewrite T0; apply app_nil_r]. apply flat_map_none. intros x Y. pose proof (send_outgoing_kinds _ _ _ _ _ _ SO x Y). destruct x; tauto || reflexivity. }
  assert (WF : forall i, In i fs -> length (nd_id (ni_node i)) = 20%nat).
  { intros i Y. assert (H1 : history a' (h ++ OReply sid addr txn (Ok rsp) :: o1)) by (eapply history_step; eauto). apply (told_wf my_id v6 boot _ _ sid _ H1). rewrite TO. apply keys_nodup in F. apply F. apply (Permutation_in _ P). apply in_map. exact Y. }
  exists rest, (map ni_node (firstn 8 fs)), (map ni_node (skipn 8 fs)), kn. split; [exact EA|]. split; [unfold known_nodes; rewrite TO; exact F|].
  split; [rewrite <- map_app, firstn_skipn; exact P|]. split; [rewrite map_length, firstn_length, <- (Permutation_length P), map_length; reflexivity|]. split; [|split].
  - apply (StronglySorted_map _ (dle hash)); [|apply StronglySorted_firstn, (wfm_sorted _ _ (p_wfm _ _ _ _ _ SP))]. intros i j M N.
    apply dle_x; [apply LK0|apply WF|apply WF]; rewrite <- (firstn_skipn 8 fs); apply in_or_app; auto.
  - intros m n M N. apply in_map_iff in M. destruct M as (i & <- & M). apply in_map_iff in N. destruct N as (j & <- & N).
    assert (SS := wfm_sorted _ _ (p_wfm _ _ _ _ _ SP)). fold fs in SS. rewrite <- (firstn_skipn 8 fs) in SS.
    apply dle_x; [apply LK0|apply WF|apply WF|eapply sorted_split; eauto]; rewrite <- (firstn_skipn 8 fs); apply in_or_app; auto.
  - change (asked o1 sid = filter (fun x => negb (existsb (sa_eqb x) rest)) (map node_address (map ni_node (firstn 8 fs)))).
    match type of SO with send_outgoing ?z ?i ?s oks = _ => pose proof (send_outgoing_spec z i s oks s) as S end. rewrite SO in S. unfold with_sessions in S. cbn [a_sessions a_senders a_txn] in S.
    destruct S as (qs & bl & fl' & ans & EO & BL & QA & _ & _ & _ & _ & _ & _ & _ & _ & _ & _ & D).
    + rewrite ses_set_keys. apply V.
    + eapply ses_set_get; eauto.
    + rewrite (v_snd _ _ _ _ _ _ V). apply (in_map fst) in IN. exact IN.
    + rewrite (v_txn _ _ _ _ _ _ V). apply N.mod_lt. discriminate.
    + cbv zeta in D. assert (AE : asked o1 sid = map node_address ns).
      { rewrite EO, asked_app, qobs_asked, QA, EQ, TQ by exact BL. destruct D as [(_ & -> & _)|(_ & -> & _)]; apply app_nil_r. }
      rewrite AE, ENS, !map_map. fold fs. change CLOSEST with 8%nat.
      assert (SUB : forall i, In i (firstn 8 fs) -> In i fs) by (intros i Y; rewrite <- (firstn_skipn 8 fs); apply in_or_app; auto).
      induction (firstn 8 fs) as [|i l IHl]; [reflexivity|]. cbn [filter map]. assert (QQ : ni_queried i = existsb (sa_eqb (node_address (ni_node i))) rest).
      { apply eq_true_iff_eq. rewrite existsb_exists. assert (PQ := p_q _ _ _ _ _ SP i (SUB i (or_introl eq_refl))). rewrite PQ. split.
        - intros Y. exists (node_address (ni_node i)). split; [exact Y|]. apply sa_eqb_eq. reflexivity.
        - intros (y & Y & Z). apply sa_eqb_eq in Z. subst y. exact Y. }
      rewrite <- QQ. destruct (ni_queried i); cbn [negb map]; [|f_equal]; apply IHl; intros j J; apply SUB; right; exact J.
Qed.
(** *** The queries *)
Lemma queries_good a h sid hash addr q ok : history a h -> In (OLookup sid hash) h -> In (OQuery sid addr q ok) h -> good_query my_id hash v6 q.
Proof. intros H X Y. destruct (lookup_session _ _ _ _ _ _ _ H X) as (s & SI & _). eapply (s_query _ _ _ _ _ _ _ SI); eauto. Qed.
Lemma query_has_lookup a h o : history a h -> In o h -> exists hash, In (OLookup (sid_of o) hash) h /\ length hash = 20%nat.
Proof.
  intros H X. apply history_inv in H as V. assert (L := v_sids _ _ _ _ _ _ V o X). destruct (v_look _ _ _ _ _ _ V _ L ltac:(discriminate)) as (hash & (L20 & LK) & _). exists hash. split; [apply LK; reflexivity|exact L20].
Qed.
Lemma queries_say a h sid addr q ok : history a h -> In (OQuery sid addr q ok) h ->
  exists hash, In (OLookup sid hash) h /\ (forall hash', In (OLookup sid hash') h -> hash' = hash) /\
    gq_hash q = hash /\ gq_node_id q = my_id /\ gq_ro q = Some true /\ gq_client q = Some [x44; x4d; x00; x07] /\
    gq_want q = (if v6 then Some [N4; N6] else None).
Proof.
  intros H X. destruct (query_has_lookup _ _ _ H X) as (hash & L & _). cbn [sid_of] in L. assert (G := queries_good _ _ _ _ _ _ _ H L X). exists hash. split; [exact L|]. split.
  - intros hash' L'. destruct (history_lookup _ _ _ _ _ _ _ H L) as (_ & (_ & U) & _). apply U. exact L'.
  - rewrite G. cbn. auto.
Qed.
Lemma reply_origin' l : forall a h, Forall wf_ev l -> arun start l = Some (a, h) -> forall h1 sid addr txn r h2, h = h1 ++ OReply sid addr txn r :: h2 ->
  exists l1 msg oks l2 a1, l = l1 ++ ADatagram addr msg (Some sid) oks :: l2 /\ arun start l1 = Some (a1, h1) /\ decode_response msg = r /\
    carries msg txn /\ awaiting h1 sid addr txn.
Proof.
  intros a h WF R h1 sid addr txn r h2 E. destruct (reply_origin _ _ _ _ _ _ WF R _ _ _ _ _ _ E) as (l1 & msg & oks & l2 & a1 & A & B & C & D & F).
  exists l1, msg, oks, l2, a1. conjs; auto. apply carries_prescan. exact D.
Qed.
Lemma txn_length a h t : history a h -> In t (txns h) -> length t = 4%nat.
Proof. intros H X. apply In_nth_error in X. destruct X as (i & X). apply (txn_nth my_id v6 boot a h i t H) in X. subst t. apply be_bytes_length. Qed.
End D.
Lemma sockaddr_dec (x y : sockaddr) : {x = y} + {x <> y}.
Proof. destruct (sa_eqb x y) eqn:E; [left; apply sa_eqb_eq; exact E|right; intros ->; rewrite (proj2 (sa_eqb_eq y y) eq_refl) in E; discriminate]. Qed.
Lemma known_exists h sid : exists ns, known_nodes h sid ns.
Proof.
  unfold known_nodes. induction (told h sid) as [|x l IH] using rev_ind; [exists []; constructor|]. destruct IH as (ns & F). destruct (in_dec sockaddr_dec (node_address x) (map node_address l)).
  - exists ns. apply f_old; auto.
  - exists (ns ++ [x]). apply f_new; auto.
Qed.
