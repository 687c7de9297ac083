From Verif Require Import Base BaseFacts M_Net M_Tracker M_DhtMsg P_DhtMsg M_Dht S_Async S_Dht P_Nursery P_Dht P_Dht2 P_Dht3.
From Coq Require Import Permutation Sorted.

Section D.
Context (my_id : bytes) (v6 : bool) (boot : list sockaddr).
Let sinv := sinv my_id v6 boot.

Lemma get_result_iff s : get_result s = match ls_in_flight s with [] => Some (result_of s) | _ => None end.
Proof. reflexivity. Qed.
Lemma ses_del_keys m sid : map fst (ses_del m sid) = filter (fun x => negb (Nat.eqb x sid)) (map fst m).
Proof. unfold ses_del. induction m as [|[i y] m IH]; [reflexivity|]. cbn [filter map fst]. destruct (Nat.eqb i sid); cbn [negb map fst]; rewrite IH; reflexivity. Qed.
Lemma send_outgoing_spec a sid s oks x : NoDup (map fst (a_sessions a)) -> ses_get (a_sessions a) sid = Some x -> In sid (a_senders a) -> a_txn a < 2 ^ 32 ->
  let (a', o) := send_outgoing a sid s oks in
  exists qs bl fl' ans, let s' := mkS (ls_id s) (ls_v6 s) (ls_peers s) (ls_nodes s) [] fl' in
    o = qobs sid qs bl ++ ans /\ length bl = length qs /\ map fst qs = ls_to_query s /\
    (forall p, In p qs -> good_query (ls_id s) (sp_hash (ls_nodes s)) (ls_v6 s) (snd p)) /\
    map (fun p => gq_txn (snd p)) qs = map (fun i => txn_bytes ((a_txn a + N.of_nat i) mod 2 ^ 32)) (seq 0 (length (ls_to_query s))) /\
    a_txn a' = (a_txn a + N.of_nat (length (ls_to_query s))) mod 2 ^ 32 /\
    (forall k, In k fl' <-> (In k (ls_in_flight s) \/ In k (map qkey qs)) /\ ~ (exists p, In (p, false) (combine qs bl) /\ qkey p = k)) /\
    (forall k, In k (a_timers a') <-> In k (a_timers a) \/ exists p, In (p, true) (combine qs bl) /\ qkey p = k) /\
    a_id a' = a_id a /\ a_v6 a' = a_v6 a /\ a_next a' = a_next a /\ a_boot a' = a_boot a /\ a_running a' = a_running a /\
    ((fl' <> [] /\ ans = [] /\ a_sessions a' = ses_set (a_sessions a) sid s' /\ a_senders a' = a_senders a) \/
     (fl' = [] /\ ans = [OAnswer sid (result_of s')] /\ a_sessions a' = ses_del (a_sessions a) sid /\ a_senders a' = filter (fun x => negb (Nat.eqb x sid)) (a_senders a))).
Proof.
  intros ND G SN L. unfold send_outgoing, get_outgoing.
  pose proof (outgoing_spec s (ls_to_query s) (a_txn a) (ls_in_flight s) L) as O. destruct (outgoing_go s (ls_to_query s) (a_txn a) (ls_in_flight s)) as [[fl t] qs].
  destruct O as (OA & OG & OF & OT & ON).
  set (s1 := mkS (ls_id s) (ls_v6 s) (ls_peers s) (ls_nodes s) [] fl).
  match goal with |- context [send_all ?z sid qs oks] => set (a1 := z) end.
  assert (ND1 : NoDup (map fst (a_sessions a1))) by (unfold a1; cbn [a_sessions]; rewrite ses_set_keys; exact ND).
  assert (G1 : ses_get (a_sessions a1) sid = Some s1) by (unfold a1; cbn [a_sessions]; eapply ses_set_get; eauto).
  pose proof (send_all_spec sid qs a1 oks s1 ND1 G1) as S. destruct (send_all a1 sid qs oks) as [a2 o2].
  destruct S as (fl' & bl & BL & EO & ES & FL & TM & E1 & E2 & E3 & E4 & E5 & E6 & E7).
  unfold a1 in ES, TM, E1, E2, E3, E4, E5, E6, E7. cbn [a_sessions a_timers a_id a_v6 a_txn a_senders a_next a_boot a_running] in *. rewrite ses_set_set in ES.
  unfold postprocess. assert (G2 : ses_get (a_sessions a2) sid = Some (with_flight s1 fl')) by (rewrite ES; eapply ses_set_get; eauto).
  rewrite G2, get_result_iff. cbn [with_flight ls_in_flight].
  assert (FL' : forall k, In k fl' <-> (In k (ls_in_flight s) \/ In k (map qkey qs)) /\ ~ (exists p, In (p, false) (combine qs bl) /\ qkey p = k)).
  { intros k. rewrite FL. unfold s1. cbn [ls_in_flight]. rewrite OF. reflexivity. }
  destruct fl' as [|k0 fr] eqn:FE.
  - assert (EX : existsb (Nat.eqb sid) (a_senders a2) = true). { rewrite E4. apply existsb_exists. exists sid. split; [exact SN|apply Nat.eqb_refl]. }
    rewrite EX. exists qs, bl, [], [OAnswer sid (result_of (with_flight s1 []))]. cbn [a_sessions a_timers a_id a_v6 a_txn a_senders a_next a_boot a_running]. conjs; auto; try congruence.
    right. conjs; auto; [rewrite ES; apply ses_del_set|congruence].
  - exists qs, bl, (k0 :: fr), []. rewrite !app_nil_r. conjs; auto; try congruence. left. conjs; auto. discriminate.
Qed.

(** Lookup number [sid], for [hash]: it goes on, or it is over. *)
Definition lstate (h : list aobs) (a : actor) (sid : nat) (hash : bytes) : Prop :=
  (exists s, In (sid, s) (a_sessions a) /\ sinv h sid hash s /\ ls_to_query s = [] /\ ls_in_flight s <> [] /\ answers h sid = [] /\ downs h sid = O) \/
  (~ In sid (map fst (a_sessions a)) /\ exists s, sinv h sid hash s /\ ls_to_query s = [] /\
     ((ls_in_flight s = [] /\ answers h sid = [result_of s] /\ downs h sid = O) \/ (a_running a = false /\ answers h sid = [] /\ downs h sid = 1%nat))).
Definition looked (h : list aobs) (sid : nat) (hash : bytes) : Prop := length hash = 20%nat /\ forall hash', In (OLookup sid hash') h <-> hash' = hash.
(** All but the lookup [but]. *)
Record ainv (but : option nat) (h : list aobs) (a : actor) : Prop := {
  v_id : a_id a = my_id; v_v6 : a_v6 a = v6; v_boot : a_boot a = boot;
  v_txn : a_txn a = N.of_nat (length (txns h)) mod 2 ^ 32;
  v_txns : txns h = map (fun i => txn_bytes (N.of_nat i mod 2 ^ 32)) (seq 0 (length (txns h)));
  v_nd : NoDup (map fst (a_sessions a));
  v_snd : a_senders a = map fst (a_sessions a);
  v_off : a_running a = false -> a_sessions a = [];
  v_sids : forall o, In o h -> (sid_of o < a_next a)%nat;
  v_ses : forall sid s, In (sid, s) (a_sessions a) -> (sid < a_next a)%nat;
  v_look : forall sid, (sid < a_next a)%nat -> Some sid <> but -> exists hash, looked h sid hash /\ lstate h a sid hash }.

Lemma looked_app h o sid hash : looked h sid hash -> (forall hash', ~ In (OLookup sid hash') o) -> looked (h ++ o) sid hash.
Proof. intros (L & E) N. split; [exact L|]. intros hash'. rewrite in_app_iff, E. split; [intros [X|X]; [exact X|exfalso; apply (N _ X)]|auto]. Qed.
Lemma lstate_others h o a a' sid hash : lstate h a sid hash -> others sid o ->
  (forall s, In (sid, s) (a_sessions a) -> In (sid, s) (a_sessions a')) -> (In sid (map fst (a_sessions a')) -> In sid (map fst (a_sessions a))) ->
  (a_running a' = a_running a) -> lstate (h ++ o) a' sid hash.
Proof.
  intros V O S1 S2 R. unfold lstate. rewrite answers_app, downs_app, (answers_others _ _ O), (downs_others _ _ O), app_nil_r, Nat.add_0_r, R. destruct V as [(s & A & B & C)|(N & s & B & C & D)].
  - left. exists s. split; [auto|]. split; [apply sinv_others; auto|exact C].
  - right. split; [auto|]. exists s. split; [apply sinv_others; auto|]. auto.
Qed.
Lemma finish h a sid hash s oks a' o : ainv (Some sid) h a -> (sid < a_next a)%nat -> In sid (map fst (a_sessions a)) -> a_running a = true ->
  looked h sid hash -> sinv h sid hash s -> answers h sid = [] -> downs h sid = O ->
  send_outgoing a sid s oks = (a', o) -> ainv None (h ++ o) a'.
Proof.
  intros V LT SN RUN LK SI AN DN E.
  assert (EX : exists x, ses_get (a_sessions a) sid = Some x).
  { apply in_map_iff in SN. destruct SN as ([i x] & <- & X). exists x. apply ses_get_iff; [apply V|exact X]. }
  destruct EX as (x & G). assert (TL : a_txn a < 2 ^ 32) by (rewrite (v_txn _ _ _ V); apply N.mod_lt; discriminate).
  assert (SN' : In sid (a_senders a)) by (rewrite (v_snd _ _ _ V); exact SN).
  pose proof (send_outgoing_spec a sid s oks x (v_nd _ _ _ V) G SN' TL) as S. rewrite E in S.
  destruct S as (qs & bl & fl' & ans & EO & BL & QA & QG & QT & ET & FL & TM & E1 & E2 & E3 & E4 & E5 & D). cbv zeta in *.
  set (s' := mkS (ls_id s) (ls_v6 s) (ls_peers s) (ls_nodes s) [] fl') in *.
  assert (OT : forall i, i <> sid -> others i o).
  { intros i NE z Z. rewrite EO in Z. apply in_app_iff in Z. destruct Z as [Z|Z].
    - apply qobs_in in Z. destruct Z as (p & b & _ & ->). cbn. congruence.
    - destruct D as [(_ & -> & _)|(_ & -> & _)]; [destruct Z|]. destruct Z as [<-|[]]. cbn. congruence. }
  assert (SIDS : forall z, In z o -> sid_of z = sid).
  { intros z Z. rewrite EO in Z. apply in_app_iff in Z. destruct Z as [Z|Z].
    - apply qobs_in in Z. destruct Z as (p & b & _ & ->). reflexivity.
    - destruct D as [(_ & -> & _)|(_ & -> & _)]; [destruct Z|]. destruct Z as [<-|[]]. reflexivity. }
  assert (NL : forall i hash', ~ In (OLookup i hash') o).
  { intros i hash' Z. rewrite EO in Z. apply in_app_iff in Z. destruct Z as [Z|Z].
    - apply qobs_in in Z. destruct Z as (p & b & _ & Z). discriminate.
    - destruct D as [(_ & -> & _)|(_ & -> & _)]; [destruct Z|]. destruct Z as [Z|[]]. discriminate. }
  assert (TX : txns o = map (fun p => gq_txn (snd p)) qs).
  { rewrite EO, txns_app, qobs_txns by exact BL. destruct D as [(_ & -> & _)|(_ & -> & _)]; cbn; apply app_nil_r. }
  assert (LQ : length qs = length (ls_to_query s)) by (rewrite <- QA, map_length; reflexivity).
  assert (SQ : sinv (h ++ qobs sid qs bl) sid hash s').
  { apply sinv_queries; auto.
    - intros p P. destruct (s_space _ _ _ _ _ _ _ SI) as (rest & _ & SP). rewrite <- (p_hash _ _ _ _ _ SP), <- (s_id _ _ _ _ _ _ _ SI), <- (s_v6 _ _ _ _ _ _ _ SI). auto.
    - intros k K. apply FL. exact K. }
  assert (KEYS : forall i, i <> sid -> (forall s0, In (i, s0) (a_sessions a) <-> In (i, s0) (a_sessions a'))).
  { intros i NE s0. destruct D as [(_ & _ & -> & _)|(_ & _ & -> & _)].
    - split.
      + intros X. unfold ses_set. apply in_map_iff. exists (i, s0). cbn [fst]. destruct (Nat.eqb_spec i sid); [contradiction|]. auto.
      + intros X. apply ses_set_in in X. tauto.
    - rewrite ses_del_in. tauto. }
  assert (NDS : NoDup (map fst (a_sessions a'))).
  { destruct D as [(_ & _ & -> & _)|(_ & _ & -> & _)]; [rewrite ses_set_keys; apply V|rewrite ses_del_keys; apply NoDup_filter; apply V]. }
  constructor.
  - rewrite E1. apply V.
  - rewrite E2. apply V.
  - rewrite E4. apply V.
  - rewrite ET, (v_txn _ _ _ V), txns_app, app_length, TX, map_length, LQ, Nat2N.inj_add. apply N.add_mod_idemp_l. discriminate.
  - rewrite txns_app, app_length, seq_app, map_app, <- (v_txns _ _ _ V). f_equal. rewrite TX, map_length, LQ, QT, (v_txn _ _ _ V). cbn [Nat.add].
    clear. generalize (length (ls_to_query s)). intros n. generalize (length (txns h)). intros m.
    assert (G : forall k, map (fun i => txn_bytes ((N.of_nat m mod 2 ^ 32 + N.of_nat i) mod 2 ^ 32)) (seq k n) = map (fun i => txn_bytes (N.of_nat i mod 2 ^ 32)) (seq (m + k) n)).
    { induction n as [|n IH]; intros k; [reflexivity|]. cbn [seq map]. f_equal; [|rewrite IH; f_equal; f_equal; lia].
      f_equal. rewrite N.add_mod_idemp_l by discriminate. f_equal. lia. }
    rewrite G. f_equal. f_equal. lia.
  - exact NDS.
  - destruct D as [(_ & _ & -> & ->)|(_ & _ & -> & ->)]; rewrite (v_snd _ _ _ V); [rewrite ses_set_keys; reflexivity|rewrite ses_del_keys; reflexivity].
  - rewrite E5, RUN. discriminate.
  - intros z Z. rewrite E3. apply in_app_iff in Z. destruct Z as [Z|Z]; [apply V; exact Z|]. rewrite (SIDS _ Z). exact LT.
  - intros i s0 X. rewrite E3. destruct (Nat.eq_dec i sid) as [->|NE]; [exact LT|]. apply (v_ses _ _ _ V i s0). apply KEYS; auto.
  - intros i L _. rewrite E3 in L. destruct (Nat.eq_dec i sid) as [->|NE].
    + exists hash. split; [apply looked_app; auto|]. unfold lstate. destruct (qobs_told sid qs bl sid) as (_ & _ & A1 & A2).
      destruct D as [(F1 & -> & F2 & F3)|(F1 & -> & F2 & F3)]; rewrite EO.
      * left. exists s'. rewrite app_nil_r, answers_app, downs_app, A1, A2, AN, DN. conjs; auto. rewrite F2. apply ses_get_iff; [rewrite ses_set_keys; apply V|]. eapply ses_set_get; eauto.
      * right. split.
        -- rewrite F2, ses_del_keys, filter_In, Nat.eqb_refl. cbn [negb]. intros (_ & X). discriminate.
        -- exists s'. split; [|split; [reflexivity|left]].
           ++ rewrite app_assoc. destruct (s_space _ _ _ _ _ _ _ SQ) as (rest & EQ & SP). constructor; try apply SQ.
              ** rewrite given_app. cbn. rewrite app_nil_r. apply SQ.
              ** exists rest. rewrite asked_app, told_app. cbn. rewrite !app_nil_r. split; [rewrite app_nil_r in EQ; exact EQ|]. eapply spinv_ext; [|exact SP].
                 intros id. symmetry. unfold Rh. split; intros (n & R & IDN); exists n; (split; [|exact IDN]); [apply (responded_frame (h ++ qobs sid qs bl) [OAnswer sid (result_of s')]) in R; [exact R|]|apply responded_frame; [|exact R]]; intros a0 t r [X|[]]; discriminate.
              ** unfold s'. cbn [ls_in_flight]. rewrite F1. intros ? ? [].
              ** intros a0 q b X. apply in_app_iff in X. destruct X as [X|[X|[]]]; [eapply SQ; eauto|discriminate].
           ++ rewrite !answers_app, !downs_app, A1, A2, AN, DN. cbn. rewrite Nat.eqb_refl. auto.
    + destruct (v_look _ _ _ V i L ltac:(congruence)) as (hash' & LK' & LS). exists hash'. split; [apply looked_app; auto|].
      eapply lstate_others; eauto.
      * intros s0 X. apply KEYS; auto.
      * intros X. apply in_map_iff in X. destruct X as ([j s0] & EJ & X). cbn in EJ. subst j. apply KEYS in X; [|exact NE]. apply (in_map fst) in X. exact X.
Qed.

Definition quiet (sid : nat) (o : list aobs) : Prop :=
  forall x, In x o -> sid_of x = sid -> match x with OQuery _ _ _ _ | OReply _ _ _ _ | OTimeout _ _ _ => False | _ => True end.
Lemma sinv_quiet h o sid hash s : sinv h sid hash s -> quiet sid o -> sinv (h ++ o) sid hash s.
Proof.
  intros V Q. destruct (s_space _ _ _ _ _ _ _ V) as (rest & E & SP).
  assert (A0 : asked o sid = []). { apply flat_map_none. intros x X. specialize (Q x X). destruct x as [? ?|i ? ? ?|i ? ? [?|?]|? ? ?|? ?|?]; try reflexivity. cbn [sid_of] in Q. destruct (Nat.eqb_spec i sid); [destruct (Q e)|reflexivity]. }
  assert (A1 : told o sid = []). { apply flat_map_none. intros x X. specialize (Q x X). destruct x as [? ?|i ? ? ?|i ? ? [?|?]|? ? ?|? ?|?]; try reflexivity. cbn [sid_of] in Q. destruct (Nat.eqb_spec i sid); [destruct (Q e)|reflexivity]. }
  assert (A2 : given o sid = []). { apply flat_map_none. intros x X. specialize (Q x X). destruct x as [? ?|i ? ? ?|i ? ? [?|?]|? ? ?|? ?|?]; try reflexivity. cbn [sid_of] in Q. destruct (Nat.eqb_spec i sid); [destruct (Q e)|reflexivity]. }
  constructor; try apply V.
  - rewrite given_app, A2, app_nil_r. apply V.
  - exists rest. rewrite asked_app, told_app, A0, A1, !app_nil_r. split; [exact E|]. eapply spinv_ext; [|exact SP].
    intros id. symmetry. unfold Rh. split; intros (n & R & IDN); exists n; (split; [|exact IDN]); [apply (responded_frame h o) in R; [exact R|]|apply responded_frame; [|exact R]]; intros a0 t r X; apply (Q _ X eq_refl).
  - intros a t X. apply awaiting_app; [apply V; exact X| |]; [intros r|]; intros Y; apply (Q _ Y eq_refl).
  - intros a q b X. apply in_app_iff in X. destruct X as [X|X]; [eapply V; eauto|]. destruct (Q _ X eq_refl).
Qed.
Lemma ainv_start : ainv None [] (actor_start my_id v6 boot).
Proof.
  constructor; try reflexivity; cbn [actor_start a_sessions a_next a_running map].
  - constructor.
  - intros o [].
  - intros sid s [].
  - intros sid L. lia.
Qed.
(** A session is replaced, something else is observed of its lookup. *)
Lemma ainv_touch h a sid s hash x : ainv None h a -> In (sid, s) (a_sessions a) -> looked h sid hash -> sid_of x = sid ->
  match x with OReply _ _ _ _ | OTimeout _ _ _ => True | _ => False end ->
  forall a1, a_id a1 = a_id a -> a_v6 a1 = a_v6 a -> a_boot a1 = a_boot a -> a_txn a1 = a_txn a -> a_next a1 = a_next a -> a_senders a1 = a_senders a -> a_running a1 = a_running a ->
  (exists s1, a_sessions a1 = ses_set (a_sessions a) sid s1) -> ainv (Some sid) (h ++ [x]) a1.
Proof.
  intros V IN LK SX NQ a1 E1 E2 E3 E4 E5 E6 E7 (s1 & E8).
  assert (TX : txns (h ++ [x]) = txns h) by (rewrite txns_app; destruct x; try destruct NQ; cbn; apply app_nil_r).
  constructor.
  - rewrite E1. apply V.
  - rewrite E2. apply V.
  - rewrite E3. apply V.
  - rewrite E4, TX. apply V.
  - rewrite TX. apply V.
  - rewrite E8, ses_set_keys. apply V.
  - rewrite E6, E8, ses_set_keys. apply V.
  - rewrite E7, E8. intros R. rewrite (v_off _ _ _ V R). reflexivity.
  - intros o X. rewrite E5. apply in_app_iff in X. destruct X as [X|[<-|[]]]; [apply V; exact X|]. rewrite SX. eapply V; eauto.
  - intros i s0 X. rewrite E5. rewrite E8 in X. apply ses_set_in in X. destruct X as [(-> & _)|(_ & X)]; eapply V; eauto.
  - intros i L NE. rewrite E5 in L. assert (NE' : i <> sid) by congruence. destruct (v_look _ _ _ V i L ltac:(discriminate)) as (hash' & LK' & LS). exists hash'. split.
    + apply looked_app; [exact LK'|]. intros hash'' [X|[]]. subst x. destruct NQ.
    + eapply lstate_others; eauto.
      * intros z [<-|[]]. congruence.
      * intros s0 X. rewrite E8. unfold ses_set. apply in_map_iff. exists (i, s0). cbn [fst]. destruct (Nat.eqb_spec i sid); [contradiction|]. auto.
      * rewrite E8, ses_set_keys. auto.
Qed.
Lemma ainv_session h a sid s : ainv None h a -> In (sid, s) (a_sessions a) ->
  exists hash, looked h sid hash /\ sinv h sid hash s /\ ls_to_query s = [] /\ ls_in_flight s <> [] /\ answers h sid = [] /\ downs h sid = O.
Proof.
  intros V IN. destruct (v_look _ _ _ V sid (v_ses _ _ _ V _ _ IN) ltac:(discriminate)) as (hash & LK & [(s' & A & B)|(N & _)]).
  - exists hash. assert (s' = s); [|subst; auto]. apply ses_get_iff in A; [|apply V]. apply ses_get_iff in IN; [|apply V]. congruence.
  - exfalso. apply N. apply (in_map fst) in IN. exact IN.
Qed.
(** postprocess_session is what remains if there is nothing to send. *)
Lemma postprocess_outgoing a sid s : NoDup (map fst (a_sessions a)) -> ses_get (a_sessions a) sid = Some s -> ls_to_query s = [] ->
  postprocess a sid = send_outgoing a sid s [].
Proof.
  intros ND G Q. unfold send_outgoing, get_outgoing. rewrite Q. cbn [outgoing_go send_all].
  assert (E : mkS (ls_id s) (ls_v6 s) (ls_peers s) (ls_nodes s) [] (ls_in_flight s) = s) by (destruct s; cbn in *; subst; reflexivity).
  rewrite E, ses_set_same by auto.
  assert (EA : mkA (a_id a) (a_v6 a) (a_txn a) (a_sessions a) (a_senders a) (a_next a) (a_timers a) (a_boot a) (a_running a) = a) by (destruct a; reflexivity).
  rewrite EA. destruct (postprocess a sid). reflexivity.
Qed.
Lemma downs_map l sid : NoDup l -> downs (map ODown l) sid = if existsb (Nat.eqb sid) l then 1%nat else O.
Proof.
  unfold downs. induction l as [|x l IH]; intros ND; [reflexivity|]. inversion ND as [|? ? N1 N2]; subst. cbn [map filter existsb]. rewrite Nat.eqb_sym.
  destruct (Nat.eqb_spec sid x) as [->|NE]; cbn [orb]; [|auto]. cbn [length]. rewrite IH by exact N2.
  destruct (existsb (Nat.eqb x) l) eqn:E; [|reflexivity]. apply existsb_exists in E. destruct E as (y & Y & E). apply Nat.eqb_eq in E. subst y. contradiction.
Qed.
Lemma astep_inv h a e a' o : ainv None h a -> wf_ev e -> astep a e = Some (a', o) -> ainv None (h ++ o) a'.
Proof.
  intros V WF E. unfold astep in E. destruct (a_running a) eqn:RUN; [|discriminate]. destruct e as [hash oks| |from msg pick oks|k pick].
  - set (sid := a_next a) in *. set (s := session_new hash (a_id a) (a_v6 a) (a_boot a)) in *.
    match type of E with context [send_outgoing ?z sid s oks] => set (a1 := z) in E end.
    destruct (send_outgoing a1 sid s oks) as [a2 o2] eqn:SO. injection E as <- <-.
    change (h ++ OLookup sid hash :: o2) with (h ++ [OLookup sid hash] ++ o2). rewrite app_assoc.
    assert (FR : forall x, In x h -> sid_of x <> sid) by (intros x X; pose proof (v_sids _ _ _ V x X); unfold sid; lia).
    assert (TX : txns (h ++ [OLookup sid hash]) = txns h) by (rewrite txns_app; cbn; apply app_nil_r).
    assert (NK : ~ In sid (map fst (a_sessions a))). { intros X. apply in_map_iff in X. destruct X as ([i x] & EI & X). cbn in EI. subst i. pose proof (v_ses _ _ _ V _ _ X). unfold sid in *. lia. }
    assert (LT : (sid < a_next a1)%nat) by (unfold a1, sid; cbn [a_next]; lia).
    eapply (finish _ a1 sid hash s oks); try exact SO; auto.
    + constructor; unfold a1; cbn [a_id a_v6 a_txn a_sessions a_senders a_next a_timers a_boot a_running]; rewrite ?TX, ?map_app; try apply V.
      * apply NoDup_app_intro; [apply V|repeat constructor; intros []|]. intros x X [<-|[]]. contradiction.
      * rewrite (v_snd _ _ _ V). reflexivity.
      * try rewrite RUN. discriminate.
      * intros x X. apply in_app_iff in X. destruct X as [X|[<-|[]]]; [|unfold sid; cbn; lia]. pose proof (v_sids _ _ _ V x X). unfold sid. lia.
      * intros i x X. apply in_app_iff in X. destruct X as [X|[X|[]]]; [pose proof (v_ses _ _ _ V _ _ X)|injection X as <- _]; unfold sid; lia.
      * intros i L NE. assert (NE' : i <> sid) by congruence. assert (L' : (i < a_next a)%nat) by (unfold sid in *; lia).
        destruct (v_look _ _ _ V i L' ltac:(discriminate)) as (hash' & LK & LS). exists hash'. split.
        -- apply looked_app; [exact LK|]. intros hash'' [X|[]]. congruence.
        -- eapply lstate_others; eauto.
           ++ intros z [<-|[]]. cbn. congruence.
           ++ intros s0 X. apply in_or_app. auto.
           ++ cbn [a_sessions]. rewrite map_app, in_app_iff. intros [X|[X|[]]]; [exact X|]. cbn in X. congruence.
    + unfold a1. cbn [a_sessions]. rewrite map_app. apply in_or_app. right. left. reflexivity.
    + split; [exact WF|]. intros hash'. rewrite in_app_iff. split; [|intros ->; right; left; reflexivity]. intros [X|[X|[]]]; [exfalso; apply (FR _ X); reflexivity|congruence].
    + unfold s. rewrite (v_id _ _ _ V), (v_v6 _ _ _ V), (v_boot _ _ _ V). apply sinv_quiet; [apply sinv_new; exact FR|]. intros x [<-|[]] _. exact I.
    + rewrite answers_app, (answers_others h sid FR). reflexivity.
    + rewrite downs_app, (downs_others h sid FR). reflexivity.
  - injection E as <- <-.
    assert (TX : txns (h ++ map ODown (a_senders a)) = txns h).
    { rewrite txns_app. assert (N : txns (map ODown (a_senders a)) = []); [|rewrite N; apply app_nil_r]. apply flat_map_none. intros x X. apply in_map_iff in X. destruct X as (i & <- & _). reflexivity. }
    assert (AD : forall sid, answers (map ODown (a_senders a)) sid = []). { intros sid. apply flat_map_none. intros x X. apply in_map_iff in X. destruct X as (i & <- & _). reflexivity. }
    constructor; cbn [a_id a_v6 a_txn a_sessions a_senders a_next a_timers a_boot a_running map]; rewrite ?TX; try apply V.
    + constructor.
    + reflexivity.
    + reflexivity.
    + intros x X. apply in_app_iff in X. destruct X as [X|X]; [apply V; exact X|]. apply in_map_iff in X. destruct X as (i & <- & X). cbn [sid_of]. rewrite (v_snd _ _ _ V) in X. apply in_map_iff in X. destruct X as ([j s] & <- & X). eapply V; eauto.
    + intros i x [].
    + intros sid L _. destruct (v_look _ _ _ V sid L ltac:(discriminate)) as (hash & LK & LS). exists hash. split.
      { apply looked_app; [exact LK|]. intros hash' X. apply in_map_iff in X. destruct X as (i & X & _). discriminate. }
      right. split; [intros []|]. rewrite answers_app, AD, app_nil_r, downs_app, downs_map by (rewrite (v_snd _ _ _ V); apply V).
      assert (QT : quiet sid (map ODown (a_senders a))). { intros x X _. apply in_map_iff in X. destruct X as (i & <- & _). exact I. }
      destruct LS as [(s & IN & SI & Q & FL & AN & DN)|(NI & s & SI & Q & AN)].
      * exists s. split; [apply sinv_quiet; auto|]. split; [exact Q|]. right. cbn [a_running]. split; [reflexivity|]. split; [exact AN|]. rewrite DN.
        assert (EX : existsb (Nat.eqb sid) (a_senders a) = true); [|rewrite EX; reflexivity]. apply existsb_exists. exists sid. split; [|apply Nat.eqb_refl]. rewrite (v_snd _ _ _ V). apply (in_map fst) in IN. exact IN.
      * exists s. split; [apply sinv_quiet; auto|]. split; [exact Q|].
        assert (EX : existsb (Nat.eqb sid) (a_senders a) = false).
        { destruct (existsb (Nat.eqb sid) (a_senders a)) eqn:X; [|reflexivity]. apply existsb_exists in X. destruct X as (y & Y & EY). apply Nat.eqb_eq in EY. subst y. rewrite (v_snd _ _ _ V) in Y. contradiction. }
        rewrite EX, Nat.add_0_r. destruct AN as [AN|AN]; [left; exact AN|right]. destruct AN as (R & _). congruence.
  - assert (NIL : Some (a, []) = Some (a', o) -> ainv None (h ++ o) a') by (intros [= <- <-]; rewrite app_nil_r; exact V).
    destruct (prescan msg) as [[txn ty]|]; [|destruct pick; [discriminate|auto]]. 
    assert (E' : match pick with
      | Some sid => match ses_get (a_sessions a) sid with
        | Some s => match session_message s from txn msg with
          | Some (s1, r) => let (a2, o) := send_outgoing (with_sessions a (ses_set (a_sessions a) sid s1)) sid s1 oks in Some (a2, OReply sid from txn r :: o)
          | None => None end
        | None => None end
      | None => Some (a, []) end = Some (a', o)).
    { destruct ty, pick; try discriminate; auto; destruct (existsb _ _); [discriminate|auto|discriminate|auto]. }
    clear E. destruct pick as [sid|]; [|auto]. destruct (ses_get (a_sessions a) sid) as [s|] eqn:G; [|discriminate].
    destruct (session_message s from txn msg) as [[s1 r]|] eqn:SM; [|discriminate].
    destruct (send_outgoing _ sid s1 oks) as [a2 o2] eqn:SO. injection E' as <- <-.
    apply ses_get_in in G. destruct (ainv_session _ _ _ _ V G) as (hash & LK & SI & Q & FL & AN & DN).
    change (h ++ OReply sid from txn r :: o2) with (h ++ [OReply sid from txn r] ++ o2). rewrite app_assoc.
    eapply (finish _ (with_sessions a (ses_set (a_sessions a) sid s1)) sid hash s1 oks); try exact SO; auto.
    + eapply ainv_touch; eauto; cbn; auto; eauto.
    + eapply V; eauto.
    + cbn [with_sessions a_sessions]. rewrite ses_set_keys. apply (in_map fst) in G. exact G.
    + apply looked_app; [exact LK|]. intros hash' [X|[]]. discriminate.
    + eapply sinv_reply; eauto.
    + rewrite answers_app, AN. reflexivity.
    + rewrite downs_app, DN. reflexivity.
  - destruct (key_mem k (a_timers a)) eqn:KM; [|discriminate].
    set (a1 := mkA (a_id a) (a_v6 a) (a_txn a) (a_sessions a) (a_senders a) (a_next a) (key_remove k (a_timers a)) (a_boot a) true) in E.
    destruct pick as [sid|].
    2:{ destruct (existsb _ _); [discriminate|]. injection E as <- <-. rewrite app_nil_r. destruct V. constructor; auto; [discriminate|].
        intros sid L NE. destruct (v_look0 sid L NE) as (hash & LK & LS). exists hash. split; [exact LK|]. unfold lstate in *. rewrite RUN in LS. exact LS. }
    destruct (ses_get (a_sessions a) sid) as [s|] eqn:G; [|discriminate]. destruct (session_timeout s k) as [s1|] eqn:ST; [|discriminate].
    apply ses_get_in in G as IN. destruct (ainv_session _ _ _ _ V IN) as (hash & LK & SI & Q & FL & AN & DN).
    set (a2 := with_sessions a1 (ses_set (a_sessions a) sid s1)) in E.
    assert (Q1 : ls_to_query s1 = []). { unfold session_timeout in ST. destruct (key_mem k (ls_in_flight s)); [|discriminate]. injection ST as <-. exact Q. }
    rewrite (postprocess_outgoing a2 sid s1) in E; [|unfold a2; cbn [with_sessions a_sessions]; rewrite ses_set_keys; apply V|unfold a2; cbn [with_sessions a_sessions]; eapply ses_set_get; eauto|exact Q1].
    destruct (send_outgoing a2 sid s1 []) as [a3 o3] eqn:SO. injection E as <- <-.
    change (h ++ OTimeout sid (fst k) (snd k) :: o3) with (h ++ [OTimeout sid (fst k) (snd k)] ++ o3). rewrite app_assoc.
    eapply (finish _ a2 sid hash s1 []); try exact SO; auto.
    + eapply ainv_touch; eauto; cbn; auto. exists s1. reflexivity.
    + unfold a2, a1. cbn [with_sessions a_next]. eapply V; eauto.
    + unfold a2. cbn [with_sessions a_sessions]. rewrite ses_set_keys. apply (in_map fst) in IN. exact IN.
    + apply looked_app; [exact LK|]. intros hash' [X|[]]. discriminate.
    + eapply sinv_timeout; eauto.
    + rewrite answers_app, AN. reflexivity.
    + rewrite downs_app, DN. reflexivity.
Qed.
Lemma arun_inv l : forall h a a' o, ainv None h a -> Forall wf_ev l -> arun a l = Some (a', o) -> ainv None (h ++ o) a'.
Proof.
  induction l as [|e l IH]; intros h a a' o V WF E; cbn [arun] in E.
  - injection E as <- <-. rewrite app_nil_r. exact V.
  - inversion WF as [|? ? W1 W2]; subst. destruct (astep a e) as [[a1 o1]|] eqn:S; [|discriminate]. destruct (arun a1 l) as [[a2 o2]|] eqn:R; [|discriminate]. injection E as <- <-.
    rewrite app_assoc. eapply IH; eauto. eapply astep_inv; eauto.
Qed.
Lemma history_inv a h : history my_id v6 boot a h -> ainv None h a.
Proof. intros (l & WF & R). apply (arun_inv l [] _ _ _ ainv_start WF R). Qed.
End D.
