From Verif Require Import Base BaseFacts M_Net M_Tracker M_DhtMsg P_DhtMsg M_Dht S_Async S_Dht P_Nursery P_Dht P_Dht2.
From Coq Require Import Permutation Sorted.

Definition Rh (h : list aobs) (sid : nat) (id : bytes) : Prop := exists n, responded h sid n /\ nd_id n = id.
Definition good_query (my_id hash : bytes) (v6 : bool) (q : get_peers_query) : Prop :=
  q = mkGPQ (gq_txn q) (Some gen_client) my_id hash (Some true) (if v6 then Some [N4; N6] else None).
Definition result_of (s : session) : found_peers := mkFound (ls_peers s) (map node_address (closest_responsive CLOSEST (ls_nodes s))).

Section D.
Context (my_id : bytes) (v6 : bool) (boot : list sockaddr).

Record sinv (h : list aobs) (sid : nat) (hash : bytes) (s : session) : Prop := {
  s_id : ls_id s = my_id;
  s_v6 : ls_v6 s = v6;
  s_peers : NoDup (ls_peers s) /\ forall p, In p (ls_peers s) <-> In p (given h sid);
  s_space : exists rest, asked h sid ++ ls_to_query s = boot ++ rest /\ spinv hash (told h sid) (Rh h sid) rest (ls_nodes s);
  s_fl : forall a t, In (a, t) (ls_in_flight s) -> awaiting h sid a t;
  s_query : forall a q b, In (OQuery sid a q b) h -> good_query my_id hash v6 q }.

Lemma sinv_new h sid hash : (forall o, In o h -> sid_of o <> sid) -> sinv h sid hash (session_new hash my_id v6 boot).
Proof.
  intros O. assert (O' : others sid h) by exact O. constructor; cbn [session_new ls_id ls_v6 ls_peers ls_to_query ls_nodes ls_in_flight]; auto.
  - rewrite (given_others _ _ O'). split; [constructor|reflexivity].
  - exists []. rewrite (asked_others _ _ O'), (told_others _ _ O'), app_nil_r. split; [reflexivity|]. constructor; cbn [space_new sp_hash sp_nodes sp_addr flat map concat].
    + reflexivity.
    + split; constructor.
    + exists []. split; [constructor|]. split; [constructor|]. intros a n. unfold addr_get. cbn. split; [discriminate|tauto].
    + intros i [].
    + intros a [].
    + constructor.
    + intros i [].
    + intros id (n & (h1 & t & r & h2 & ns & E & _) & _). exfalso. apply (O (OReply sid (node_address n) t (Ok r))); [|reflexivity]. rewrite E. apply in_or_app. right. left. reflexivity.
  - intros a t [].
  - intros a q b X. exfalso. apply (O _ X). reflexivity.
Qed.
Lemma awaiting_app h o sid a t : awaiting h sid a t -> (forall r, ~ In (OReply sid a t r) o) -> ~ In (OTimeout sid a t) o -> awaiting (h ++ o) sid a t.
Proof.
  intros (h1 & q & h2 & -> & E & A & B) C D. exists h1, q, (h2 ++ o). rewrite <- app_assoc. split; [reflexivity|]. split; [exact E|]. split.
  - intros r X. apply in_app_iff in X. destruct X as [X|X]; [apply (A _ X)|apply (C _ X)].
  - intros X. apply in_app_iff in X. destruct X as [X|X]; auto.
Qed.
Lemma sinv_others h o sid hash s : sinv h sid hash s -> others sid o -> sinv (h ++ o) sid hash s.
Proof.
  intros V O. assert (NR : forall x, In x o -> sid_of x = sid -> False) by (intros x X E; apply (O x X E)).
  destruct (s_space _ _ _ _ V) as (rest & E & SP). constructor; try apply V.
  - rewrite given_app, (given_others _ _ O), app_nil_r. apply V.
  - exists rest. rewrite asked_app, told_app, (asked_others _ _ O), (told_others _ _ O), !app_nil_r. split; [exact E|].
    eapply spinv_ext; [|exact SP]. intros id. split; intros (n & R & I); exists n; split; auto; (apply responded_frame in R || apply responded_frame); auto; intros a t r X; eapply NR; eauto.
  - intros a t X. apply awaiting_app; [apply V; exact X| |].
    + intros r Y. eapply NR; eauto.
    + intros Y. eapply NR; eauto.
  - intros a q b X. apply in_app_iff in X. destruct X as [X|X]; [eapply V; eauto|]. exfalso. eapply NR; eauto.
Qed.
Lemma sinv_timeout h sid hash s k s1 : sinv h sid hash s -> session_timeout s k = Some s1 -> sinv (h ++ [OTimeout sid (fst k) (snd k)]) sid hash s1.
Proof.
  intros V E. unfold session_timeout in E. destruct (key_mem k (ls_in_flight s)); [|discriminate]. injection E as <-.
  destruct (s_space _ _ _ _ V) as (rest & E & SP). constructor; cbn [with_flight ls_id ls_v6 ls_peers ls_to_query ls_nodes ls_in_flight]; try apply V.
  - rewrite given_app. cbn. rewrite app_nil_r. apply V.
  - exists rest. rewrite asked_app, told_app. cbn. rewrite !app_nil_r. split; [exact E|].
    eapply spinv_ext; [|exact SP]. intros id. split; intros (n & R & I); exists n; split; auto; (apply responded_frame in R || apply responded_frame); auto; intros a t r [X|[]]; discriminate.
  - intros a t X. apply key_remove_in in X. destruct X as (X & NE). apply awaiting_app; [apply V; exact X| |].
    + intros r [Y|[]]. discriminate.
    + intros [Y|[]]. apply NE. destruct k. cbn [fst snd] in Y. congruence.
  - intros a q b X. apply in_app_iff in X. destruct X as [X|[X|[]]]; [eapply V; eauto|discriminate].
Qed.
Lemma message_shape s from txn msg s1 r : session_message s from txn msg = Some (s1, r) ->
  In (from, txn) (ls_in_flight s) /\ r = decode_response msg /\ ls_id s1 = ls_id s /\ ls_v6 s1 = ls_v6 s /\ ls_in_flight s1 = key_remove (from, txn) (ls_in_flight s) /\
  match r with
  | Err _ => ls_peers s1 = ls_peers s /\ ls_nodes s1 = ls_nodes s /\ ls_to_query s1 = ls_to_query s
  | Ok rsp =>
      ls_peers s1 = peers_extend (ls_peers s) (gr_values rsp) /\
      exists ns, closest_unqueried CLOSEST
        (let sp1 := fold_left space_add (gr_nodes rsp ++ gr_nodes6 rsp) (ls_nodes s) in
         match addr_get (sp_addr (ls_nodes s)) from with Some n => mark_responsive (nd_id n) sp1 | None => sp1 end) = (ns, ls_nodes s1) /\
        ls_to_query s1 = ls_to_query s ++ map node_address ns
  end.
Proof.
  unfold session_message. destruct (key_mem (from, txn) (ls_in_flight s)) eqn:K; [|discriminate]. apply key_mem_in in K.
  destruct (decode_response msg) as [rsp|e] eqn:D.
  - cbv zeta. destruct (closest_unqueried _ _) as [ns sp3] eqn:C. intros [= <- <-]. cbn [ls_id ls_v6 ls_in_flight ls_peers ls_nodes ls_to_query]. conjs; auto. exists ns. auto.
  - intros [= <- <-]. cbn [ls_id ls_v6 ls_in_flight ls_peers ls_nodes ls_to_query]. conjs; auto.
Qed.
(** The node space just before the closest nodes are picked. *)
Lemma reply_space h sid hash rest s from txn rsp : spinv hash (told h sid) (Rh h sid) rest (ls_nodes s) ->
  spinv hash (told (h ++ [OReply sid from txn (Ok rsp)]) sid) (Rh (h ++ [OReply sid from txn (Ok rsp)]) sid) rest
    (let sp1 := fold_left space_add (gr_nodes rsp ++ gr_nodes6 rsp) (ls_nodes s) in
     match addr_get (sp_addr (ls_nodes s)) from with Some n => mark_responsive (nd_id n) sp1 | None => sp1 end).
Proof.
  intros SP. cbv zeta. rewrite told_app. assert (T : told [OReply sid from txn (Ok rsp)] sid = gr_nodes rsp ++ gr_nodes6 rsp).
  { cbn. rewrite Nat.eqb_refl. apply app_nil_r. }
  rewrite T. destruct (p_known _ _ _ _ _ SP) as (ns & F & P & AG).
  assert (V1 := spinv_adds _ _ _ (gr_nodes rsp ++ gr_nodes6 rsp) _ _ SP).
  assert (RS : forall id, Rh (h ++ [OReply sid from txn (Ok rsp)]) sid id <-> Rh h sid id \/ exists n, In n ns /\ node_address n = from /\ nd_id n = id).
  { intros id. unfold Rh. split.
    - intros (n & R & E). apply responded_snoc in R. destruct R as [R|(t & r & ns' & E1 & K & IN)]; [eauto|]. right. exists n. rewrite (firsts_fun _ _ _ F _ K). injection E1 as <- _ _. auto.
    - intros [(n & R & E)|(n & IN & <- & E)]; exists n; split; auto; apply responded_snoc; [auto|]. right. exists txn, rsp, ns. auto. }
  destruct (addr_get (sp_addr (ls_nodes s)) from) as [n|] eqn:G.
  - apply AG in G. destruct G as (IN & E). destruct (p_known _ _ _ _ _ V1) as (ns1 & F1 & _).
    assert (IN1 : In n ns1).
    { revert F1. clear - F IN. generalize (gr_nodes rsp ++ gr_nodes6 rsp). intros l. revert ns1. induction l as [|x l IH] using rev_ind; intros ns1 F1.
      - rewrite app_nil_r in F1. rewrite <- (firsts_fun _ _ _ F _ F1). exact IN.
      - rewrite app_assoc in F1. inversion F1 as [A B|l' o' x' F' IN' A B|l' o' x' F' IN' A B].
        + apply (f_equal (@length _)) in A. rewrite app_length in A. cbn in A. lia.
        + apply app_inj_tail in A. destruct A as (-> & ->). apply IH. congruence.
        + apply app_inj_tail in A. destruct A as (-> & ->). apply in_or_app. left. apply IH. exact F'. }
    eapply spinv_ext; [|eapply spinv_mark; eauto]. intros id. rewrite RS. split; intros [X|X]; auto.
    + right. exists n. auto.
    + right. destruct X as (n' & IN' & E' & <-). assert (n' = n); [|subst; auto].
      assert (A1 := proj2 (AG _ _) (conj IN E)). assert (A2 := proj2 (AG _ _) (conj IN' E')). congruence.
  - eapply spinv_ext; [|exact V1]. intros id. rewrite RS. split; [auto|]. intros [X|(n & IN & E & _)]; [exact X|].
    rewrite (proj2 (AG from n)) in G by auto. discriminate.
Qed.
Lemma sinv_reply h sid hash s from txn msg s1 r : sinv h sid hash s -> session_message s from txn msg = Some (s1, r) ->
  sinv (h ++ [OReply sid from txn r]) sid hash s1.
Proof.
  intros V M. apply message_shape in M. destruct M as (K & D & EI & E6 & EF & M). destruct (s_space _ _ _ _ V) as (rest & E & SP).
  assert (FL : forall a t, In (a, t) (ls_in_flight s1) -> awaiting (h ++ [OReply sid from txn r]) sid a t).
  { intros a t X. rewrite EF in X. apply key_remove_in in X. destruct X as (X & NE). apply awaiting_app; [apply V; exact X| |].
    - intros r' [Y|[]]. congruence.
    - intros [Y|[]]. discriminate. }
  assert (QS : forall a q b, In (OQuery sid a q b) (h ++ [OReply sid from txn r]) -> good_query my_id hash v6 q).
  { intros a q b X. apply in_app_iff in X. destruct X as [X|[X|[]]]; [eapply V; eauto|discriminate]. }
  assert (AS : asked (h ++ [OReply sid from txn r]) sid = asked h sid) by (rewrite asked_app; cbn; apply app_nil_r).
  destruct r as [rsp|e].
  - destruct M as (EP & ns & EC & EQ). constructor; try assumption; rewrite ?EI, ?E6; try apply V.
    + rewrite EP, given_app. cbn. rewrite Nat.eqb_refl, app_nil_r. destruct (s_peers _ _ _ _ V) as (P1 & P2).
      destruct (peers_extend_spec (gr_values rsp) _ P1) as (A & B). split; [exact A|]. intros p. rewrite B, P2, in_app_iff. reflexivity.
    + exists (rest ++ map node_address ns). rewrite AS, EQ, app_assoc, E, <- app_assoc. split; [reflexivity|].
      apply (reply_space _ _ _ _ _ from txn rsp) in SP. apply (spinv_query _ _ _ _ _ _ _ _ SP EC).
  - destruct M as (EP & EN & EQ). constructor; try assumption; rewrite ?EI, ?E6, ?EP, ?EN, ?EQ; try apply V.
    + rewrite given_app. cbn. rewrite app_nil_r. apply V.
    + exists rest. rewrite AS, told_app. cbn. rewrite app_nil_r. split; [exact E|]. eapply spinv_ext; [|exact SP].
      intros id. split; intros (n & R & I); exists n; split; auto; (apply responded_frame in R || apply responded_frame); auto; intros a t r [X|[]]; discriminate.
Qed.

(** *** Sending *)
Definition qobs (sid : nat) (qs : list (sockaddr * get_peers_query)) (bl : list bool) : list aobs :=
  map (fun p => OQuery sid (fst (fst p)) (snd (fst p)) (snd p)) (combine qs bl).
Definition qkey (p : sockaddr * get_peers_query) : query_key := (fst p, gq_txn (snd p)).
Lemma outgoing_spec s addrs : forall t fl, t < 2 ^ 32 -> let '(fl', t', qs) := outgoing_go s addrs t fl in
  map fst qs = addrs /\ (forall p, In p qs -> good_query (ls_id s) (sp_hash (ls_nodes s)) (ls_v6 s) (snd p)) /\
  (forall k, In k fl' <-> In k fl \/ In k (map qkey qs)) /\
  map (fun p => gq_txn (snd p)) qs = map (fun i => txn_bytes ((t + N.of_nat i) mod 2 ^ 32)) (seq 0 (length addrs)) /\
  t' = (t + N.of_nat (length addrs)) mod 2 ^ 32.
Proof.
  induction addrs as [|a addrs IH]; intros t fl L; cbn [outgoing_go].
  - conjs; auto; [intros p []|cbn; tauto|]. cbn [length]. change (N.of_nat 0) with 0. rewrite N.add_0_r. symmetry. apply N.mod_small. exact L.
  - assert (L' : txn_next t < 2 ^ 32) by (apply N.mod_lt; discriminate). specialize (IH (txn_next t) (key_insert (a, txn_bytes t) fl) L').
    destruct (outgoing_go s addrs (txn_next t) (key_insert (a, txn_bytes t) fl)) as [[fl' t'] qs]. destruct IH as (A & B & C & D & E).
    assert (SUM : forall i, (txn_next t + N.of_nat i) mod 2 ^ 32 = (t + N.of_nat (S i)) mod 2 ^ 32).
    { intros i. unfold txn_next. rewrite N.add_mod_idemp_l by discriminate. f_equal. lia. }
    conjs.
    + cbn [map fst]. rewrite A. reflexivity.
    + intros p [<-|P]; [|auto]. reflexivity.
    + intros k. rewrite C, key_insert_in. cbn [map]. unfold qkey at 2. cbn [fst snd query_for gq_txn In]. intuition.
    + cbn [map length seq]. rewrite D. cbn [snd query_for gq_txn]. f_equal; [f_equal; change (N.of_nat 0) with 0; rewrite N.add_0_r; symmetry; apply N.mod_small; exact L|].
      rewrite <- seq_shift, map_map. apply map_ext. intros i. f_equal. apply SUM.
    + rewrite E. apply SUM.
Qed.
Lemma ses_get_in m sid s : ses_get m sid = Some s -> In (sid, s) m.
Proof.
  unfold ses_get. destruct (find _ m) as [[i x]|] eqn:E; [|discriminate]. cbn. intros [= ->]. apply find_some in E. destruct E as (E & F). apply Nat.eqb_eq in F. cbn in F. subst. exact E.
Qed.
Lemma ses_get_iff m sid s : NoDup (map fst m) -> (ses_get m sid = Some s <-> In (sid, s) m).
Proof.
  intros ND. split; [apply ses_get_in|]. intros X. unfold ses_get. induction m as [|[i y] m IH]; [destruct X|]. cbn [find fst].
  cbn [map fst] in ND. inversion ND as [|? ? N1 N2]; subst. destruct X as [X|X].
  - injection X as -> ->. rewrite Nat.eqb_refl. reflexivity.
  - destruct (Nat.eqb_spec i sid) as [->|NE]; [|auto]. exfalso. apply N1. apply (in_map fst) in X. exact X.
Qed.
Lemma ses_set_get m sid s x : ses_get m sid = Some x -> ses_get (ses_set m sid s) sid = Some s.
Proof.
  unfold ses_get, ses_set. induction m as [|[i y] m IH]; [discriminate|]. cbn [map fst find]. destruct (Nat.eqb i sid) eqn:E; cbn [fst find]; rewrite E; [reflexivity|exact IH].
Qed.
Lemma ses_set_set m sid s s' : ses_set (ses_set m sid s) sid s' = ses_set m sid s'.
Proof. unfold ses_set. rewrite map_map. apply map_ext. intros [i y]. cbn [fst]. destruct (Nat.eqb i sid) eqn:E; cbn [fst]; rewrite E; reflexivity. Qed.
Lemma ses_del_set m sid s : ses_del (ses_set m sid s) sid = ses_del m sid.
Proof. unfold ses_set, ses_del. induction m as [|[i y] m IH]; [reflexivity|]. cbn [map filter fst]. destruct (Nat.eqb i sid) eqn:E; cbn [fst filter]; rewrite E; cbn [negb]; [exact IH|f_equal; exact IH]. Qed.
Lemma ses_set_keys m sid s : map fst (ses_set m sid s) = map fst m.
Proof. unfold ses_set. rewrite map_map. apply map_ext. intros [i y]. cbn [fst]. destruct (Nat.eqb i sid); reflexivity. Qed.
Lemma ses_set_in m sid s i x : In (i, x) (ses_set m sid s) -> (i = sid /\ x = s) \/ (i <> sid /\ In (i, x) m).
Proof.
  unfold ses_set. intros X. apply in_map_iff in X. destruct X as ([j y] & E & X). cbn [fst] in E. destruct (Nat.eqb_spec j sid); injection E as <- <-; auto.
Qed.
Lemma ses_del_in m sid i x : In (i, x) (ses_del m sid) <-> In (i, x) m /\ i <> sid.
Proof. unfold ses_del. rewrite filter_In. cbn [fst]. rewrite negb_true_iff, Nat.eqb_neq. reflexivity. Qed.

Lemma ses_set_same m sid s : NoDup (map fst m) -> ses_get m sid = Some s -> ses_set m sid s = m.
Proof.
  intros ND G. apply ses_get_in in G. unfold ses_set. transitivity (map (fun e : nat * session => e) m); [|apply map_id]. apply map_ext_in. intros [i x] X. cbn [fst].
  destruct (Nat.eqb_spec i sid) as [->|NE]; [|reflexivity]. f_equal. apply ses_get_iff in G; [|exact ND]. apply ses_get_iff in X; [|exact ND]. congruence.
Qed.
Lemma with_flight_same s : with_flight s (ls_in_flight s) = s.
Proof. destruct s. reflexivity. Qed.
Lemma send_all_spec sid qs : forall a oks s, NoDup (map fst (a_sessions a)) -> ses_get (a_sessions a) sid = Some s ->
  let (a', os) := send_all a sid qs oks in
  exists fl' bl, length bl = length qs /\ os = qobs sid qs bl /\
    a_sessions a' = ses_set (a_sessions a) sid (with_flight s fl') /\
    (forall k, In k fl' <-> In k (ls_in_flight s) /\ ~ (exists p, In (p, false) (combine qs bl) /\ qkey p = k)) /\
    (forall k, In k (a_timers a') <-> In k (a_timers a) \/ exists p, In (p, true) (combine qs bl) /\ qkey p = k) /\
    a_id a' = a_id a /\ a_v6 a' = a_v6 a /\ a_txn a' = a_txn a /\ a_senders a' = a_senders a /\ a_next a' = a_next a /\ a_boot a' = a_boot a /\ a_running a' = a_running a.
Proof.
  induction qs as [|[addr q] qs IH]; intros a oks s ND G; cbn [send_all].
  - exists (ls_in_flight s), []. cbn [combine]. conjs; auto.
    + rewrite with_flight_same, ses_set_same; auto.
    + intros k. split; [|tauto]. intros X. split; [exact X|]. intros (p & [] & _).
    + intros k. split; [auto|]. intros [X|(p & [] & _)]. exact X.
  - destruct (send_query a sid addr q _) as [a1 o] eqn:SQ. unfold send_query in SQ. rewrite G in SQ.
    match type of SQ with context [if ?b then _ else _] => set (ok := b) in SQ end. destruct ok eqn:OK; injection SQ as <- <-.
    + match goal with |- context [send_all ?x sid qs _] => set (a1 := x) end. specialize (IH a1 (tl oks) s ND G).
      destruct (send_all a1 sid qs (tl oks)) as [a2 os]. destruct IH as (fl' & bl & L & EO & ES & F & T & R). exists fl', (true :: bl). cbn [length combine]. conjs; try apply R; try assumption.
      * congruence.
      * rewrite EO. unfold qobs. cbn [combine map fst snd]. reflexivity.
      * intros k. rewrite F. split; intros (A & B); (split; [exact A|]); intros (p & P & E).
        -- destruct P as [P|P]; [discriminate|]. apply B. eauto.
        -- apply B. exists p. split; [right; exact P|exact E].
      * intros k. rewrite T. unfold a1. cbn [a_timers]. rewrite key_insert_in. split.
        -- intros [[A|A]|(p & P & E)]; auto; right; [exists (addr, q); split; [left; reflexivity|symmetry; exact A]|exists p; split; [right; exact P|exact E]].
        -- intros [A|(p & [P|P] & E)]; auto; [left; right; injection P as <-; symmetry; exact E|right; eauto].
    + match goal with |- context [send_all ?x sid qs _] => set (a1 := x) end.
      assert (ND1 : NoDup (map fst (a_sessions a1))) by (unfold a1; cbn [with_sessions a_sessions]; rewrite ses_set_keys; exact ND).
      assert (G1 : ses_get (a_sessions a1) sid = Some (session_send_failure s (addr, gq_txn q))) by (unfold a1; cbn [with_sessions a_sessions]; eapply ses_set_get; eauto).
      specialize (IH a1 (tl oks) _ ND1 G1).
      destruct (send_all a1 sid qs (tl oks)) as [a2 os]. destruct IH as (fl' & bl & L & EO & ES & F & T & R). exists fl', (false :: bl). cbn [length combine]. conjs; try apply R; try assumption.
      * congruence.
      * rewrite EO. unfold qobs. cbn [combine map fst snd]. reflexivity.
      * rewrite ES. unfold a1. cbn [with_sessions a_sessions]. apply ses_set_set.
      * intros k. rewrite F. unfold session_send_failure, with_flight at 1. cbn [ls_in_flight]. rewrite key_remove_in. split.
        -- intros ((A & NE) & B). split; [exact A|]. intros (p & [P|P] & E); [injection P as <-; apply NE; symmetry; exact E|apply B; eauto].
        -- intros (A & B). split; [split; [exact A|intros ->; apply B; exists (addr, q); split; [left|]; reflexivity]|]. intros (p & P & E). apply B. exists p. split; [right; exact P|exact E].
      * intros k. rewrite T. unfold a1. cbn [with_sessions a_timers]. split.
        -- intros [A|(p & P & E)]; auto; right. exists p. split; [right; exact P|exact E].
        -- intros [A|(p & [P|P] & E)]; auto; [discriminate|right; eauto].
Qed.
Lemma qobs_asked sid qs bl : length bl = length qs -> asked (qobs sid qs bl) sid = map fst qs.
Proof.
  revert bl. induction qs as [|[a q] qs IH]; intros [|b bl] L; try discriminate; [reflexivity|]. unfold qobs, asked in *. cbn [combine map flat_map fst snd]. rewrite Nat.eqb_refl. cbn [app]. f_equal. apply IH. cbn in L. lia.
Qed.
Lemma qobs_txns sid qs bl : length bl = length qs -> txns (qobs sid qs bl) = map (fun p => gq_txn (snd p)) qs.
Proof.
  revert bl. induction qs as [|[a q] qs IH]; intros [|b bl] L; try discriminate; [reflexivity|]. unfold qobs, txns in *. cbn [combine map flat_map fst snd app]. f_equal. apply IH. cbn in L. lia.
Qed.
Lemma qobs_in sid qs bl o : In o (qobs sid qs bl) <-> exists p b, In (p, b) (combine qs bl) /\ o = OQuery sid (fst p) (snd p) b.
Proof.
  unfold qobs. rewrite in_map_iff. split.
  - intros ([p b] & <- & X). exists p, b. auto.
  - intros (p & b & X & ->). exists (p, b). auto.
Qed.
Lemma qobs_told sid qs bl i : told (qobs sid qs bl) i = [] /\ given (qobs sid qs bl) i = [] /\ answers (qobs sid qs bl) i = [] /\ downs (qobs sid qs bl) i = O.
Proof.
  conjs; try (apply flat_map_none; intros x X; apply qobs_in in X; destruct X as (p & b & _ & ->); reflexivity).
  unfold downs. assert (E : filter (fun o => match o with ODown i0 => (i0 =? i)%nat | _ => false end) (qobs sid qs bl) = []); [|rewrite E; reflexivity].
  unfold qobs. induction (combine qs bl) as [|x l IH]; [reflexivity|]. cbn [map filter]. exact IH.
Qed.
(** The queries go out. *)
Lemma sinv_queries h sid hash s qs bl fl' : sinv h sid hash s -> length bl = length qs -> map fst qs = ls_to_query s ->
  (forall p, In p qs -> good_query my_id hash v6 (snd p)) ->
  (forall k, In k fl' -> (In k (ls_in_flight s) \/ In k (map qkey qs)) /\ ~ (exists p, In (p, false) (combine qs bl) /\ qkey p = k)) ->
  sinv (h ++ qobs sid qs bl) sid hash (mkS (ls_id s) (ls_v6 s) (ls_peers s) (ls_nodes s) [] fl').
Proof.
  intros V L EA GQ FL. destruct (s_space _ _ _ _ V) as (rest & E & SP). destruct (qobs_told sid qs bl sid) as (ET & EG & _).
  constructor; cbn [ls_id ls_v6 ls_peers ls_to_query ls_nodes ls_in_flight]; try apply V.
  - rewrite given_app, EG, app_nil_r. apply V.
  - exists rest. rewrite asked_app, told_app, ET, app_nil_r, qobs_asked, EA, app_nil_r by exact L. split; [exact E|].
    eapply spinv_ext; [|exact SP]. intros id. split; intros (n & R & I); exists n; split; auto; (apply responded_frame in R || apply responded_frame); auto; intros a t r X; apply qobs_in in X; destruct X as (? & ? & _ & X); discriminate.
  - intros a t X. apply FL in X. destruct X as ([X|X] & NF).
    + apply awaiting_app; [apply V; exact X| |]; [intros r|]; intros Y; apply qobs_in in Y; destruct Y as (? & ? & _ & Y); discriminate.
    + apply in_map_iff in X. destruct X as (p & EP & X).
      assert (B : exists b, In (p, b) (combine qs bl)).
      { clear - L X. revert bl L. induction qs as [|y qs IH]; intros [|b bl] L; try discriminate; [destruct X|]. cbn [combine]. destruct X as [->|X].
        - exists b. left. reflexivity.
        - cbn in L. destruct (IH X bl) as (b' & B); [lia|]. exists b'. right. exact B. }
      destruct B as ([|] & B); [|exfalso; apply NF; eauto].
      assert (IN : In (OQuery sid (fst p) (snd p) true) (qobs sid qs bl)) by (apply qobs_in; eauto).
      apply in_split in IN. destruct IN as (q1 & q2 & EQ). exists (h ++ q1), (snd p), q2. rewrite <- app_assoc, EQ. unfold qkey in EP. injection EP as <- <-. conjs; auto.
      * intros r Y. assert (Y' : In (OReply sid (fst p) (gq_txn (snd p)) r) (qobs sid qs bl)) by (rewrite EQ; apply in_or_app; right; right; exact Y).
        apply qobs_in in Y'. destruct Y' as (? & ? & _ & Y'). discriminate.
      * intros Y. assert (Y' : In (OTimeout sid (fst p) (gq_txn (snd p))) (qobs sid qs bl)) by (rewrite EQ; apply in_or_app; right; right; exact Y).
        apply qobs_in in Y'. destruct Y' as (? & ? & _ & Y'). discriminate.
  - intros a q b X. apply in_app_iff in X. destruct X as [X|X]; [eapply V; eauto|]. apply qobs_in in X. destruct X as (p & b' & X & Y). injection Y as -> -> ->.
    apply GQ. apply in_combine_l in X. exact X.
Qed.
End D.
