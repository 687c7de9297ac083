From Coq Require Import Sorted.
From Verif Require Import Base BaseFacts M_Net M_Sha1 M_Types M_Utf8 M_Tracker M_Torrent M_Template S_Template M_Save M_Magnet M_Config M_Http M_Session M_DhtMsg M_Dht S_Dht M_App S_App P_App P_App2 P_App5 P_App7 P_App8
  M_Mse M_Nursery S_Nursery M_Resolve S_Resolve S_Quiet M_Get S_Get P_Get P_Get2 M_GetDht S_GetDht S_Bencode S_Download S_TorrentFile P_GetDht.
Local Open Scope nat_scope.

(** Only a shutdown returns 'stopped'. *)
Definition lawful (calls : list (call * tstate)) : Prop := forall t c, nth_error calls t = Some (c, TDone Stopped) -> c = CShutdown.
Lemma lawful_put calls t c st : lawful calls -> (st = TDone Stopped -> c = CShutdown) -> lawful (M_App.set_nth calls t (c, st)).
Proof.
  intros L H i c0. rewrite set_nth_get. destruct (Nat.eqb_spec t i) as [->|NE]; [|apply L]. destruct (nth_error calls i); [|discriminate]. intros [= <- E]. auto.
Qed.
Lemma lawful_fail n : forall calls i l o, lawful calls -> fail_waiting n i calls = (l, o) -> lawful l.
Proof.
  induction calls as [|[c st] r IH]; intros i l o L E; cbn [fail_waiting] in E; [injection E as <- <-; exact L|].
  destruct (fail_waiting n (S i) r) as [r' o'] eqn:F. assert (LR : lawful r') by (apply (IH _ _ _ (fun t => L (S t)) F)).
  assert (G : forall st', (st' = TDone Stopped -> c = CShutdown) -> lawful ((c, st') :: r')). { intros st' H [|t] c0; cbn; [intros [= <- E']; auto|apply LR]. }
  assert (G0 : lawful ((c, st) :: r')) by (apply G; intros ->; exact (L 0 c eq_refl)).
  destruct st; try (injection E as <- <-; exact G0). destruct (Nat.eqb _ n); injection E as <- <-; [|exact G0]. apply G. destruct c; [discriminate|auto].
Qed.
Lemma lawful_dies s n d s' p : lawful (p_calls s) -> dies s n d = (s', p) -> lawful (p_calls s').
Proof. intros L E. unfold dies in E. destruct (fail_waiting n 0 (p_calls s)) as [l o] eqn:F. injection E as <- <-. cbn. exact (lawful_fail _ _ _ _ _ L F). Qed.
Lemma lawful_deliver n callers : forall o s s' p, lawful (p_calls s) -> deliver s n callers o = (s', p) -> lawful (p_calls s').
Proof.
  induction o as [|x o IH]; intros s s' p L E; cbn [deliver] in E; [injection E as <- <-; exact L|].
  destruct x; try exact (IH _ _ _ L E). destruct (find _ callers) as [[i t]|]; [|exact (IH _ _ _ L E)]. destruct (nth_error (p_calls s) t) as [[c st]|]; [|exact (IH _ _ _ L E)].
  destruct st; try exact (IH _ _ _ L E). cbn [finish] in E. destruct (deliver _ n callers o) as [s2 p2] eqn:D in E. injection E as <- <-. refine (IH _ _ _ _ D). cbn [p_calls]. apply lawful_put; [exact L|discriminate].
Qed.
Lemma lawful_acted s n a chan callers o s' p : lawful (p_calls s) -> acted s n a chan callers o = (s', p) -> lawful (p_calls s').
Proof. intros L E. unfold acted in E. destruct (deliver _ n callers o) as [s2 p2] eqn:D in E. injection E as <- <-. refine (lawful_deliver _ _ _ _ _ _ _ D). exact L. Qed.
Lemma lawful_step s e s' o : lawful (p_calls s) -> pstep s e = Some (s', o) -> lawful (p_calls s').
Proof.
  intros L E. destruct e as [c|t|t r|t|n boot|n oks|n e|t]; cbn [pstep] in E.
  - injection E as <- <-. cbn. intros t c0. destruct (Nat.lt_ge_cases t (length (p_calls s))) as [K|K]; [rewrite nth_error_app1 by exact K; apply L|]. rewrite nth_error_app2 by exact K.
    destruct (t - length (p_calls s)) as [|j]; cbn; [discriminate|destruct j; discriminate].
  - destruct (p_lock s); [discriminate|]. destruct (nth_error (p_calls s) t) as [[c []]|]; try discriminate. destruct c, (p_handle s); injection E as <- <-; cbn; apply lawful_put; auto; discriminate.
  - destruct (nth_error (p_calls s) t) as [[c []]|]; try discriminate. destruct r as [[id v6]|]; injection E as <- <-; cbn; apply lawful_put; auto; discriminate.
  - destruct (nth_error (p_calls s) t) as [[c []]|]; try discriminate. destruct (nth_error (p_nodes s) n) as [d|]; [|discriminate].
    destruct (dn_state d); [destruct (Nat.ltb _ _); [|discriminate]|destruct (Nat.ltb _ _); [|discriminate]|]; injection E as <- <-; cbn; apply lawful_put; auto; try discriminate. destruct c; [discriminate|auto].
  - destruct (nth_error (p_nodes s) n) as [d|]; [|discriminate]. destruct (dn_state d) as [id v6|a|]; try discriminate. destruct (a_running (actor_start id v6 boot)); [injection E as <- <-; exact L|].
    destruct (dies s n d) as [s1 p1] eqn:D. injection E as <- <-. exact (lawful_dies _ _ _ _ _ L D).
  - destruct (nth_error (p_nodes s) n) as [d|]; [|discriminate]. destruct (dn_state d) as [id v6|a|]; try discriminate. destruct (dn_chan d) as [|[t hash|t] chan]; try discriminate.
    + destruct (astep a _) as [[a1 o1]|]; [|discriminate]. destruct (acted s n a1 chan _ o1) as [s1 p1] eqn:D. injection E as <- <-. exact (lawful_acted _ _ _ _ _ _ _ _ L D).
    + destruct (astep a _) as [[a1 o1]|]; [|discriminate]. destruct (dies s n d) as [s1 p1] eqn:D. injection E as <- <-. exact (lawful_dies _ _ _ _ _ L D).
  - destruct (nth_error (p_nodes s) n) as [d|]; [|discriminate]. destruct (dn_state d) as [id v6|a|]; try (destruct e; discriminate).
    destruct e; try discriminate; (destruct (astep a _) as [[a1 o1]|]; [|discriminate]); destruct (acted s n a1 _ _ o1) as [s1 p1] eqn:D; injection E as <- <-; exact (lawful_acted _ _ _ _ _ _ _ _ L D).
  - destruct (nth_error (p_calls s) t) as [[c []]|]; try discriminate; injection E as <- <-; cbn; apply lawful_put; auto; discriminate.
Qed.
Lemma lawful_run : forall l s s' h, lawful (p_calls s) -> prun s l = Some (s', h) -> lawful (p_calls s').
Proof.
  induction l as [|e l IH]; intros s s' h L R; cbn [prun] in R; [injection R as <- <-; exact L|].
  destruct (pstep s e) as [[s1 o1]|] eqn:E; [|discriminate]. destruct (prun s1 l) as [[s2 o2]|] eqn:R2; [|discriminate]. injection R as <- <-. exact (IH _ _ _ (lawful_step _ _ _ _ L E) R2).
Qed.
Lemma lookup_not_stopped l s h t hash : Forall wf_pev l -> prun app_new l = Some (s, h) -> In (OBegin t (CLookup hash)) h -> ~ In (OReturn t Stopped) h.
Proof.
  intros W R B X. assert (L : lawful (p_calls s)) by (apply (lawful_run l app_new s h); [intros [|i] c; discriminate|exact R]).
  apply (reached _ _ _ W) in R. destruct (v_calls _ _ _ R) as (Q1 & Q2). apply Q1 in B. destruct B as (st & B). apply in_results in X. rewrite Q2, B in X.
  destruct st as [| | | |r|]; try contradiction. destruct X as [->|[]]. discriminate (L _ _ B).
Qed.

Lemma not_found_start cfg m w h t r : looked_up h t m r w -> (forall f, r <> Found f) -> get_start cfg m w = None.
Proof. intros (NT & _ & _ & D & _) NF. unfold get_start, r_start. rewrite NT, D. destruct r as [f| | |]; [destruct (NF f eq_refl)| | |]; reflexivity. Qed.

Lemma dht_success l s h t m r w show_url cfg pid src ts template cut lg ops :
  Forall wf_pev l -> prun app_new l = Some (s, h) -> looked_up h t m r w -> length (mg_hash m) = 20 -> length pid = 20 ->
  reads src ts -> parse_template src = Ret (Ok template) -> (forall b, concat (cut b) = b) ->
  get_cmd show_url cfg pid m w lg template cut None = Some (Ret (ops, true)) ->
  (exists f, r = Found f) /\
  exists doc d, canonical (VDict d) /\ sha1 (encode (VDict d)) = mg_hash m /\ canonical (VDict doc) /\
    says doc [] (file_nodes m w) (bs "demagnetize 0.7.0") (unix_now (w_clock w)) (VDict d) /\
    let name := match lookup (bs "name") d with Some (VBytes n) => from_utf8_lossy n | _ => bs "NONAME" end in
    let path := expand ts (sanitize name) (show_info_hash (mg_hash m)) in
    (path = bs "-" /\ printed ops = encode (VDict doc) /\ forall f, fs_run f ops = f) \/
    (path <> bs "-" /\ printed ops = [] /\
     forall f, fs_run f ops path = Some (encode (VDict doc)) /\ forall q, q <> path -> fs_run f ops q = f q).
Proof.
  intros W R LU LH LP RD PT CUT H. destruct (lookup_sound _ _ _ _ _ _ _ W R LU) as (WF & FN). split.
  - destruct r as [f| | |]; [eauto| | |]; exfalso; unfold get_cmd in H; rewrite (not_found_start cfg _ _ _ _ _ LU) in H by discriminate; discriminate H.
  - destruct (get_success show_url cfg pid m w LH LP WF src ts template cut RD PT CUT lg ops FN H) as (doc & d & X). exists doc, d. destruct LU as (NT & _). rewrite NT in X. exact X.
Qed.
Lemma dht_failure l s h t m r w show_url cfg pid template cut lg ops :
  Forall wf_pev l -> prun app_new l = Some (s, h) -> looked_up h t m r w -> length (mg_hash m) = 20 -> length pid = 20 ->
  (forall b, concat (cut b) = b) -> c_tracker_jobs cfg <> 0%N -> c_peer_jobs cfg <> 0%N ->
  get_cmd show_url cfg pid m w lg template cut None = Some (Ret (ops, false)) ->
  ops = [] /\
  ((r = CreateFailed /\ In (PCreate t None) l) \/
   (r = HandleFailed /\ ((exists n, In (PResolve n []) l) \/ exists t', In (OBegin t' CShutdown) h)) \/
   (exists f n sid, r = Found f /\ In (OServe t n sid) h /\
      forall p, named h n sid (mg_hash m) p -> exists c conns e, to_try m w c /\ snd c = p /\ contact_info cfg pid (mg_hash m) w c = Ret (conns, SDone (Err e)))).
Proof.
  intros W R LU LH LP CUT HT HP H. assert (NP : forall k, w_announce w k <> Panic) by (intros k; destruct LU as (_ & _ & _ & _ & A); rewrite A; discriminate).
  destruct (get_failure show_url cfg pid m w LH LP [] template cut CUT lg ops HT HP NP H) as (-> & X). split; [reflexivity|].
  pose proof LU as (NT & B & RT & D & _). destruct (reasons _ _ _ t W R) as (R1 & R2). destruct r as [f| | |].
  - right. right. destruct (contacts _ _ _ _ _ _ _ W R LU) as (n & sid & SV & _ & PE & U & _). exists f, n, sid. split; [reflexivity|]. split; [exact SV|]. intros p P. apply PE in P. destruct P as (c & C & <-).
    destruct X as [(_ & X)|X]; [rewrite D in X; discriminate X|]. destruct (X c C) as (c' & conns & e & C' & EA & CI). rewrite (U _ _ C' C EA) in CI. exists c, conns, e. auto.
  - left. auto.
  - right. left. auto.
  - destruct (lookup_not_stopped _ _ _ _ _ W R B RT).
Qed.
Lemma dht_resolves l s h t m f w n sid show_url cfg pid src ts template cut s0 lg s1 hT hP :
  Forall wf_pev l -> prun app_new l = Some (s, h) -> looked_up h t m (Found f) w -> In (OServe t n sid) h -> length (mg_hash m) = 20 -> length pid = 20 ->
  reads src ts -> parse_template src = Ret (Ok template) -> (forall b, concat (cut b) = b) ->
  c_tracker_jobs cfg <> 0%N -> c_peer_jobs cfg <> 0%N -> (forall c, to_try m w c -> clock_fits cfg w c) ->
  let fetch := contact_fetch cfg pid (mg_hash m) w in
  let hang := hangs cfg pid (mg_hash m) w in
  get_start cfg m w = Some s0 -> get_run cfg pid m w s0 lg = Some (s1, hT, hP) -> never_ends hang hP ->
  quiet M_Net.sa_eqb contact_addr (w_announce w) fetch hang s1 ->
  fewer_hang contact_addr (w_announce w) hang (N.to_nat (c_peer_jobs cfg)) (mg_trackers m) (option_map fst (w_dht w)) ->
  (exists p, named h n sid (mg_hash m) p /\ forall c, to_try m w c -> snd c = p -> serves cfg pid (mg_hash m) w c) ->
  exists ops, get_cmd show_url cfg pid m w lg template cut None = Some (Ret (ops, true)).
Proof.
  intros W R LU SV LH LP RD PT CUT HT HP CF fetch hang GS GR NE QU FH (p & P & SP).
  destruct (lookup_sound _ _ _ _ _ _ _ W R LU) as (WF & FN). destruct (contacts _ _ _ _ _ _ _ W R LU) as (n' & sid' & SV' & _ & PE & U & _).
  destruct (distinct _ _ _ _ _ _ _ _ _ W R SV SV') as (<- & EQ). rewrite <- (proj1 EQ eq_refl) in PE. apply PE in P. destruct P as (c & C & EC).
  assert (NP : forall k, w_announce w k <> Panic) by (intros k; destruct LU as (_ & _ & _ & _ & A); rewrite A; discriminate).
  refine (get_resolves show_url cfg pid m w s0 lg s1 hT hP template cut src ts LH LP WF FN RD PT CUT HT HP NP CF GS GR NE QU FH _).
  exists c. split; [exact C|]. intros c' C' EA. rewrite (U _ _ C' C EA). auto.
Qed.
Lemma dht_doomed l s h t m r w n show_url cfg pid lg template cut fail :
  Forall wf_pev l -> prun app_new l = Some (s, h) -> looked_up h t m r w -> In (PResolve n []) l ->
  get_cmd show_url cfg pid m w lg template cut fail = Some (Ret ([], false)).
Proof.
  intros W R LU X. destruct (boot_failed _ _ _ _ W R X) as (_ & NF). unfold get_cmd. rewrite (not_found_start cfg _ _ _ _ _ LU); [reflexivity|]. intros f ->. destruct LU as (_ & _ & RT & _). exact (NF _ _ RT).
Qed.
