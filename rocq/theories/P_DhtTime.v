From Verif Require Import Base BaseFacts M_Net M_Tracker M_DhtMsg M_Dht S_Async S_Dht P_Dht P_Dht2 P_Dht3 P_Dht4 P_Dht5 P_Dht6 M_DhtTime S_DhtTime.
Local Open Scope nat_scope.

Lemma postprocess_timers a sid a' o : postprocess a sid = (a', o) -> a_timers a' = a_timers a.
Proof. intros E. apply send_all_nil_timers in E. apply E. Qed.
Lemma send_all_timers sid qs : forall a oks a' o k, send_all a sid qs oks = (a', o) -> In k (a_timers a') ->
  In k (a_timers a) \/ exists q, In (OQuery sid (fst k) q true) o /\ gq_txn q = snd k.
Proof.
  induction qs as [|[addr q] qs IH]; intros a oks a' o k E X; cbn [send_all] in E; [injection E as <- <-; auto|].
  destruct (send_query a sid addr q _) as [a1 o1] eqn:SQ. destruct (send_all a1 sid qs (tl oks)) as [a2 o2] eqn:SA. injection E as <- <-.
  destruct (IH _ _ _ _ _ SA X) as [Y|(q' & Y & T)]; [|right; exists q'; split; [right; exact Y|exact T]].
  unfold send_query in SQ. match type of SQ with context [if ?b then _ else _] => destruct b end.
  - injection SQ as <- <-. cbn [a_timers] in Y. unfold key_insert in Y. destruct (key_mem _ _); [auto|]. apply in_app_iff in Y. destruct Y as [Y|[<-|[]]]; [auto|]. right. exists q. split; [left; reflexivity|reflexivity].
  - destruct (ses_get _ _); injection SQ as <- <-; auto.
Qed.
Lemma send_outgoing_timers a sid s oks a' o k : send_outgoing a sid s oks = (a', o) -> In k (a_timers a') ->
  In k (a_timers a) \/ exists q, In (OQuery sid (fst k) q true) o /\ gq_txn q = snd k.
Proof.
  unfold send_outgoing. destruct (get_outgoing s (a_txn a)) as [[s1 t] qs]. destruct (send_all _ sid qs oks) as [a2 o2] eqn:SA. destruct (postprocess a2 sid) as [a3 o3] eqn:PP. intros [= <- <-] X.
  rewrite (postprocess_timers _ _ _ _ PP) in X. destruct (send_all_timers _ _ _ _ _ _ _ SA X) as [Y|(q & Y & T)]; [auto|]. right. exists q. split; [apply in_or_app; auto|exact T].
Qed.
Lemma step_timers a e a' o k : astep a e = Some (a', o) -> In k (a_timers a') ->
  In k (a_timers a) \/ exists sid q, In (OQuery sid (fst k) q true) o /\ gq_txn q = snd k.
Proof.
  intros E X. destruct e as [hash oks| |from msg [sid|] oks|k' [sid|]].
  - unfold astep in E. destruct (a_running a); [|discriminate]. destruct (send_outgoing _ _ _ oks) as [a2 o2] eqn:SO. injection E as <- <-.
    destruct (send_outgoing_timers _ _ _ _ _ _ _ SO X) as [Y|(q & Y & T)]; [auto|]. right. exists (a_next a), q. split; [right; exact Y|exact T].
  - unfold astep in E. destruct (a_running a); [|discriminate]. injection E as <- <-. destruct X.
  - apply datagram_some in E. destruct E as (txn & ty & s & s1 & r & o' & _ & _ & _ & _ & _ & SO & ->).
    destruct (send_outgoing_timers _ _ _ _ _ _ _ SO X) as [Y|(q & Y & T)]; [auto|]. right. exists sid, q. split; [right; exact Y|exact T].
  - left. assert (a' = a); [|subst; exact X]. unfold astep in E. destruct (a_running a); [|discriminate]. destruct (prescan msg) as [[txn [| |]]|]; try congruence; destruct (existsb _ _); congruence.
  - apply timeout_some in E. destruct E as (s & s1 & o' & _ & _ & _ & _ & _ & P). rewrite (postprocess_timers _ _ _ _ P) in X. cbn [a_timers] in X. apply key_remove_in in X. tauto.
  - unfold astep in E. destruct (a_running a); [|discriminate]. destruct (key_mem k' (a_timers a)); [|discriminate]. destruct (existsb _ _) eqn:EX; [discriminate|]. injection E as <- <-. cbn [a_timers] in X. apply key_remove_in in X. tauto.
Qed.

Lemma few_pre h o : few (h ++ o) -> few h.
Proof. unfold few. rewrite txns_app, app_length. lia. Qed.

Section T.
Context (timeout : nat) (my_id : bytes) (v6 : bool) (boot : list sockaddr).
Local Notation start := (d_start (actor_start my_id v6 boot)).
Local Notation history := (history my_id v6 boot).
Local Notation timed := (timed timeout my_id v6 boot).
Local Notation drun := (drun timeout).
Local Notation dstep := (dstep timeout).
Local Notation in_due_time := (in_due_time timeout).

Lemma drun_app l1 : forall l2 x x2 o2, drun x (l1 ++ l2) = Some (x2, o2) <-> exists x1 o1 o, drun x l1 = Some (x1, o1) /\ drun x1 l2 = Some (x2, o) /\ o2 = o1 ++ o.
Proof.
  induction l1 as [|e l1 IH]; intros l2 x x2 o2; cbn [app M_DhtTime.drun].
  - split; [intros E; exists x, [], o2; auto|]. intros (x1 & o1 & o & [= <- <-] & E & ->). exact E.
  - destruct (dstep x e) as [[x0 o0]|]; [|split; [discriminate|intros (? & ? & ? & X & _); discriminate]]. split.
    + destruct (drun x0 (l1 ++ l2)) as [[x3 o3]|] eqn:R; [|discriminate]. intros [= <- <-]. apply IH in R. destruct R as (x1 & o1 & o & E1 & E2 & ->). exists x1, (map (pair (d_now x)) o0 ++ o1), o. rewrite E1, app_assoc. auto.
    + intros (x1 & o1 & o & E1 & E2 & ->). destruct (drun x0 l1) as [[x3 o3]|] eqn:R; [|discriminate]. injection E1 as <- <-. rewrite (proj2 (IH l2 x0 x2 (o3 ++ o)) (ex_intro _ x3 (ex_intro _ o3 (ex_intro _ o (conj R (conj E2 eq_refl)))))). rewrite app_assoc. reflexivity.
Qed.
Lemma due_app l1 : forall l2 x x1 o1, drun x l1 = Some (x1, o1) -> in_due_time x (l1 ++ l2) <-> in_due_time x l1 /\ in_due_time x1 l2.
Proof.
  induction l1 as [|e l1 IH]; intros l2 x x1 o1 E; cbn [app S_DhtTime.in_due_time M_DhtTime.drun] in *.
  - injection E as <- <-. tauto.
  - destruct (dstep x e) as [[x0 o0]|]; [|discriminate]. destruct (drun x0 l1) as [[x3 o3]|] eqn:R; [|discriminate]. injection E as <- <-. rewrite (IH l2 x0 x3 o3 R). tauto.
Qed.
(** Induction over what can happen. *)
Lemma timed_ind (P : dst -> list (nat * aobs) -> Prop) : P start [] ->
  (forall x th e x' o, timed x th -> P x th -> wf_dev e ->
     match e with DWait t => forall k, In k (a_timers (d_a x)) -> d_now x + t <= d_began x k + timeout | DAct _ => True end ->
     dstep x e = Some (x', o) -> P x' (th ++ map (pair (d_now x)) o)) ->
  forall x th, timed x th -> P x th.
Proof.
  intros P0 PS x th (l & WF & R & D). revert x th R. induction l as [|e l IH] using rev_ind; intros x th R.
  - cbn in R. injection R as <- <-. exact P0.
  - apply Forall_app in WF. destruct WF as (WF & WE). inversion WE as [|? ? W1 _]; subst. apply drun_app in R. destruct R as (x1 & o1 & o & R1 & R2 & ->).
    apply (due_app l [e] start x1 o1 R1) in D. destruct D as (D1 & D2).
    cbn [M_DhtTime.drun] in R2. destruct (dstep x1 e) as [[x2 o2]|] eqn:ST; [|discriminate]. injection R2 as <- <-. rewrite app_nil_r. apply (PS x1 o1 e x2 o2).
    + exists l. auto.
    + apply IH; auto.
    + exact W1.
    + exact (proj1 D2).
    + exact ST.
Qed.
Lemma timed_step x th e x' o : timed x th -> wf_dev e ->
  match e with DWait t => forall k, In k (a_timers (d_a x)) -> d_now x + t <= d_began x k + timeout | DAct _ => True end ->
  dstep x e = Some (x', o) -> timed x' (th ++ map (pair (d_now x)) o).
Proof.
  intros (l & WF & R & D) W T E. exists (l ++ [e]). split; [apply Forall_app; auto|]. split.
  - apply drun_app. exists x, th, (map (pair (d_now x)) o). split; [exact R|]. split; [|reflexivity]. cbn [M_DhtTime.drun]. rewrite E, app_nil_r. reflexivity.
  - apply (due_app l [e] start x th R). split; [exact D|]. cbn [S_DhtTime.in_due_time]. rewrite E. auto.
Qed.
Lemma map_snd_pair {A} (n : nat) (l : list A) : map snd (map (pair n) l) = l.
Proof. rewrite map_map. apply map_id. Qed.
Lemma timed_history x th : timed x th -> history (d_a x) (map snd th).
Proof.
  revert x th. apply timed_ind.
  - exists []. split; [constructor|reflexivity].
  - intros x th e x' o _ H W _ E. rewrite map_app, map_snd_pair. destruct e as [a|t]; cbn [M_DhtTime.dstep] in E.
    + destruct (slept timeout x a); [|discriminate]. destruct (astep (d_a x) a) as [[s o1]|] eqn:ST; [|discriminate]. injection E as <- <-. cbn [d_a]. eapply history_step; eauto.
    + injection E as <- <-. rewrite app_nil_r. exact H.
Qed.
Lemma began_cases f now o k : began f now o k = now \/ began f now o k = f k.
Proof. unfold began. destruct (existsb _ _); auto. Qed.
Lemma began_sent f now o sid addr q : In (OQuery sid addr q true) o -> began f now o (addr, gq_txn q) = now.
Proof.
  intros X. unfold began. replace (existsb _ o) with true; [reflexivity|]. symmetry. apply existsb_exists. exists (OQuery sid addr q true). split; [exact X|]. cbn. apply key_eqb_eq. reflexivity.
Qed.
Lemma began_other f now o k : (forall sid q, In (OQuery sid (fst k) q true) o -> gq_txn q <> snd k) -> began f now o k = f k.
Proof.
  intros N. unfold began. destruct (existsb _ o) eqn:E; [|reflexivity]. exfalso. apply existsb_exists in E. destruct E as (b & X & Y). destruct b as [| sid addr q ok| | | |]; try discriminate.
  apply andb_true_iff in Y. destruct Y as (-> & Y). apply key_eqb_eq in Y. subst k. apply (N sid q X). reflexivity.
Qed.
(** No query is overdue, and no time is later than now. *)
Lemma timed_due x th : timed x th -> (forall k, In k (a_timers (d_a x)) -> d_now x <= d_began x k + timeout) /\ (forall t o, In (t, o) th -> t <= d_now x).
Proof.
  revert x th. apply timed_ind.
  - split; [intros k []|intros t o []].
  - intros x th e x' o T (H1 & H2) W D E. destruct e as [a|t]; cbn [M_DhtTime.dstep] in E.
    + destruct (slept timeout x a); [|discriminate]. destruct (astep (d_a x) a) as [[s o1]|] eqn:ST; [|discriminate]. injection E as <- <-. cbn [d_a d_now d_began]. split.
      * intros k X. destruct (step_timers _ _ _ _ _ ST X) as [Y|(sid & q & Y & EK)].
        -- destruct (began_cases (d_began x) (d_now x) o1 k) as [->| ->]; [lia|auto].
        -- destruct k as [ad tx]. cbn [fst snd] in *. subst tx. rewrite (began_sent _ _ _ _ _ _ Y). lia.
      * intros t b X. apply in_app_iff in X. destruct X as [X|X]; [apply (H2 _ _ X)|]. apply in_map_iff in X. destruct X as (b' & E1 & _). injection E1 as <- _. lia.
    + injection E as <- <-. cbn [d_a d_now d_began map]. split; [exact D|]. rewrite app_nil_r. intros u b X. specialize (H2 _ _ X). lia.
Qed.
Lemma txns_in h sid addr q ok : In (OQuery sid addr q ok) h -> In (gq_txn q) (txns h).
Proof. intros X. unfold txns. apply in_flat_map. exists (OQuery sid addr q ok). split; [exact X|left; reflexivity]. Qed.
Lemma few_fresh a h o t : history a (h ++ o) -> few (h ++ o) -> In t (txns h) -> In t (txns o) -> False.
Proof.
  intros H F X Y. apply In_nth_error in X. destruct X as (i & X). apply In_nth_error in Y. destruct Y as (j & Y).
  assert (L : i < length (txns h)) by (apply nth_error_Some; congruence).
  assert (E : i = length (txns h) + j); [|lia]. apply (few_nodup my_id v6 boot a (h ++ o) i _ t H F); rewrite txns_app.
  - rewrite nth_error_app1 by exact L. exact X.
  - rewrite nth_error_app2 by lia. replace (length (txns h) + j - length (txns h)) with j by lia. exact Y.
Qed.
(** The sleep of a query began when it was sent. *)
Lemma timed_sent x th : timed x th -> few (map snd th) -> forall t sid addr q, In (t, OQuery sid addr q true) th -> d_began x (addr, gq_txn q) = t.
Proof.
  revert x th. apply (timed_ind (fun x th => few (map snd th) -> forall t sid addr q, In (t, OQuery sid addr q true) th -> d_began x (addr, gq_txn q) = t)).
  - intros _ t sid addr q [].
  - intros x th e x' o T IH W D E F t sid addr q X. assert (T' := timed_step _ _ _ _ _ T W D E). apply timed_history in T'.
    rewrite map_app, map_snd_pair in F, T'. assert (F0 : few (map snd th)) by (apply (few_pre _ _ F)). specialize (IH F0). apply in_app_iff in X. destruct X as [X|X].
    + assert (X' := in_map snd _ _ X). cbn [snd] in X'.
      destruct e as [a|u]; cbn [M_DhtTime.dstep] in E; [|injection E as <- <-; cbn [d_began]; eapply IH; exact X].
      destruct (slept timeout x a); [|discriminate]. destruct (astep (d_a x) a) as [[s o1]|] eqn:ST; [|discriminate]. injection E as <- <-. cbn [d_began].
      rewrite began_other; [eapply IH; exact X|]. cbn [fst snd]. intros sid' q' Y EQ. eapply (few_fresh _ _ _ (gq_txn q) T' F); [eapply txns_in; exact X'|rewrite <- EQ; eapply txns_in; exact Y].
    + apply in_map_iff in X. destruct X as (b & EB & X). injection EB as <- ->.
      destruct e as [a|u]; cbn [M_DhtTime.dstep] in E; [|injection E as <- <-; destruct X].
      destruct (slept timeout x a); [|discriminate]. destruct (astep (d_a x) a) as [[s o1]|] eqn:ST; [|discriminate]. injection E as <- <-. cbn [d_began]. eapply began_sent; exact X.
Qed.
(** Queries are sent when the lookup starts and when a valid reply comes. *)
Definition spurs (th : list (nat * aobs)) (sid : nat) (t : nat) : Prop :=
  (exists hash, In (t, OLookup sid hash) th) \/ In t (reply_times th sid).
Lemma reply_times_app a b sid : reply_times (a ++ b) sid = reply_times a sid ++ reply_times b sid.
Proof. apply flat_map_app. Qed.
Lemma reply_times_in th sid t : In t (reply_times th sid) <-> exists addr txn r, In (t, OReply sid addr txn (Ok r)) th.
Proof.
  unfold reply_times. rewrite in_flat_map. split.
  - intros ((u & o) & X & Y). destruct o as [| |i addr txn [r|er]| | |]; try destruct Y. destruct (Nat.eqb_spec i sid) as [->|NE]; [|destruct Y]. destruct Y as [->|[]]. eauto.
  - intros (addr & txn & r & X). exists (t, OReply sid addr txn (Ok r)). split; [exact X|]. cbn. rewrite Nat.eqb_refl. left. reflexivity.
Qed.
Lemma timed_spurs x th : timed x th -> forall t sid addr q ok, In (t, OQuery sid addr q ok) th -> spurs th sid t.
Proof.
  revert x th. apply (timed_ind (fun x th => forall t sid addr q ok, In (t, OQuery sid addr q ok) th -> spurs th sid t)).
  - intros t sid addr q ok [].
  - intros x th e x' o T IH W D E t sid addr q ok X. apply in_app_iff in X. destruct X as [X|X].
    + destruct (IH _ _ _ _ _ X) as [(hash & Y)|Y]; [left; exists hash; apply in_or_app; auto|]. right. rewrite reply_times_app. apply in_or_app; auto.
    + apply in_map_iff in X. destruct X as (b & EB & X). injection EB as <- ->.
      destruct e as [a|u]; cbn [M_DhtTime.dstep] in E; [|injection E as <- <-; destruct X].
      destruct (slept timeout x a); [|discriminate]. destruct (astep (d_a x) a) as [[s o1]|] eqn:ST; [|discriminate]. injection E as <- <-.
      assert (NE : asked o1 sid <> []).
      { intros N. assert (Z : In addr (asked o1 sid)); [|rewrite N in Z; destruct Z]. unfold asked. apply in_flat_map. exists (OQuery sid addr q ok). split; [exact X|]. rewrite Nat.eqb_refl. left. reflexivity. }
      destruct (asked_only my_id v6 boot _ _ _ _ _ _ (timed_history _ _ T) W ST NE) as [(hash & Y & _)|(ad & txn & r & Y)].
      * left. exists hash. apply in_or_app. right. apply in_map. exact Y.
      * right. apply reply_times_in. exists ad, txn, r. apply in_or_app. right. apply in_map. exact Y.
Qed.
(** A lookup starts once. *)
Lemma step_lookup a e a' o sid hash : astep a e = Some (a', o) -> In (OLookup sid hash) o -> sid = a_next a.
Proof.
  intros E X. destruct e as [h oks| |from msg [i|] oks|k' [i|]].
  - unfold astep in E. destruct (a_running a); [|discriminate]. destruct (send_outgoing _ _ _ oks) as [a2 o2] eqn:SO. injection E as <- <-. destruct X as [X|X]; [congruence|]. destruct (send_outgoing_kinds _ _ _ _ _ _ SO _ X).
  - unfold astep in E. destruct (a_running a); [|discriminate]. injection E as <- <-. apply in_map_iff in X. destruct X as (? & ? & _). discriminate.
  - apply datagram_some in E. destruct E as (txn & ty & s & s1 & r & o' & _ & _ & _ & _ & _ & SO & ->). destruct X as [X|X]; [congruence|]. destruct (send_outgoing_kinds _ _ _ _ _ _ SO _ X).
  - apply pick_none in E; [subst o; destruct X|eauto].
  - apply timeout_some in E. destruct E as (s & s1 & o' & _ & _ & _ & _ & -> & P). destruct X as [X|X]; [congruence|]. destruct (postprocess_kinds _ _ _ _ P _ X).
  - apply pick_none in E; [subst o; destruct X|eauto].
Qed.
Lemma lookup_time x th : timed x th -> forall t t' sid hash hash', In (t, OLookup sid hash) th -> In (t', OLookup sid hash') th -> t = t'.
Proof.
  revert x th. apply (timed_ind (fun x th => forall t t' sid hash hash', In (t, OLookup sid hash) th -> In (t', OLookup sid hash') th -> t = t')).
  - intros ? ? ? ? ? [].
  - intros x th e x' o T IH W D E t t' sid hash hash' X Y. apply in_app_iff in X. apply in_app_iff in Y.
    assert (N : forall u u' h h', In (u, OLookup sid h) th -> In (u', OLookup sid h') (map (pair (d_now x)) o) -> False).
    { intros u u' h h' A B. apply in_map_iff in B. destruct B as (b & EB & B). injection EB as _ ->.
      destruct e as [a|v]; cbn [M_DhtTime.dstep] in E; [|injection E as <- <-; destruct B].
      destruct (slept timeout x a); [|discriminate]. destruct (astep (d_a x) a) as [[s o1]|] eqn:ST; [|discriminate]. injection E as <- <-.
      apply (step_lookup _ _ _ _ _ _ ST) in B. assert (V := timed_history _ _ T). apply history_inv in V. apply (in_map snd) in A. pose proof (v_sids _ _ _ _ _ _ V _ A) as L. cbn in L. lia. }
    destruct X as [X|X], Y as [Y|Y].
    + eapply IH; eauto.
    + destruct (N _ _ _ _ X Y).
    + destruct (N _ _ _ _ Y X).
    + apply in_map_iff in X. apply in_map_iff in Y. destruct X as (? & [= <- _] & _), Y as (? & [= <- _] & _). reflexivity.
Qed.
(** C114: within the timeout of the start or of a valid reply *)
Lemma waits_little x th sid hash t0 : timed x th -> few (map snd th) -> In (t0, OLookup sid hash) th -> unanswered th sid ->
  exists t, (t = t0 \/ In t (reply_times th sid)) /\ d_now x <= t + timeout.
Proof.
  intros T F X (U1 & U2). assert (H := timed_history _ _ T). assert (X' := in_map snd _ _ X). cbn [snd] in X'.
  destruct (lookup_answered my_id v6 boot _ _ _ _ H X' F) as [(A & _)|[(_ & A & _)|(_ & _ & addr & txn & AW & TM & _)]].
  - rewrite U1 in A. discriminate.
  - rewrite U2 in A. discriminate.
  - destruct AW as (h1 & q & h2 & EH & <- & _). assert (Y : In (OQuery sid addr q true) (map snd th)) by (rewrite EH; apply in_or_app; right; left; reflexivity).
    apply in_map_iff in Y. destruct Y as ((t & o) & EO & Y). cbn [snd] in EO. subst o. assert (B := timed_sent _ _ T F _ _ _ _ Y). assert (L := proj1 (timed_due _ _ T) _ TM). rewrite B in L.
    exists t. split; [|exact L]. destruct (timed_spurs _ _ T _ _ _ _ _ Y) as [(hash' & Z)|Z]; [|auto]. left. eapply lookup_time; eauto.
Qed.
(** What ends a lookup, or replies to it, comes while it is unanswered. *)
Lemma reply_unanswered a h e a' o sid addr txn r hash : history a h -> In (OLookup sid hash) h -> astep a e = Some (a', o) -> In (OReply sid addr txn r) o ->
  answers h sid = [] /\ downs h sid = 0.
Proof.
  intros H X E Y. destruct (step_replies _ _ _ _ _ _ _ _ E Y) as (msg & oks & o' & _ & _ & _ & _ & _ & s & IN & _).
  destruct (history_lookup _ _ _ _ _ _ _ H X) as (_ & _ & [(s' & _ & _ & _ & _ & A & D)|(NI & _)]); [auto|]. exfalso. apply NI. apply (in_map fst) in IN. exact IN.
Qed.
Lemma answer_unanswered a h e a' o sid r hash : history a h -> wf_ev e -> In (OLookup sid hash) h -> astep a e = Some (a', o) -> In (OAnswer sid r) o ->
  answers h sid = [] /\ downs h sid = 0.
Proof.
  intros H W X E Y. assert (L := lookup_at_most_once my_id v6 boot a' (h ++ o) sid hash (history_step _ _ _ _ _ _ _ _ H W E) (in_or_app _ _ _ (or_introl X))).
  rewrite answers_app, app_length in L. assert (Z : In r (answers o sid)). { unfold answers. apply in_flat_map. exists (OAnswer sid r). split; [exact Y|]. rewrite Nat.eqb_refl. left. reflexivity. }
  assert (DA : downs (h ++ o) sid = downs h sid + downs o sid) by (unfold downs; rewrite filter_app, app_length; reflexivity). rewrite DA in L.
  destruct (answers o sid); [destruct Z|]. cbn [length] in L. destruct (answers h sid); [|cbn in L; lia]. split; [reflexivity|lia].
Qed.
Lemma bounded x th : timed x th -> few (map snd th) -> forall sid hash t0, In (t0, OLookup sid hash) th ->
  (forall t, In t (reply_times th sid) -> t <= t0 + length (reply_times th sid) * timeout) /\
  (forall t r, In (t, OAnswer sid r) th -> t <= t0 + (length (reply_times th sid) + 1) * timeout).
Proof.
  revert x th. apply (timed_ind (fun x th => few (map snd th) -> forall sid hash t0, In (t0, OLookup sid hash) th ->
    (forall t, In t (reply_times th sid) -> t <= t0 + length (reply_times th sid) * timeout) /\
    (forall t r, In (t, OAnswer sid r) th -> t <= t0 + (length (reply_times th sid) + 1) * timeout))).
  - intros _ ? ? ? [].
  - intros x th e x' o T IH W D E F sid hash t0 X. assert (NOW := proj2 (timed_due _ _ (timed_step _ _ _ _ _ T W D E))).
    rewrite map_app, map_snd_pair in F. assert (F0 := few_pre _ _ F). specialize (IH F0).
    destruct e as [a|u]; cbn [M_DhtTime.dstep] in E; [|injection E as <- <-; cbn [map] in *; rewrite app_nil_r in *; eapply IH; exact X].
    destruct (slept timeout x a); [|discriminate]. destruct (astep (d_a x) a) as [[s o1]|] eqn:ST; [|discriminate]. injection E as <- <-. cbn [d_now] in NOW.
    apply in_app_iff in X. destruct X as [X|X].
    + destruct (IH _ _ _ X) as (IH1 & IH2). rewrite reply_times_app, app_length. set (n := length (reply_times th sid)) in *. set (m := length (reply_times (map (pair (d_now x)) o1) sid)).
      assert (X' := in_map snd _ _ X). cbn [snd] in X'. assert (H := timed_history _ _ T).
      assert (U : unanswered th sid -> d_now x <= t0 + (n + 1) * timeout).
      { intros U. destruct (waits_little _ _ _ _ _ T F0 X U) as (t & [->|Y] & L); [nia|]. specialize (IH1 _ Y). nia. }
      split.
      * intros t Y. apply in_app_iff in Y. destruct Y as [Y|Y]; [specialize (IH1 _ Y); nia|].
        assert (M : m <> 0). { intros M. apply length_zero_iff_nil in M. rewrite M in Y. destruct Y. }
        apply reply_times_in in Y. destruct Y as (addr & txn & r & Y). apply in_map_iff in Y. destruct Y as (b & EB & Y). injection EB as <- ->.
        specialize (U (reply_unanswered _ _ _ _ _ _ _ _ _ _ H X' ST Y)). nia.
      * intros t r Y. apply in_app_iff in Y. destruct Y as [Y|Y]; [specialize (IH2 _ _ Y); nia|].
        apply in_map_iff in Y. destruct Y as (b & EB & Y). injection EB as <- ->. specialize (U (answer_unanswered _ _ _ _ _ _ _ _ H W X' ST Y)). nia.
    + apply in_map_iff in X. destruct X as (b & EB & _). injection EB as <- _. split.
      * intros t Y. apply reply_times_in in Y. destruct Y as (addr & txn & r & Y). specialize (NOW _ _ Y). lia.
      * intros t r Y. specialize (NOW _ _ Y). lia.
Qed.
Lemma bounded_unanswered x th sid hash t0 : timed x th -> few (map snd th) -> In (t0, OLookup sid hash) th -> unanswered th sid ->
  d_now x <= t0 + (length (reply_times th sid) + 1) * timeout.
Proof.
  intros T F X U. destruct (waits_little _ _ _ _ _ T F X U) as (t & [->|Y] & L); [nia|]. destruct (bounded _ _ T F _ _ _ X) as (B & _). specialize (B _ Y). nia.
Qed.
(** The answer comes within the timeout of the start or of a valid reply. *)
Lemma answered_soon x th : timed x th -> few (map snd th) -> forall sid hash t0 t r, In (t0, OLookup sid hash) th -> In (t, OAnswer sid r) th ->
  exists u, (u = t0 \/ In u (reply_times th sid)) /\ t <= u + timeout.
Proof.
  revert x th. apply (timed_ind (fun x th => few (map snd th) -> forall sid hash t0 t r, In (t0, OLookup sid hash) th -> In (t, OAnswer sid r) th ->
    exists u, (u = t0 \/ In u (reply_times th sid)) /\ t <= u + timeout)).
  - intros _ ? ? ? ? ? [].
  - intros x th e x' o T IH W D E F sid hash t0 t r X Y. assert (NOW := proj2 (timed_due _ _ (timed_step _ _ _ _ _ T W D E))).
    rewrite map_app, map_snd_pair in F. assert (F0 := few_pre _ _ F). specialize (IH F0).
    destruct e as [a|u]; cbn [M_DhtTime.dstep] in E; [|injection E as <- <-; cbn [map] in *; rewrite app_nil_r in *; eapply IH; eauto].
    destruct (slept timeout x a); [|discriminate]. destruct (astep (d_a x) a) as [[s o1]|] eqn:ST; [|discriminate]. injection E as <- <-. cbn [d_now] in NOW.
    assert (TN := NOW _ _ Y). apply in_app_iff in X. destruct X as [X|X].
    + rewrite reply_times_app. apply in_app_iff in Y. destruct Y as [Y|Y].
      * destruct (IH _ _ _ _ _ X Y) as (u & [->|Z] & L); [exists t0; auto|]. exists u. split; [right; apply in_or_app; auto|exact L].
      * apply in_map_iff in Y. destruct Y as (b & EB & Y). injection EB as <- ->. assert (X' := in_map snd _ _ X). cbn [snd] in X'.
        destruct (waits_little _ _ _ _ _ T F0 X (answer_unanswered _ _ _ _ _ _ _ _ (timed_history _ _ T) W X' ST Y)) as (u & [->|Z] & L); [exists t0; auto|]. exists u. split; [right; apply in_or_app; auto|exact L].
    + apply in_map_iff in X. destruct X as (b & EB & _). injection EB as <- _. exists (d_now x). split; [auto|lia].
Qed.
(** A query is given up exactly when its time is over. *)
Lemma patient x th : timed x th -> few (map snd th) -> forall t sid addr txn, In (t, OTimeout sid addr txn) th ->
  exists t' q, In (t', OQuery sid addr q true) th /\ gq_txn q = txn /\ t = t' + timeout.
Proof.
  revert x th. apply (timed_ind (fun x th => few (map snd th) -> forall t sid addr txn, In (t, OTimeout sid addr txn) th ->
    exists t' q, In (t', OQuery sid addr q true) th /\ gq_txn q = txn /\ t = t' + timeout)).
  - intros _ ? ? ? ? [].
  - intros x th e x' o T IH W D E F t sid addr txn X. rewrite map_app, map_snd_pair in F. assert (F0 := few_pre _ _ F). specialize (IH F0).
    apply in_app_iff in X. destruct X as [X|X].
    + destruct (IH _ _ _ _ X) as (t' & q & Y & Z). exists t', q. split; [apply in_or_app; auto|exact Z].
    + apply in_map_iff in X. destruct X as (b & EB & X). injection EB as <- ->.
      destruct e as [a|u]; cbn [M_DhtTime.dstep] in E; [|injection E as <- <-; destruct X].
      destruct (slept timeout x a) eqn:SL; [|discriminate]. destruct (astep (d_a x) a) as [[s o1]|] eqn:ST; [|discriminate]. injection E as <- <-.
      assert (Q : a = ATimeout (addr, txn) (Some sid) /\ In (addr, txn) (a_timers (d_a x)) /\ exists s, In (sid, s) (a_sessions (d_a x)) /\ In (addr, txn) (ls_in_flight s)).
      { destruct a as [h oks| |from msg [i|] oks|k' [i|]].
        - unfold astep in ST. destruct (a_running (d_a x)); [|discriminate]. destruct (send_outgoing _ _ _ oks) as [a2 o2] eqn:SO. injection ST as <- <-. destruct X as [X|X]; [congruence|]. destruct (send_outgoing_kinds _ _ _ _ _ _ SO _ X).
        - unfold astep in ST. destruct (a_running (d_a x)); [|discriminate]. injection ST as <- <-. apply in_map_iff in X. destruct X as (? & ? & _). discriminate.
        - apply datagram_some in ST. destruct ST as (tx & ty & s' & s1 & r & o' & _ & _ & _ & _ & _ & SO & ->). destruct X as [X|X]; [congruence|]. destruct (send_outgoing_kinds _ _ _ _ _ _ SO _ X).
        - apply pick_none in ST; [subst o1; destruct X|eauto].
        - apply timeout_some in ST. destruct ST as (s' & s1 & o' & _ & K & G & ES & -> & P). destruct X as [X|X]; [|destruct (postprocess_kinds _ _ _ _ P _ X)].
          injection X as -> <- <-. destruct k' as [ad tx]. cbn [fst snd]. split; [reflexivity|]. split; [exact K|]. exists s'. split; [apply ses_get_in; exact G|].
          unfold session_timeout in ES. destruct (key_mem _ _) eqn:KM; [|discriminate]. apply key_mem_in in KM. exact KM.
        - apply pick_none in ST; [subst o1; destruct X|eauto]. }
      destruct Q as (-> & TM & y & IN & FL). cbn [slept] in SL. apply Nat.leb_le in SL. assert (H := timed_history _ _ T). assert (AW := in_flight_awaiting my_id v6 boot _ _ _ _ _ _ H IN FL).
      destruct AW as (h1 & q & h2 & EH & <- & _). assert (Y : In (OQuery sid addr q true) (map snd th)) by (rewrite EH; apply in_or_app; right; left; reflexivity).
      apply in_map_iff in Y. destruct Y as ((t & b) & EO & Y). cbn [snd] in EO. subst b. assert (B := timed_sent _ _ T F0 _ _ _ _ Y). assert (L := proj1 (timed_due _ _ T) _ TM). rewrite B in L, SL.
      exists t, q. split; [apply in_or_app; auto|]. split; [reflexivity|lia].
Qed.
(** Until the lookup is over either a query's time is over, and it can be given up, or time can pass. *)
Lemma goes_on x th : timed x th -> a_running (d_a x) = true ->
  (forall k, In k (a_timers (d_a x)) -> d_now x + 1 <= d_began x k + timeout) \/
  exists k pick x' o, In k (a_timers (d_a x)) /\ dstep x (DAct (ATimeout k pick)) = Some (x', o).
Proof.
  intros T R. destruct (Forall_Exists_dec (fun k => d_now x + 1 <= d_began x k + timeout) (fun k => le_dec _ _) (a_timers (d_a x))) as [A|A].
  - left. apply Forall_forall. exact A.
  - right. apply Exists_exists in A. destruct A as (k & K & L). exists k.
    assert (SL : forall pick, slept timeout x (ATimeout k pick) = true) by (intros pick; cbn [slept]; apply Nat.leb_le; lia).
    assert (Q : exists pick, astep (d_a x) (ATimeout k pick) <> None).
    { destruct (existsb (fun e => key_mem k (ls_in_flight (snd e))) (a_sessions (d_a x))) eqn:EX.
      - apply existsb_exists in EX. destruct EX as ([sid s] & IN & KM). cbn [snd] in KM. apply key_mem_in in KM. exists (Some sid). assert (V := history_inv _ _ _ _ _ (timed_history _ _ T)).
        destruct (timeout_possible (d_a x) sid s k R (v_nd _ _ _ _ _ _ V) IN KM K) as (a' & o & ->). discriminate.
      - exists None. unfold astep. rewrite R. apply key_mem_in in K. rewrite K, EX. discriminate. }
    destruct Q as (pick & Q). exists pick. cbn [M_DhtTime.dstep]. rewrite SL. destruct (astep (d_a x) (ATimeout k pick)) as [[s o]|]; [|congruence]. eauto.
Qed.
End T.

(** *** Deciding whether time passes as it should, for examples *)
Fixpoint due_b (timeout : nat) (x : dst) (l : list dev) : bool :=
  match l with
  | [] => true
  | e :: l' =>
      match e with DWait t => forallb (fun k => d_now x + t <=? d_began x k + timeout) (a_timers (d_a x)) | DAct _ => true end &&
      match dstep timeout x e with Some (x', _) => due_b timeout x' l' | None => true end
  end.
Lemma due_b_sound timeout l : forall x, due_b timeout x l = true -> in_due_time timeout x l.
Proof.
  induction l as [|e l IH]; intros x E; cbn [due_b in_due_time] in *; [exact I|]. apply andb_true_iff in E. destruct E as (E1 & E2). split.
  - destruct e as [a|t]; [exact I|]. intros k K. rewrite forallb_forall in E1. apply Nat.leb_le. apply E1. exact K.
  - destruct (dstep timeout x e) as [[x' o]|]; [apply IH; exact E2|exact I].
Qed.
(** The state and what was observed. *)
Definition out (timeout : nat) (x : dst) (l : list dev) : dst * list (nat * aobs) := match drun timeout x l with Some r => r | None => (x, []) end.
Lemma out_timed timeout my_id v6 boot l : Forall wf_dev l ->
  match drun timeout (d_start (actor_start my_id v6 boot)) l with Some _ => true | None => false end = true -> due_b timeout (d_start (actor_start my_id v6 boot)) l = true ->
  timed timeout my_id v6 boot (fst (out timeout (d_start (actor_start my_id v6 boot)) l)) (snd (out timeout (d_start (actor_start my_id v6 boot)) l)).
Proof.
  intros W R D. exists l. split; [exact W|]. split; [|apply due_b_sound; exact D]. unfold out. destruct (drun _ _ l) as [[x th]|]; [reflexivity|discriminate].
Qed.
