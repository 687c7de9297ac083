(** Lemmas on the sockets of a DHT node. *)
From Coq Require Import Lia Permutation.
From Verif Require Import Base M_Net M_Tracker M_Config M_DhtMsg M_Dht M_Boot M_DhtUp S_DhtMsg S_Dht S_Boot P_Boot P_Dht4 P_Dht5 P_Dht6 P_Dht7.
Local Open Scope nat_scope.

Definition fine (v6 : bool) (oks : list bool) (o : aobs) : Prop :=
  match o with
  | OQuery _ addr _ true => v6 = true \/ v4 addr
  | OQuery _ addr _ false => In false oks \/ (v6 = false /\ ~ v4 addr)
  | _ => True
  end.

Lemma in_tl {A} (x : A) l : In x (tl l) -> In x l.
Proof. destruct l; cbn; auto. Qed.

Lemma send_query_fine a sid addr q ok a' o : send_query a sid addr q ok = (a', o) ->
  a_v6 a' = a_v6 a /\ fine (a_v6 a) [ok] o.
Proof.
  unfold send_query. rewrite encode_ok, andb_true_r. intros [= <- <-]. split.
  - destruct (ok && _)%bool; [reflexivity|]. destruct (ses_get _ _); reflexivity.
  - unfold fine, v4. destruct ok; cbn [andb].
    + destruct (sa_ip addr) as [i|i]; [eauto|]. destruct (a_v6 a); [auto|]. right. split; [reflexivity|]. intros (j & [=]).
    + left. left. reflexivity.
Qed.
Lemma fine_mono v6 o l l' : (forall b, In b l -> In b l') -> fine v6 l o -> fine v6 l' o.
Proof. intros H. destruct o as [| ? ? ? []| | | |]; cbn; auto. intros [X|X]; auto. Qed.
Lemma send_all_fine sid qs : forall a oks a' o, send_all a sid qs oks = (a', o) -> a_v6 a' = a_v6 a /\ Forall (fine (a_v6 a) oks) o.
Proof.
  induction qs as [|[addr q] qs IH]; intros a oks a' o; cbn [send_all].
  - intros [= <- <-]. auto.
  - destruct (send_query a sid addr q _) as [a1 o1] eqn:SQ. destruct (send_all a1 sid qs (tl oks)) as [a2 os] eqn:SA. intros [= <- <-].
    apply IH in SA. destruct SA as (E2 & F2).
    assert (F1 : a_v6 a1 = a_v6 a /\ fine (a_v6 a) oks o1).
    { destruct oks as [|b r].
      - unfold send_query in SQ. apply send_query_fine in SQ. destruct SQ as (E & F). split; [exact E|].
        destruct o1 as [| ? ? ? []| | | |]; cbn in *; auto. destruct F as [[[=]|[]]|F]; auto.
      - apply send_query_fine in SQ. destruct SQ as (E & F). split; [exact E|]. eapply fine_mono; [|exact F]. intros c [<-|[]]. left. reflexivity. }
    destruct F1 as (E1 & F1). split; [congruence|]. constructor; [exact F1|]. rewrite E1 in F2. eapply Forall_impl; [|exact F2].
    intros x. apply fine_mono. intros c. apply in_tl.
Qed.
Lemma postprocess_fine a sid a' o oks v : postprocess a sid = (a', o) -> a_v6 a' = a_v6 a /\ Forall (fine v oks) o.
Proof.
  unfold postprocess. destruct (ses_get _ _); [|intros [= <- <-]; auto]. destruct (get_result _); [|intros [= <- <-]; auto].
  intros [= <- <-]. split; [reflexivity|]. destruct (existsb _ _); repeat constructor.
Qed.
Lemma send_outgoing_fine a sid s oks a' o : send_outgoing a sid s oks = (a', o) -> a_v6 a' = a_v6 a /\ Forall (fine (a_v6 a) oks) o.
Proof.
  unfold send_outgoing. destruct (get_outgoing s (a_txn a)) as [[s1 t] qs].
  match goal with |- context [send_all ?x sid qs oks] => set (a1 := x) end.
  destruct (send_all a1 sid qs oks) as [a2 o2] eqn:S. destruct (postprocess a2 sid) as [a3 o3] eqn:P. intros [= <- <-].
  apply send_all_fine in S. destruct S as (E2 & F2). apply (postprocess_fine _ _ _ _ oks (a_v6 a)) in P. destruct P as (E3 & F3).
  split; [rewrite E3, E2; reflexivity|]. apply Forall_app. split; [exact F2|exact F3].
Qed.
Definition sends (e : aev) : list bool := match e with ALookup _ oks | ADatagram _ _ _ oks => oks | _ => [] end.
Lemma astep_fine a e a' o : astep a e = Some (a', o) -> a_v6 a' = a_v6 a /\ Forall (fine (a_v6 a) (sends e)) o.
Proof.
  unfold astep. destruct (a_running a); [|discriminate]. destruct e as [hash oks| |from msg pick oks|k pick]; cbn [sends].
  - match goal with |- context [send_outgoing ?x ?y ?z oks] => destruct (send_outgoing x y z oks) as [a2 o2] eqn:S end.
    intros [= <- <-]. apply send_outgoing_fine in S. cbn [a_v6] in S. destruct S. split; [auto|]. constructor; [exact I|auto].
  - intros [= <- <-]. split; [reflexivity|]. apply Forall_forall. intros x X. apply in_map_iff in X. destruct X as (? & <- & _). exact I.
  - destruct (prescan msg) as [[txn ty]|].
    2: destruct pick; [discriminate|]; intros [= <- <-]; auto.
    assert (C : match pick with
            | None => if existsb (fun e => key_mem (from, txn) (ls_in_flight (snd e))) (a_sessions a) then None else Some (a, [])
            | Some sid =>
                match ses_get (a_sessions a) sid with
                | Some s =>
                    match session_message s from txn msg with
                    | Some (s1, r) => let (a2, o) := send_outgoing (with_sessions a (ses_set (a_sessions a) sid s1)) sid s1 oks in Some (a2, OReply sid from txn r :: o)
                    | None => None
                    end
                | None => None
                end
            end = Some (a', o) -> a_v6 a' = a_v6 a /\ Forall (fine (a_v6 a) oks) o).
    { destruct pick as [sid|].
      - destruct (ses_get _ _) as [s|]; [|discriminate]. destruct (session_message _ _ _ _) as [[s1 r]|]; [|discriminate].
        destruct (send_outgoing _ _ _ _) as [a2 o2] eqn:S. intros [= <- <-]. apply send_outgoing_fine in S. unfold with_sessions in S. cbn [a_v6] in S.
        destruct S. split; [auto|]. constructor; [exact I|auto].
      - destruct (existsb _ _); [discriminate|]. intros [= <- <-]. auto. }
    destruct ty; try exact C. destruct pick; [discriminate|]. intros [= <- <-]. auto.
  - destruct (key_mem _ _); [|discriminate]. destruct pick as [sid|].
    + destruct (ses_get _ _) as [s|]; [|discriminate]. destruct (session_timeout _ _) as [s1|]; [|discriminate].
      destruct (postprocess _ _) as [a2 o2] eqn:P. intros [= <- <-]. apply (postprocess_fine _ _ _ _ [] (a_v6 a)) in P. destruct P as (E & F).
      split; [exact E|]. constructor; [exact I|exact F].
    + destruct (existsb _ _); [discriminate|]. intros [= <- <-]. auto.
Qed.
Lemma arun_fine l : forall a a' h, arun a l = Some (a', h) -> Forall (fine (a_v6 a) (flat_map sends l)) h.
Proof.
  induction l as [|e l IH]; intros a a' h; cbn [arun flat_map].
  - intros [= <- <-]. constructor.
  - destruct (astep a e) as [[a1 o1]|] eqn:S; [|discriminate]. destruct (arun a1 l) as [[a2 o2]|] eqn:R; [|discriminate]. intros [= <- <-].
    apply astep_fine in S. destruct S as (E & F). apply IH in R. rewrite E in R. apply Forall_app. split; eapply Forall_impl; try eassumption;
      intros x; apply fine_mono; intros b B; apply in_or_app; auto.
Qed.

Lemma dht_start_inv id v4_ok v6_ok nodes l a : dht_start id v4_ok v6_ok nodes l = Some a ->
  v4_ok = true /\ exists s, boot_run v6_ok (boot_start nodes) l = Some s /\ boot_over s = true /\ a = actor_start id v6_ok (bo_addrs s).
Proof.
  unfold dht_start, udp_handle. destruct v4_ok; [|discriminate]. destruct (boot_run _ _ _) as [s|]; [|discriminate].
  destruct (boot_over s) eqn:O; [|discriminate]. intros [= <-]. eauto.
Qed.
Lemma up_v4 id v4_ok nodes l a0 evs a h : dht_start id v4_ok false nodes l = Some a0 -> Forall wf_ev evs -> arun a0 evs = Some (a, h) ->
  forall sid addr q, In (OQuery sid addr q true) h -> v4 addr /\ gq_want q = None.
Proof.
  intros S W R sid addr q I. apply dht_start_inv in S. destruct S as (_ & s & _ & _ & ->). split.
  - apply arun_fine in R. rewrite Forall_forall in R. apply R in I. destruct I as [[=]|V]. exact V.
  - assert (H : history id false (bo_addrs s) a h) by (exists evs; auto). destruct (queries_say _ _ _ _ _ _ _ _ _ H I) as (x & _ & _ & _ & _ & _ & _ & E). exact E.
Qed.
Lemma up_both id v6_ok nodes l a0 evs a h : dht_start id true v6_ok nodes l = Some a0 -> arun a0 evs = Some (a, h) ->
  forall sid addr q, In (OQuery sid addr q false) h ->
  (exists e, In e evs /\ In false (match e with ALookup _ oks | ADatagram _ _ _ oks => oks | _ => [] end)) \/ (v6_ok = false /\ ~ v4 addr).
Proof.
  intros S R sid addr q I. apply dht_start_inv in S. destruct S as (_ & s & _ & _ & ->).
  apply arun_fine in R. rewrite Forall_forall in R. apply R in I. destruct I as [F|F]; [|right; exact F].
  left. apply in_flat_map in F. destruct F as (e & E & F). exists e. split; [exact E|]. exact F.
Qed.
Lemma boot_all v6 : forall nodes n addrs, exists l s, boot_run v6 (mkBoot nodes [] n addrs) l = Some s /\ boot_over s = true.
Proof.
  induction nodes as [|x nodes IH]; intros n addrs.
  - exists [], (mkBoot [] [] n addrs). split; reflexivity.
  - destruct (IH (S n) (addrs ++ match resolve v6 x None with Some a => [a] | None => [] end)) as (l & s & R & O).
    exists (BoStart :: BoAnswer n None :: l), s. split; [|exact O]. cbn [boot_run boot_step bo_todo bo_running length Nat.ltb Nat.leb RESOLVE_JOB_LIMIT app bo_next find fst bo_addrs].
    rewrite Nat.eqb_refl. cbn [find filter negb fst]. rewrite Nat.eqb_refl. cbn [negb]. exact R.
Qed.
Lemma up_iff id v4_ok v6_ok nodes : (exists l, dht_start id v4_ok v6_ok nodes l <> None) <-> v4_ok = true.
Proof.
  split.
  - intros (l & H). destruct v4_ok; [reflexivity|]. elim H. reflexivity.
  - intros ->. destruct (boot_all v6_ok nodes 0 []) as (l & s & R & O). exists l. unfold dht_start, udp_handle, boot_start. rewrite R, O. discriminate.
Qed.
Lemma up_asked id v4_ok v6_ok nodes l a0 evs a h sid hash : dht_start id v4_ok v6_ok nodes l = Some a0 -> Forall wf_ev evs -> arun a0 evs = Some (a, h) ->
  In (OLookup sid hash) h ->
  exists answers rs boot rest, length answers = length nodes /\ length rs = length nodes /\
    (forall k n ans r, nth_error nodes k = Some n -> nth_error answers k = Some ans -> nth_error rs k = Some r -> In (BoAnswer k ans) l /\ address_of v6_ok n ans r) /\
    Permutation boot (somes rs) /\ asked h sid = boot ++ rest /\ forall x, In x rest -> In x (map node_address (told h sid)).
Proof.
  intros S W R I. apply dht_start_inv in S. destruct S as (_ & s & B & O & ->).
  destruct (boot_result _ _ _ _ B O) as (ans & rs & A1 & A2 & A3 & A4).
  assert (H : history id v6_ok (bo_addrs s) a h) by (exists evs; auto).
  destruct (asked_rest _ _ _ _ _ _ _ H I) as (rest & Q1 & _ & Q3).
  exists ans, rs, (bo_addrs s), rest. repeat split; auto; apply (A3 k n ans0 r); auto.
Qed.
