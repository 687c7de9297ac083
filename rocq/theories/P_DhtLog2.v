(** Lemmas on the full log of lookups (C119). *)
From Coq Require Import Lia.
From Verif Require Import Base M_Net M_Peer M_Tracker M_DhtMsg M_Dht M_Log M_DhtLog M_DhtLog2 S_Async S_Dht S_DhtLog S_DhtLog2 P_Nursery P_Dht P_Dht2 P_Dht3 P_Dht4 P_Dht5 P_DhtLog.

Lemma logged_app o1 : forall h o2 g1 g2, logged h o1 g1 -> logged (h ++ o1) o2 g2 -> logged h (o1 ++ o2) (g1 ++ g2).
Proof.
  induction o1 as [|x o IH]; intros h o2 g1 g2 A B.
  - cbn in A. subst g1. rewrite app_nil_r in B. exact B.
  - change (x :: o) with ([x] ++ o) in B. rewrite app_assoc in B. cbn [app logged] in *.
    destruct x; try (apply IH; assumption); destruct A as (y & g' & -> & T & A); exists y, (g' ++ g2); (split; [reflexivity|]; split; [exact T|]; apply IH; assumption).
Qed.

(** A session and what it knows *)
Definition naming (h : list aobs) (sid : nat) (hash : bytes) (s : session) : Prop :=
  In (OLookup sid hash) h /\ sp_hash (ls_nodes s) = hash /\
  exists kn, known_nodes h sid kn /\ forall a n, addr_get (sp_addr (ls_nodes s)) a = Some n <-> In n kn /\ node_address n = a.
Lemma naming_named h sid hash s x : naming h sid hash s -> exists id, addr2display s x = (id, x) /\ named h sid x id.
Proof.
  intros (_ & _ & kn & K & G). unfold addr2display, named. destruct (addr_get _ x) as [n|] eqn:E.
  - pose proof (proj1 (G _ _) E) as (I & A). exists (Some (nd_id n)). split; [rewrite A; reflexivity|]. exists kn. split; [exact K|]. intros i. split.
    + intros [= <-]. eauto.
    + intros (m & M & MA & <-). pose proof (proj2 (G x m) (conj M MA)) as X. congruence.
  - exists None. split; [reflexivity|]. exists kn. split; [exact K|]. intros i. split; [discriminate|].
    intros (m & M & MA & _). pose proof (proj2 (G x m) (conj M MA)). congruence.
Qed.
Lemma naming_app h o sid hash s : naming h sid hash s -> told o sid = [] -> naming (h ++ o) sid hash s.
Proof.
  intros (L & H & kn & K & G) T. split; [apply in_or_app; auto|]. split; [exact H|]. exists kn. split; [|exact G]. unfold known_nodes. rewrite told_app, T, app_nil_r. exact K.
Qed.
Section D.
Context (my_id : bytes) (v6 : bool) (boot : list sockaddr).
Lemma sinv_naming h sid hash s : sinv my_id v6 boot h sid hash s -> In (OLookup sid hash) h -> naming h sid hash s.
Proof.
  intros V L. destruct (s_space _ _ _ _ _ _ _ V) as (rest & _ & SP). split; [exact L|]. split; [apply SP|]. destruct (p_known _ _ _ _ _ SP) as (kn & A & _ & B). exists kn. auto.
Qed.
Lemma queries_logged sid hash s qs : forall h bl, naming h sid hash s -> length bl = length qs ->
  logged h (qobs sid qs bl) (map (fun x => let (id, a) := addr2display s x in DSending id a (sp_hash (ls_nodes s))) (map fst qs)).
Proof.
  induction qs as [|[x q] qs IH]; intros h [|b bl] N E; try discriminate; [reflexivity|].
  unfold qobs. cbn [combine map fst snd logged]. eexists _, _. split; [reflexivity|]. split.
  - destruct (naming_named _ _ _ _ x N) as (id & -> & D). exists id, hash. split; [exact D|]. split; [apply N|]. f_equal. apply N.
  - apply IH; [|cbn in E; lia]. apply naming_app; [exact N|reflexivity].
Qed.
Lemma result_logged h a sid hash s a' o : In (OLookup sid hash) h -> sp_hash (ls_nodes s) = hash -> ses_get (a_sessions a) sid = Some s -> In sid (a_senders a) ->
  postprocess a sid = (a', o) -> logged h o (result_log a sid).
Proof.
  intros L H G S. unfold postprocess, result_log. rewrite G. destruct (get_result s) as [r|]; [|intros [= <- <-]; reflexivity].
  assert (X : existsb (Nat.eqb sid) (a_senders a) = true) by (apply existsb_exists; exists sid; split; [exact S|apply Nat.eqb_refl]). rewrite X.
  intros [= <- <-]. cbn [logged]. eexists _, _. split; [reflexivity|]. split; [|reflexivity]. exists hash. split; [exact L|]. rewrite H. reflexivity.
Qed.
Lemma send_logged h a sid hash s oks x a' o : naming h sid hash s -> NoDup (map fst (a_sessions a)) -> ses_get (a_sessions a) sid = Some x -> In sid (a_senders a) -> a_txn a < 2 ^ 32 ->
  send_outgoing a sid s oks = (a', o) -> logged h o (send_log a sid s oks).
Proof.
  intros N ND G SN L. unfold send_outgoing, send_log, get_outgoing.
  pose proof (outgoing_spec s (ls_to_query s) (a_txn a) (ls_in_flight s) L) as O. destruct (outgoing_go s (ls_to_query s) (a_txn a) (ls_in_flight s)) as [[fl t] qs].
  destruct O as (OA & OG & OF & OT & ON).
  set (s1 := mkS (ls_id s) (ls_v6 s) (ls_peers s) (ls_nodes s) [] fl).
  match goal with |- context [send_all ?z sid qs oks] => set (a1 := z) end.
  assert (ND1 : NoDup (map fst (a_sessions a1))) by (unfold a1; cbn [a_sessions]; rewrite ses_set_keys; exact ND).
  assert (G1 : ses_get (a_sessions a1) sid = Some s1) by (unfold a1; cbn [a_sessions]; eapply ses_set_get; eauto).
  pose proof (send_all_spec sid qs a1 oks s1 ND1 G1) as S. destruct (send_all a1 sid qs oks) as [a2 o2].
  destruct S as (fl' & bl & BL & EO & ES & FL & TM & E1 & E2 & E3 & E4 & E5 & E6 & E7).
  destruct (postprocess a2 sid) as [a3 o3] eqn:P. intros [= <- <-].
  assert (Q : logged h o2 (outgoing_log s)). { rewrite EO. unfold outgoing_log. rewrite <- OA. apply queries_logged with (hash := hash); assumption. }
  apply logged_app; [exact Q|]. eapply result_logged with (s := with_flight s1 fl').
  - apply in_or_app. left. apply N.
  - apply N.
  - rewrite ES. unfold a1. cbn [a_sessions]. rewrite ses_set_set. eapply ses_set_get; eauto.
  - rewrite E4. exact SN.
  - exact P.
Qed.
Lemma downs_logged l : forall h, logged h (map ODown l) [].
Proof. induction l as [|x l IH]; intros h; [reflexivity|]. cbn [map logged]. apply IH. Qed.
Lemma turn_logged lib h a e a' o : history my_id v6 boot a h -> wf_ev e -> astep a e = Some (a', o) -> logged h o (turn_log lib a e).
Proof.
  intros H W E. pose proof (history_inv _ _ _ _ _ H) as V.
  assert (TX : a_txn a < 2 ^ 32) by (rewrite (v_txn _ _ _ _ _ _ V); apply N.mod_lt; discriminate).
  destruct e as [hash oks| |from msg [i|] oks|k [i|]]; cbn [turn_log].
  - unfold astep in E. destruct (a_running a); [|discriminate]. destruct (send_outgoing _ _ _ oks) as [a2 o2] eqn:S. injection E as <- <-. cbn [logged].
    assert (FR : forall x, In x h -> sid_of x <> a_next a) by (intros x X; pose proof (v_sids _ _ _ _ _ _ V x X); lia).
    assert (NK : ~ In (a_next a) (map fst (a_sessions a))). { intros X. apply in_map_iff in X. destruct X as ([i x] & EI & X). cbn in EI. subst i. pose proof (v_ses _ _ _ _ _ _ V _ _ X). lia. }
    eapply send_logged with (hash := hash); [..|exact S]; cbn [a_sessions a_senders a_txn]; auto.
    + pose proof (sinv_new my_id v6 boot h (a_next a) hash FR) as SV. destruct (s_space _ _ _ _ _ _ _ SV) as (rest & _ & SP). destruct (p_known _ _ _ _ _ SP) as (kn & A & _ & B).
      rewrite (v_id _ _ _ _ _ _ V), (v_v6 _ _ _ _ _ _ V), (v_boot _ _ _ _ _ _ V). split; [apply in_or_app; right; left; reflexivity|]. split; [apply SP|]. exists kn. split; [|exact B]. unfold known_nodes. rewrite told_app. cbn [told flat_map]. rewrite app_nil_r. exact A.
    + rewrite map_app. apply NoDup_app_intro; [apply V|repeat constructor; intros []|]. intros x X [<-|[]]. contradiction.
    + apply ses_get_iff; [|apply in_or_app; right; left; reflexivity]. rewrite map_app. apply NoDup_app_intro; [apply V|repeat constructor; intros []|]. intros x X [<-|[]]. contradiction.
    + apply in_or_app. right. left. reflexivity.
  - unfold astep in E. destruct (a_running a); [|discriminate]. injection E as <- <-. apply downs_logged.
  - apply datagram_some in E. destruct E as (t & ty & s & s1 & r & o' & _ & PS & NQ & G & SM & SO & ->). rewrite PS, G, SM. cbn [logged].
    destruct (ainv_session _ _ _ _ _ _ _ V (ses_get_in _ _ _ G)) as (hash & LK & SV & _). assert (L : In (OLookup i hash) h) by (apply LK; reflexivity).
    pose proof (sinv_naming _ _ _ _ SV L) as N. eexists _, _. split; [reflexivity|]. split.
    + cbn [tells]. destruct (naming_named _ _ _ _ from N) as (id & D & kn & K & ID). exists kn, hash, (reply_record lib s from msg). split; [exact K|]. split; [exact L|]. split; [|reflexivity].
      unfold says, reply_record. rewrite D. pose proof (message_shape _ _ _ _ _ _ SM) as (_ & DR & _). exists id. split; [exact ID|]. destruct N as (_ & -> & _).
      rewrite <- DR. destruct r as [rsp|[]]; eauto. rewrite app_length. reflexivity.
    + eapply send_logged with (hash := hash); [..|exact SO]; cbn [with_sessions a_sessions a_senders a_txn]; auto.
      * apply sinv_naming; [eapply sinv_reply; eassumption|]. apply in_or_app. auto.
      * rewrite ses_set_keys. apply V.
      * eapply ses_set_get; eassumption.
      * rewrite (v_snd _ _ _ _ _ _ V). apply (in_map fst) with (x := (i, s)). apply ses_get_in. exact G.
  - apply pick_none in E; [subst o; reflexivity|eauto].
  - apply timeout_some in E. destruct E as (s & s1 & o' & _ & _ & G & ST & -> & P). rewrite G, ST. cbn [logged].
    destruct (ainv_session _ _ _ _ _ _ _ V (ses_get_in _ _ _ G)) as (hash & LK & SV & _). assert (L : In (OLookup i hash) h) by (apply LK; reflexivity).
    pose proof (sinv_naming _ _ _ _ SV L) as N. eexists _, _. split; [reflexivity|]. split.
    + destruct (naming_named _ _ _ _ (fst k) N) as (id & -> & D). exists id. auto.
    + match goal with |- logged ?h' _ _ => eapply (result_logged h' _ i hash s1) in P end; cbn [a_sessions a_senders]; auto.
      * apply in_or_app. auto.
      * pose proof (sinv_timeout _ _ _ _ _ _ _ _ _ SV ST) as SV'. apply (sinv_naming _ _ _ _ SV'). apply in_or_app. auto.
      * eapply ses_set_get; eassumption.
      * rewrite (v_snd _ _ _ _ _ _ V). apply (in_map fst) with (x := (i, s)). apply ses_get_in. exact G.
  - apply pick_none in E; [subst o; reflexivity|eauto].
Qed.
Lemma run_logged lib l : forall h a a' o, history my_id v6 boot a h -> Forall wf_ev l -> arun a l = Some (a', o) -> logged h o (full_log lib a l).
Proof.
  induction l as [|e l IH]; intros h a a' o H W; cbn [arun full_log].
  - intros [= <- <-]. reflexivity.
  - inversion W as [|? ? We Wl]; subst. destruct (astep a e) as [[a1 o1]|] eqn:S; [|discriminate]. destruct (arun a1 l) as [[a2 o2]|] eqn:R; [|discriminate]. intros [= <- <-].
    apply logged_app; [eapply turn_logged; eassumption|]. eapply IH; [|exact Wl|exact R]. destruct H as (l0 & W0 & R0). exists (l0 ++ [e]). split; [apply Forall_app; auto|]. apply arun_app. exists a, h, o1. split; [exact R0|]. split; [|reflexivity]. cbn [arun]. rewrite S, app_nil_r. reflexivity.
Qed.
Lemma log_full lib l a h : Forall wf_ev l -> arun (actor_start my_id v6 boot) l = Some (a, h) -> logged [] h (full_log lib (actor_start my_id v6 boot) l).
Proof. intros W R. eapply run_logged; eauto. exists []. split; [constructor|reflexivity]. Qed.
End D.
