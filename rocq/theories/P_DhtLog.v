(** Lemmas on the log of lookups (C119). *)
From Coq Require Import Lia.
From Verif Require Import Base M_Net M_Tracker M_DhtMsg M_Dht M_Log M_DhtLog S_Async S_Dht S_DhtLog P_Dht P_Dht2 P_Dht3 P_Dht4 P_Dht5.
Local Open Scope nat_scope.

Lemma no_replies o : (forall x, In x o -> match x with OReply _ _ _ _ => False | _ => True end) -> replies o = 0.
Proof.
  unfold replies. induction o as [|x o IH]; intros H; [reflexivity|]. cbn [filter]. pose proof (H x (or_introl eq_refl)) as X.
  destruct x; try contradiction; apply IH; intros y Y; apply H; right; exact Y.
Qed.
Lemma step_len lib a e a' o : astep a e = Some (a', o) -> length (step_log lib a e) = replies o.
Proof.
  intros E. destruct e as [hash oks| |from msg [i|] oks|k [i|]]; cbn [step_log].
  - unfold astep in E. destruct (a_running a); [|discriminate]. destruct (send_outgoing _ _ _ oks) as [a2 o2] eqn:S. injection E as <- <-.
    symmetry. apply no_replies. intros x [<-|X]; [exact I|]. pose proof (send_outgoing_kinds _ _ _ _ _ _ S _ X). destruct x; auto.
  - unfold astep in E. destruct (a_running a); [|discriminate]. injection E as <- <-. symmetry. apply no_replies. intros x X. apply in_map_iff in X. destruct X as (? & <- & _). exact I.
  - apply datagram_some in E. destruct E as (t & ty & s & s1 & r0 & o' & _ & PS & NQ & G & SM & SO & ->). rewrite G. cbn [length].
    unfold replies. cbn [filter length]. f_equal. symmetry. apply no_replies. intros x X. pose proof (send_outgoing_kinds _ _ _ _ _ _ SO _ X). destruct x; auto.
  - apply pick_none in E; [subst o; reflexivity|eauto].
  - apply timeout_some in E. destruct E as (s & s1 & o' & _ & _ & _ & _ & -> & P). symmetry. apply no_replies. intros x [<-|X]; [exact I|]. pose proof (postprocess_kinds _ _ _ _ P _ X). destruct x; auto.
  - apply pick_none in E; [subst o; reflexivity|eauto].
Qed.
Lemma replies_app a b : replies (a ++ b) = replies a + replies b.
Proof. unfold replies. rewrite filter_app, app_length. reflexivity. Qed.
Lemma log_len lib l : forall a a' h, arun a l = Some (a', h) -> length (dht_log lib a l) = replies h.
Proof.
  induction l as [|e l IH]; intros a a' h; cbn [arun dht_log].
  - intros [= <- <-]. reflexivity.
  - destruct (astep a e) as [[a1 o1]|] eqn:S; [|discriminate]. destruct (arun a1 l) as [[a2 o2]|] eqn:R; [|discriminate]. intros [= <- <-].
    rewrite app_length, replies_app, (step_len lib _ _ _ _ S), (IH _ _ _ R). reflexivity.
Qed.
Lemma log_app lib l1 : forall l2 a a1 h1, arun a l1 = Some (a1, h1) -> dht_log lib a (l1 ++ l2) = dht_log lib a l1 ++ dht_log lib a1 l2.
Proof.
  induction l1 as [|e l IH]; intros l2 a a1 h1; cbn [arun dht_log app].
  - intros [= <- <-]. reflexivity.
  - destruct (astep a e) as [[a2 o1]|] eqn:S; [|discriminate]. destruct (arun a2 l) as [[a3 o2]|] eqn:R; [|discriminate]. intros [= <- <-].
    rewrite (IH l2 _ _ _ R), app_assoc. reflexivity.
Qed.
Section Log.
Context (my_id : bytes) (v6 : bool) (boot : list sockaddr) (lib : bytes -> foreign).
Lemma log_says l a h : Forall wf_ev l -> arun (actor_start my_id v6 boot) l = Some (a, h) ->
  length (dht_log lib (actor_start my_id v6 boot) l) = replies h /\
  forall h1 sid from txn r h2, h = h1 ++ OReply sid from txn r :: h2 ->
  exists hash kn x, In (OLookup sid hash) h1 /\ known_nodes h1 sid kn /\
    nth_error (dht_log lib (actor_start my_id v6 boot) l) (replies h1) = Some x /\ says kn hash from r x.
Proof.
  intros W R. split; [exact (log_len lib _ _ _ _ R)|]. intros h1 sid from txn r h2 E.
  destruct (reply_origin _ _ _ _ _ _ W R _ _ _ _ _ _ E) as (l1 & msg & oks & l2 & a1 & EL & R1 & D & _ & _).
  rewrite EL in R |- *. assert (W1 : Forall wf_ev l1) by (rewrite EL in W; apply Forall_app in W; apply W).
  assert (H1 : history my_id v6 boot a1 h1) by (exists l1; auto).
  apply arun_app in R. destruct R as (a1' & o1 & o & R1' & R2 & EO). rewrite R1 in R1'. injection R1' as <- <-.
  cbn [arun] in R2. destruct (astep a1 _) as [[a2 o2]|] eqn:ST; [|discriminate].
  rewrite (log_app lib _ _ _ _ _ R1). pose proof (log_len lib _ _ _ _ R1) as LL.
  pose proof (datagram_some _ _ _ _ _ _ _ ST) as (t & ty & s & s1 & r0 & o' & _ & PS & NQ & G & SM & SO & EO2).
  pose proof (ainv_session _ _ _ _ _ _ _ (history_inv _ _ _ _ _ H1) (ses_get_in _ _ _ G)) as (hash & LK & V & _).
  destruct (s_space _ _ _ _ _ _ _ V) as (rest & _ & SP). destruct (p_known _ _ _ _ _ SP) as (kn & K1 & _ & K3).
  exists hash, kn, (reply_record lib s from msg). split; [apply LK; reflexivity|]. split; [exact K1|]. split.
  - cbn [dht_log]. rewrite ST. cbn [step_log]. rewrite G. rewrite nth_error_app2 by lia. rewrite LL, Nat.sub_diag. reflexivity.
  - unfold says, reply_record, addr2display. destruct (addr_get (sp_addr (ls_nodes s)) from) as [n|] eqn:AG.
    + pose proof (proj1 (K3 _ _) AG) as (I & A). exists (Some (nd_id n)). split.
      * intros i. split; [intros [= <-]; eauto|]. intros (m & M & MA & <-). assert (X : addr_get (sp_addr (ls_nodes s)) from = Some m) by (apply K3; auto). congruence.
      * rewrite D, A, (p_hash _ _ _ _ _ SP). destruct r as [rsp|[]]; eauto. rewrite app_length. reflexivity.
    + exists None. split.
      * intros i. split; [discriminate|]. intros (m & M & MA & <-). assert (X : addr_get (sp_addr (ls_nodes s)) from = Some m) by (apply K3; auto). congruence.
      * rewrite D, (p_hash _ _ _ _ _ SP). destruct r as [rsp|[]]; eauto. rewrite app_length. reflexivity.
Qed.
End Log.
