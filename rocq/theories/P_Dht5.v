From Verif Require Import Base BaseFacts M_Net M_Tracker M_DhtMsg S_Bencode S_Wire S_Http S_DhtMsg P_Wire P_DhtMsg M_Dht S_Async S_Dht P_Nursery P_Dht P_Dht2 P_Dht3 P_Dht4.
From Coq Require Import Permutation Sorted.

(** *** Where replies come from *)
Lemma send_outgoing_kinds a sid s oks a' o : send_outgoing a sid s oks = (a', o) -> forall x, In x o ->
  match x with OQuery i _ _ _ | OAnswer i _ => i = sid | _ => False end.
Proof.
  unfold send_outgoing. destruct (get_outgoing s (a_txn a)) as [[s1 t] qs].
  match goal with |- context [send_all ?z sid qs oks] => generalize z end. intros a1. destruct (send_all a1 sid qs oks) as [a2 o2] eqn:S. destruct (postprocess a2 sid) as [a3 o3] eqn:P.
  intros [= <- <-] x X. apply in_app_iff in X. destruct X as [X|X].
  - revert a1 oks a2 o2 S X P. induction qs as [|[addr q] qs IH]; intros a1 oks a2 o2 S X P; cbn [send_all] in S; [injection S as <- <-; destruct X|].
    destruct (send_query a1 sid addr q _) as [u o0] eqn:SQ. assert (O0 : exists ok, o0 = OQuery sid addr q ok) by (unfold send_query in SQ; injection SQ as _ <-; eauto).
    destruct (send_all u sid qs (tl oks)) as [a4 o4] eqn:S4. injection S as <- <-. destruct X as [<-|X]; [destruct O0 as (ok & ->); reflexivity|]. eapply IH; eauto.
  - unfold postprocess in P. destruct (ses_get (a_sessions a2) sid) as [s0|]; [|injection P as <- <-; destruct X]. destruct (get_result s0) as [r|]; [|injection P as <- <-; destruct X].
    injection P as <- <-. destruct (existsb _ _); [|destruct X]. destruct X as [<-|[]]. reflexivity.
Qed.
Lemma postprocess_kinds a sid a' o : postprocess a sid = (a', o) -> forall x, In x o -> match x with OAnswer i _ => i = sid | _ => False end.
Proof.
  unfold postprocess. intros P x X. destruct (ses_get (a_sessions a) sid) as [s0|]; [|injection P as <- <-; destruct X]. destruct (get_result s0) as [r|]; [|injection P as <- <-; destruct X].
  injection P as <- <-. destruct (existsb _ _); [|destruct X]. destruct X as [<-|[]]. reflexivity.
Qed.
(** A datagram handled: by a session that awaits it. *)
Lemma datagram_some a from msg sid oks a' o : astep a (ADatagram from msg (Some sid) oks) = Some (a', o) ->
  exists txn ty s s1 r o', a_running a = true /\ prescan msg = Some (txn, ty) /\ ty <> TQuery /\ ses_get (a_sessions a) sid = Some s /\ session_message s from txn msg = Some (s1, r) /\
    send_outgoing (with_sessions a (ses_set (a_sessions a) sid s1)) sid s1 oks = (a', o') /\ o = OReply sid from txn r :: o'.
Proof.
  unfold astep. destruct (a_running a) eqn:RUN; [|discriminate]. destruct (prescan msg) as [[txn ty]|]; [|discriminate].
  intros E. assert (NQ : ty <> TQuery) by (destruct ty; [discriminate|discriminate|discriminate]).
  assert (E' : match ses_get (a_sessions a) sid with
        | Some s => match session_message s from txn msg with
          | Some (s1, r) => let (a2, o) := send_outgoing (with_sessions a (ses_set (a_sessions a) sid s1)) sid s1 oks in Some (a2, OReply sid from txn r :: o)
          | None => None end
        | None => None end = Some (a', o)) by (destruct ty; [congruence|exact E|exact E]).
  destruct (ses_get (a_sessions a) sid) as [s|] eqn:G; [|discriminate]. destruct (session_message s from txn msg) as [[s1 r]|] eqn:SM; [|discriminate].
  destruct (send_outgoing _ sid s1 oks) as [a2 o2] eqn:SO. injection E' as <- <-. exists txn, ty, s, s1, r, o2. auto 10.
Qed.
Lemma timeout_some a k sid a' o : astep a (ATimeout k (Some sid)) = Some (a', o) ->
  exists s s1 o', a_running a = true /\ In k (a_timers a) /\ ses_get (a_sessions a) sid = Some s /\ session_timeout s k = Some s1 /\ o = OTimeout sid (fst k) (snd k) :: o' /\
    postprocess (mkA (a_id a) (a_v6 a) (a_txn a) (ses_set (a_sessions a) sid s1) (a_senders a) (a_next a) (key_remove k (a_timers a)) (a_boot a) true) sid = (a', o').
Proof.
  unfold astep. destruct (a_running a) eqn:RUN; [|discriminate]. destruct (key_mem k (a_timers a)) eqn:K; [|discriminate]. apply key_mem_in in K.
  destruct (ses_get (a_sessions a) sid) as [s|] eqn:G; [|discriminate]. destruct (session_timeout s k) as [s1|] eqn:ST; [|discriminate].
  unfold with_sessions. cbn [a_id a_v6 a_txn a_sessions a_senders a_next a_timers a_boot a_running].
  destruct (postprocess _ sid) as [a2 o2] eqn:P. intros [= <- <-]. exists s, s1, o2. auto 10.
Qed.
Lemma pick_none a e a' o : (exists from msg oks, e = ADatagram from msg None oks) \/ (exists k, e = ATimeout k None) -> astep a e = Some (a', o) -> o = [].
Proof.
  intros [(from & msg & oks & ->)|(k & ->)]; unfold astep; destruct (a_running a); try discriminate.
  - destruct (prescan msg) as [[txn [| |]]|]; try (intros [= _ <-]; reflexivity); destruct (existsb _ _); try discriminate; intros [= _ <-]; reflexivity.
  - destruct (key_mem k (a_timers a)); [|discriminate]. destruct (existsb _ _); [discriminate|]. intros [= _ <-]. reflexivity.
Qed.
Lemma step_replies a e a' o sid addr txn r : astep a e = Some (a', o) -> In (OReply sid addr txn r) o ->
  exists msg oks o', e = ADatagram addr msg (Some sid) oks /\ o = OReply sid addr txn r :: o' /\ ~ In (OReply sid addr txn r) o' /\
    decode_response msg = r /\ (exists ty, prescan msg = Some (txn, ty) /\ ty <> TQuery) /\ exists s, In (sid, s) (a_sessions a) /\ In (addr, txn) (ls_in_flight s).
Proof.
  intros E X. destruct e as [hash oks| |from msg [i|] oks|k [i|]].
  - unfold astep in E. destruct (a_running a); [|discriminate]. destruct (send_outgoing _ _ _ oks) as [a2 o2] eqn:S. injection E as <- <-. destruct X as [X|X]; [discriminate|]. destruct (send_outgoing_kinds _ _ _ _ _ _ S _ X).
  - unfold astep in E. destruct (a_running a); [|discriminate]. injection E as <- <-. apply in_map_iff in X. destruct X as (i & X & _). discriminate.
  - apply datagram_some in E. destruct E as (t & ty & s & s1 & r0 & o' & _ & PS & NQ & G & SM & SO & ->). destruct X as [X|X]; [|destruct (send_outgoing_kinds _ _ _ _ _ _ SO _ X)].
    injection X as -> -> -> ->. apply message_shape in SM. destruct SM as (K & -> & _). exists msg, oks, o'. conjs; eauto.
    + intros Y. destruct (send_outgoing_kinds _ _ _ _ _ _ SO _ Y).
    + exists s. split; [apply ses_get_in; exact G|exact K].
  - apply pick_none in E; [subst o; destruct X|eauto].
  - apply timeout_some in E. destruct E as (s & s1 & o' & _ & _ & _ & _ & -> & P). destruct X as [X|X]; [discriminate|]. destruct (postprocess_kinds _ _ _ _ P _ X).
  - apply pick_none in E; [subst o; destruct X|eauto].
Qed.
Lemma app_eq_split {A} (a b c d : list A) x : a ++ b = c ++ x :: d -> (exists m, a = c ++ x :: m /\ d = m ++ b) \/ (exists m, c = a ++ m /\ b = m ++ x :: d).
Proof.
  revert c. induction a as [|y a IH]; intros c E; cbn in E.
  - right. exists c. auto.
  - destruct c as [|z c]; cbn in E.
    + injection E as <- <-. left. exists a. auto.
    + injection E as -> E. destruct (IH _ E) as [(m & -> & ->)|(m & -> & ->)]; [left|right]; exists m; auto.
Qed.

Section D.
Context (my_id : bytes) (v6 : bool) (boot : list sockaddr).
Let sinv := sinv my_id v6 boot.
Let ainv := ainv my_id v6 boot.
Local Notation start := (actor_start my_id v6 boot).

Lemma arun_app l1 : forall l2 a a2 o2, arun a (l1 ++ l2) = Some (a2, o2) <-> exists a1 o1 o, arun a l1 = Some (a1, o1) /\ arun a1 l2 = Some (a2, o) /\ o2 = o1 ++ o.
Proof.
  induction l1 as [|e l1 IH]; intros l2 a a2 o2; cbn [app arun].
  - split; [intros E; exists a, [], o2; auto|]. intros (a1 & o1 & o & [= <- <-] & E & ->). exact E.
  - destruct (astep a e) as [[a0 o0]|]; [|split; [discriminate|intros (? & ? & ? & X & _); discriminate]]. split.
    + destruct (arun a0 (l1 ++ l2)) as [[a3 o3]|] eqn:R; [|discriminate]. intros [= <- <-]. apply IH in R. destruct R as (a1 & o1 & o & E1 & E2 & ->). exists a1, (o0 ++ o1), o. rewrite E1, app_assoc. auto.
    + intros (a1 & o1 & o & E1 & E2 & ->). destruct (arun a0 l1) as [[a3 o3]|] eqn:R; [|discriminate]. injection E1 as <- <-. rewrite (proj2 (IH l2 a0 a2 (o3 ++ o)) (ex_intro _ a3 (ex_intro _ o3 (ex_intro _ o (conj R (conj E2 eq_refl)))))). rewrite app_assoc. reflexivity.
Qed.
Lemma reply_origin l : forall a h, Forall wf_ev l -> arun start l = Some (a, h) -> forall h1 sid addr txn r h2, h = h1 ++ OReply sid addr txn r :: h2 ->
  exists l1 msg oks l2 a1, l = l1 ++ ADatagram addr msg (Some sid) oks :: l2 /\ arun start l1 = Some (a1, h1) /\ decode_response msg = r /\
    (exists ty, prescan msg = Some (txn, ty) /\ ty <> TQuery) /\ awaiting h1 sid addr txn.
Proof.
  induction l as [|e l IH] using rev_ind; intros a h WF R h1 sid addr txn r h2 E.
  - cbn in R. injection R as <- <-. destruct h1; discriminate.
  - apply Forall_app in WF. destruct WF as (WF & WE). apply arun_app in R. destruct R as (a1 & o1 & o & R1 & R2 & ->). cbn [arun] in R2. destruct (astep a1 e) as [[a2 o2]|] eqn:ST; [|discriminate]. injection R2 as <- <-. rewrite app_nil_r in E.
    apply app_eq_split in E. destruct E as [(m & E & _)|(m & -> & E)].
    + destruct (IH _ _ WF R1 _ _ _ _ _ _ E) as (l1 & msg & oks & l2 & a3 & -> & Q). exists l1, msg, oks, (l2 ++ [e]), a3. rewrite <- app_assoc. auto.
    + assert (X : In (OReply sid addr txn r) o2) by (rewrite E; apply in_or_app; right; left; reflexivity).
      destruct (step_replies _ _ _ _ _ _ _ _ ST X) as (msg & oks & o' & -> & E2 & N & D & PS & s & IN & FL).
      assert (m = []). { destruct m as [|y m]; [reflexivity|]. exfalso. rewrite E2 in E. injection E as _ E. apply N. rewrite E. apply in_or_app. right. left. reflexivity. }
      subst m. rewrite app_nil_r. exists l, msg, oks, [], a1. conjs; auto.
      assert (V : ainv None o1 a1) by (apply history_inv; exists l; auto). destruct (ainv_session _ _ _ _ _ _ _ V IN) as (hash & _ & SI & _). apply (s_fl _ _ _ _ _ _ _ SI). exact FL.
Qed.
Lemma told_wf a h sid n : history my_id v6 boot a h -> In n (told h sid) -> length (nd_id n) = 20%nat /\ wf_sa (node_address n).
Proof.
  intros (l & WF & R) X. unfold told in X. apply in_flat_map in X. destruct X as (x & X & Y). destruct x as [? ?|? ? ? ?|i addr txn [r|?]|? ? ?|? ?|?]; try destruct Y.
  destruct (Nat.eqb_spec i sid) as [->|NE]; [|destruct Y]. apply in_split in X. destruct X as (h1 & h2 & E).
  destruct (reply_origin _ _ _ WF R _ _ _ _ _ _ E) as (l1 & msg & oks & l2 & a1 & _ & _ & D & _). apply response_iff in D. destruct D as (d & _ & _ & _ & _ & _ & rd & vs & n4 & n6 & _ & _ & _ & _ & _ & F4 & E4 & F6 & E6).
  assert (G : forall b k o, field (compact_nodes b) k rd o -> In n (of_option o) -> length (nd_id n) = 20%nat /\ wf_sa (node_address n)).
  { intros b k o F IN. unfold field in F. destruct (lookup k rd) as [v|], o as [ns|]; try destruct F; try destruct IN. rename x into parts. destruct H as (_ & F). cbn [of_option] in IN.
    clear - F IN. induction F as [|p m ps ms H F IH]; [destruct IN|]. destruct IN as [->|IN]; [|auto]. destruct H as (w & _ & L & C & _). split; [exact L|].
    apply compact_wf in C. exact C. }
  rewrite E4, E6 in Y. apply in_app_iff in Y. destruct Y as [Y|Y]; [apply (G _ _ _ F4 Y)|apply (G _ _ _ F6 Y)].
Qed.

(** *** Lookups *)
Lemma history_lookup a h sid hash : history my_id v6 boot a h -> In (OLookup sid hash) h -> (sid < a_next a)%nat /\ looked h sid hash /\ lstate my_id v6 boot h a sid hash.
Proof.
  intros H X. apply history_inv in H as V. assert (L := v_sids _ _ _ _ _ _ V _ X). cbn in L. split; [exact L|].
  destruct (v_look _ _ _ _ _ _ V sid L ltac:(discriminate)) as (hash' & LK & LS). assert (hash = hash') as -> by (apply LK; exact X). auto.
Qed.
Lemma lookup_session a h sid hash : history my_id v6 boot a h -> In (OLookup sid hash) h -> exists s, sinv h sid hash s /\ ls_to_query s = [] /\ (forall r, In r (answers h sid) -> r = result_of s) /\ length hash = 20%nat.
Proof.
  intros H X. destruct (history_lookup _ _ _ _ H X) as (L & (L20 & _) & [(s & _ & A & B & _ & C & _)|(_ & s & A & B & [(_ & C & _)|(_ & C & _)])]); exists s; rewrite C; conjs; auto; intros r Y; cbn [In] in Y; destruct Y as [<-|Y] || destruct Y; [reflexivity|destruct Y].
Qed.
Lemma asked_rest a h sid hash : history my_id v6 boot a h -> In (OLookup sid hash) h ->
  exists rest, asked h sid = boot ++ rest /\ NoDup rest /\ forall x, In x rest -> In x (map node_address (told h sid)).
Proof.
  intros H X. destruct (lookup_session _ _ _ _ H X) as (s & SI & Q & _). destruct (s_space _ _ _ _ _ _ _ SI) as (rest & E & SP). rewrite Q, app_nil_r in E. exists rest.
  split; [exact E|]. split; [apply SP|apply SP].
Qed.
Lemma asked_bound a h sid hash ns : history my_id v6 boot a h -> In (OLookup sid hash) h -> known_nodes h sid ns -> (length (asked h sid) <= length boot + length ns)%nat.
Proof.
  intros H X K. destruct (asked_rest _ _ _ _ H X) as (rest & -> & ND & IN). rewrite app_length. apply Nat.add_le_mono_l. rewrite <- (map_length node_address ns).
  apply NoDup_incl_length; [exact ND|]. intros x Y. apply (firsts_keys _ _ _ K). apply IN. exact Y.
Qed.
(** *** The result *)
Lemma StronglySorted_firstn {A} (R : A -> A -> Prop) l k : StronglySorted R l -> StronglySorted R (firstn k l).
Proof.
  revert k. induction l as [|x l IH]; intros [|k] S; cbn; try constructor; inversion S as [|? ? S1 S2]; subst; [apply IH; exact S1|].
  rewrite Forall_forall in *. intros y Y. apply S2. rewrite <- (firstn_skipn k l). apply in_or_app. auto.
Qed.
Lemma StronglySorted_filter {A} (R : A -> A -> Prop) l p : StronglySorted R l -> StronglySorted R (filter p l).
Proof.
  induction l as [|x l IH]; intros S; cbn; [constructor|]. inversion S as [|? ? S1 S2]; subst. destruct (p x); [|auto]. constructor; [auto|]. rewrite Forall_forall in *. intros y Y. apply S2. apply filter_In in Y. tauto.
Qed.
Lemma StronglySorted_map {A B} (f : A -> B) (R : A -> A -> Prop) (S : B -> B -> Prop) l : (forall x y, In x l -> In y l -> R x y -> S (f x) (f y)) -> StronglySorted R l -> StronglySorted S (map f l).
Proof.
  intros H. induction l as [|x l IH]; intros SS; cbn; [constructor|]. inversion SS as [|? ? S1 S2]; subst. constructor.
  - apply IH; [|exact S1]. intros y z Y Z. apply H; right; auto.
  - rewrite Forall_forall in *. intros y Y. apply in_map_iff in Y. destruct Y as (z & <- & Z). apply H; [left; reflexivity|right; exact Z|]. auto.
Qed.
Lemma sorted_split {A} (R : A -> A -> Prop) l1 l2 : StronglySorted R (l1 ++ l2) -> forall x y, In x l1 -> In y l2 -> R x y.
Proof.
  induction l1 as [|z l1 IH]; intros S x y X Y; [destruct X|]. cbn in S. inversion S as [|? ? S1 S2]; subst. destruct X as [->|X]; [|eapply IH; eauto].
  rewrite Forall_forall in S2. apply S2. apply in_or_app. auto.
Qed.
Lemma dist_x hash i : length hash = 20%nat -> length (nd_id (ni_node i)) = 20%nat -> be_val (dist hash i) = xdist hash (ni_node i).
Proof. intros A B. apply distance_val. congruence. Qed.
Lemma dle_x hash i j : length hash = 20%nat -> length (nd_id (ni_node i)) = 20%nat -> length (nd_id (ni_node j)) = 20%nat -> (dle hash i j <-> xdist hash (ni_node i) <= xdist hash (ni_node j)).
Proof. intros A B C. unfold dle, dist, xdist. rewrite distance_lt by congruence. apply N.ltb_ge. Qed.

Record result_spec (h : list aobs) (sid : nat) (hash : bytes) (ns : list node) : Prop := {
  t_len : (length ns <= 8)%nat;
  t_sorted : StronglySorted (fun m n => xdist hash m <= xdist hash n) ns;
  t_nodup : NoDup (map node_address ns);
  t_known : exists kn, known_nodes h sid kn /\ incl ns kn;
  t_sound : forall n, In n ns -> exists m, responded h sid m /\ nd_id m = nd_id n;
  t_complete : forall n, responded h sid n -> (length ns < 8)%nat \/ (exists m, In m ns /\ xdist hash n < xdist hash m) -> exists m, In m ns /\ nd_id m = nd_id n }.
Lemma flat_known h sid hash rest s i kn : spinv hash (told h sid) (Rh h sid) rest (ls_nodes s) -> known_nodes h sid kn -> In i (flat (sp_nodes (ls_nodes s))) -> In (ni_node i) kn.
Proof.
  intros SP K X. destruct (p_known _ _ _ _ _ SP) as (ns & F & P & _). rewrite (firsts_fun _ _ _ K _ F). apply (Permutation_in _ P). apply in_map. exact X.
Qed.
Lemma responded_known h sid n kn : responded h sid n -> known_nodes h sid kn -> In n kn.
Proof.
  intros (h1 & t & r & h2 & ns & -> & K & IN) KN. unfold known_nodes in *. rewrite told_app in KN. revert kn KN. generalize (told (OReply sid (node_address n) t (Ok r) :: h2) sid). intros l.
  induction l as [|x l IH] using rev_ind; intros kn KN.
  - rewrite app_nil_r in KN. rewrite <- (firsts_fun _ _ _ K _ KN). exact IN.
  - rewrite app_assoc in KN. inversion KN as [A B|l' o' x' F' IN' A B|l' o' x' F' IN' A B].
    + apply (f_equal (@length _)) in A. rewrite app_length in A. cbn in A. lia.
    + apply app_inj_tail in A. destruct A as (-> & ->). apply IH. congruence.
    + apply app_inj_tail in A. destruct A as (-> & ->). apply in_or_app. left. apply IH. exact F'.
Qed.
Lemma result_nodes a h sid hash r : history my_id v6 boot a h -> In (OLookup sid hash) h -> In r (answers h sid) ->
  exists ns, fp_nodes r = map node_address ns /\ result_spec h sid hash ns.
Proof.
  intros H X R. destruct (lookup_session _ _ _ _ H X) as (s & SI & Q & RS & L20). rewrite (RS _ R). clear R. destruct (s_space _ _ _ _ _ _ _ SI) as (rest & E & SP).
  destruct (p_known _ _ _ _ _ SP) as (kn & F & P & _). set (fs := flat (sp_nodes (ls_nodes s))) in *.
  assert (IDL : forall i, In i fs -> length (nd_id (ni_node i)) = 20%nat).
  { intros i IN. apply (told_wf _ _ sid _ H). apply keys_nodup in F. apply F. apply (Permutation_in _ P). apply in_map. exact IN. }
  assert (SS := wfm_sorted _ _ (p_wfm _ _ _ _ _ SP)). fold fs in SS.
  exists (closest_responsive CLOSEST (ls_nodes s)). split; [reflexivity|]. unfold closest_responsive. fold (flat (sp_nodes (ls_nodes s))). fold fs. set (rs := filter ni_responsive fs).
  assert (INR : forall i, In i (firstn CLOSEST rs) -> In i fs /\ ni_responsive i = true).
  { intros i IN. assert (Y : In i rs) by (rewrite <- (firstn_skipn CLOSEST rs); apply in_or_app; auto). apply filter_In in Y. exact Y. }
  constructor.
  - rewrite map_length, firstn_length. unfold CLOSEST. lia.
  - apply (StronglySorted_map _ (dle hash)); [|apply StronglySorted_firstn, StronglySorted_filter; exact SS]. intros i j A B. apply INR in A. apply INR in B. apply dle_x; auto; apply IDL; tauto.
  - rewrite map_map, <- firstn_map. apply NoDup_firstn. apply map_filter_nodup. apply (flat_nodup _ _ _ _ _ SP).
  - exists kn. split; [exact F|]. intros n Y. apply in_map_iff in Y. destruct Y as (i & <- & Y). apply INR in Y. apply (Permutation_in _ P). apply in_map. tauto.
  - intros n Y. apply in_map_iff in Y. destruct Y as (i & <- & Y). apply INR in Y. destruct Y as (Y1 & Y2). apply (p_r1 _ _ _ _ _ SP _ Y1 Y2).
  - intros n RN C. destruct (p_r2 _ _ _ _ _ SP (nd_id n)) as (i & I1 & I2 & I3); [exists n; auto|]. fold fs in I1.
    exists (ni_node i). split; [|exact I2]. apply in_map. assert (IR : In i rs) by (apply filter_In; auto). rewrite <- (firstn_skipn CLOSEST rs) in IR. apply in_app_iff in IR.
    destruct IR as [IR|IR]; [exact IR|]. exfalso. destruct C as [C|(m & M & LT)].
    + rewrite map_length, firstn_length in C. assert (Z : skipn CLOSEST rs = []) by (apply skipn_all2; unfold CLOSEST in *; lia). rewrite Z in IR. destruct IR.
    + apply in_map_iff in M. destruct M as (j & <- & M). assert (SR : StronglySorted (dle hash) rs) by (apply StronglySorted_filter; exact SS). rewrite <- (firstn_skipn CLOSEST rs) in SR.
      assert (D := sorted_split _ _ _ SR _ _ M IR). apply dle_x in D; [| exact L20| |].
      * unfold xdist in *. rewrite I2 in D. lia.
      * apply IDL. apply INR in M. tauto.
      * apply IDL. exact I1.
Qed.
Lemma result_exact a h sid hash r kn : history my_id v6 boot a h -> In (OLookup sid hash) h -> In r (answers h sid) -> known_nodes h sid kn -> NoDup (map nd_id kn) ->
  exists ns, fp_nodes r = map node_address ns /\ (forall n, In n ns -> responded h sid n) /\
    forall n, responded h sid n -> (length ns < 8)%nat \/ (exists m, In m ns /\ xdist hash n < xdist hash m) -> In n ns.
Proof.
  intros H X R K ND. destruct (result_nodes _ _ _ _ _ H X R) as (ns & E & T). exists ns. split; [exact E|]. destruct (t_known _ _ _ _ T) as (kn' & K' & INC). rewrite (firsts_fun _ _ _ K' _ K) in INC.
  assert (INJ : forall m n, In m kn -> In n kn -> nd_id m = nd_id n -> m = n).
  { clear - ND. induction kn as [|x l IH]; intros m n M N E; [destruct M|]. cbn in ND. inversion ND as [|? ? N1 N2]; subst. destruct M as [<-|M], N as [<-|N]; auto.
    - exfalso. apply N1. rewrite E. apply in_map. exact N.
    - exfalso. apply N1. rewrite <- E. apply in_map. exact M. }
  split.
  - intros n IN. destruct (t_sound _ _ _ _ T _ IN) as (m & RM & E2). assert (m = n); [|subst; exact RM]. apply INJ; auto. eapply responded_known; eauto.
  - intros n RN C. destruct (t_complete _ _ _ _ T _ RN C) as (m & M & E2). assert (m = n); [|subst; exact M]. apply INJ; auto. eapply responded_known; eauto.
Qed.
Lemma result_responded a h sid hash r kn x : history my_id v6 boot a h -> In (OLookup sid hash) h -> In r (answers h sid) -> known_nodes h sid kn -> NoDup (map nd_id kn) ->
  In x (fp_nodes r) -> exists txn rsp, In (OReply sid x txn (Ok rsp)) h.
Proof.
  intros H X R K ND Y. destruct (result_exact _ _ _ _ _ _ H X R K ND) as (ns & E & S & _). rewrite E in Y. apply in_map_iff in Y. destruct Y as (n & <- & Y).
  apply S in Y. destruct Y as (h1 & t & rsp & h2 & ns' & -> & _). exists t, rsp. apply in_or_app. right. left. reflexivity.
Qed.
Lemma result_peers a h sid hash r : history my_id v6 boot a h -> In (OLookup sid hash) h -> In r (answers h sid) ->
  NoDup (fp_peers r) /\ forall p, In p (fp_peers r) <-> exists addr txn rsp, In (OReply sid addr txn (Ok rsp)) h /\ In p (gr_values rsp).
Proof.
  intros H X R. destruct (lookup_session _ _ _ _ H X) as (s & SI & Q & RS & L20). rewrite (RS _ R). destruct (s_peers _ _ _ _ _ _ _ SI) as (A & B). split; [exact A|]. intros p. cbn [result_of fp_peers]. rewrite B.
  unfold given. rewrite in_flat_map. split.
  - intros (x & I1 & I2). destruct x as [? ?|? ? ? ?|i addr txn [rsp|?]|? ? ?|? ?|?]; try destruct I2. destruct (Nat.eqb_spec i sid) as [->|]; [|destruct I2]. eauto.
  - intros (addr & txn & rsp & I1 & I2). exists (OReply sid addr txn (Ok rsp)). split; [exact I1|]. rewrite Nat.eqb_refl. exact I2.
Qed.
(** *** Transaction ids *)
Lemma txn_nth a h i t : history my_id v6 boot a h -> nth_error (txns h) i = Some t -> t = be_bytes 4 (N.of_nat i mod 2 ^ 32).
Proof.
  intros H. apply history_inv in H. rewrite (v_txns _ _ _ _ _ _ H). intros E. pose proof (nth_error_Some (map (fun i => txn_bytes (N.of_nat i mod 2 ^ 32)) (seq 0 (length (txns h)))) i) as L. rewrite E in L.
  rewrite map_length, seq_length in L. assert (L' : (i < length (txns h))%nat) by (apply L; discriminate).
  rewrite (map_nth_error _ i (seq 0 (length (txns h))) (d := i)) in E; [unfold txn_bytes in E; congruence|]. rewrite nth_error_nth' with (d := O) by (rewrite seq_length; exact L'). f_equal. rewrite seq_nth by exact L'. reflexivity.
Qed.
Lemma txn_distinct a h i j s t : history my_id v6 boot a h -> nth_error (txns h) i = Some s -> nth_error (txns h) j = Some t -> N.of_nat i < N.of_nat j -> N.of_nat j < N.of_nat i + 2 ^ 32 -> s <> t.
Proof.
  intros H A B L1 L2 E. apply (txn_nth _ _ _ _ H) in A. apply (txn_nth _ _ _ _ H) in B. subst s t. apply (f_equal be_val) in E. rewrite !be_val_be_bytes in E.
  change (256 ^ N.of_nat 4) with (2 ^ 32) in E. rewrite !N.mod_mod in E by discriminate. revert E L1 L2. generalize (N.of_nat i) (N.of_nat j). clear. intros x y E L1 L2.
  assert (P : 2 ^ 32 <> 0) by discriminate. pose proof (N.div_mod x _ P). pose proof (N.div_mod y _ P). pose proof (N.mod_lt x _ P). pose proof (N.mod_lt y _ P). rewrite E in *.
  set (q := 2 ^ 32) in *. clearbody q. assert (x / q < y / q) by nia. nia.
Qed.
End D.
