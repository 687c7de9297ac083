From Verif Require Import Base BaseFacts M_Async S_Async.

Ltac conjs_ := repeat match goal with |- _ /\ _ => split end.
Section U.
Context {A K : Type} (eqb : K -> K -> bool) (key : A -> K) (eqb_spec : forall a b, eqb a b = true <-> a = b).
Lemma seen_spec k seen : existsb (eqb k) seen = true <-> In k seen.
Proof. rewrite existsb_exists. split; [intros (x & IN & E); apply eqb_spec in E; subst; exact IN|intros IN; exists k; split; [exact IN|apply eqb_spec; reflexivity]]. Qed.
(** What has been consumed and yielded so far. *)
Definition good (seen : list K) (before out : list A) : Prop :=
  firsts key before out /\ forall k, In k seen <-> In k (map key before).
Lemma poll_next_spec inner : forall seen before out, good seen before out ->
  let '(p, seen', inner') := poll_next eqb key seen inner in
  exists used, inner = used ++ inner' /\ good seen' (before ++ items used) (out ++ items [p]) /\
    match p with
    | Pending => inner' = [] /\ ~ In Ended used \/ exists u, used = u ++ [Pending] /\ ~ In Ended u
    | Item _ => ~ In Ended used
    | Ended => exists u, used = u ++ [Ended] /\ ~ In Ended u
    end.
Proof.
  induction inner as [|p r IH]; intros seen before out G; cbn [poll_next].
  - exists []. cbn [items flat_map app]. rewrite !app_nil_r. split; [reflexivity|]. split; [exact G|]. left. split; [reflexivity|intros []].
  - destruct p as [|v|].
    + exists [Pending]. cbn [items flat_map app]. rewrite !app_nil_r. split; [reflexivity|]. split; [exact G|]. right. exists []. split; [reflexivity|intros []].
    + destruct (existsb (eqb (key v)) seen) eqn:E.
      * assert (G' : good seen (before ++ [v]) out).
        { destruct G as (F & S). assert (IN : In (key v) (map key before)) by (apply S, seen_spec, E). split.
          - apply f_old; assumption.
          - intros k. rewrite map_app, in_app_iff. cbn [map In]. rewrite S. split; [auto|intros [X|[<-|[]]]; auto]. }
        specialize (IH _ _ _ G'). destruct (poll_next eqb key seen r) as [[p seen'] inner']. destruct IH as (used & -> & G2 & Z).
        exists (Item v :: used). cbn [items flat_map app] in *. split; [reflexivity|]. split.
        -- rewrite <- app_assoc in G2. exact G2.
        -- destruct p.
           ++ destruct Z as [(-> & Z)|(u & -> & Z)]; [left; split; [reflexivity|intros [X|X]; [discriminate|auto]]|].
              right. exists (Item v :: u). split; [reflexivity|intros [X|X]; [discriminate|auto]].
           ++ intros [X|X]; [discriminate|auto].
           ++ destruct Z as (u & -> & Z). exists (Item v :: u). split; [reflexivity|intros [X|X]; [discriminate|auto]].
      * exists [Item v]. cbn [items flat_map app]. split; [reflexivity|]. split; [|intros [X|[]]; discriminate].
        destruct G as (F & S). split.
        -- apply f_new; [exact F|]. intros IN. apply S, seen_spec in IN. congruence.
        -- intros k. rewrite map_app, in_app_iff. cbn [map In]. rewrite S. tauto.
    + exists [Ended]. cbn [items flat_map app]. rewrite !app_nil_r. split; [reflexivity|]. split; [exact G|]. exists []. split; [reflexivity|intros []].
Qed.
Lemma items_app (a b : list (poll A)) : items (a ++ b) = items a ++ items b.
Proof. apply flat_map_app. Qed.
(** After any number of polls the items yielded are the firsts of the items received. *)
Lemma polls_prefix n : forall seen inner before out, good seen before out ->
  exists used rest, inner = used ++ rest /\ firsts key (before ++ items used) (out ++ items (polls eqb key n seen inner)).
Proof.
  induction n as [|n IH]; intros seen inner before out G; cbn [polls].
  - exists [], inner. cbn [items flat_map]. rewrite !app_nil_r. split; [reflexivity|apply G].
  - pose proof (poll_next_spec inner seen before out G) as P. destruct (poll_next eqb key seen inner) as [[p seen'] inner'].
    destruct P as (used & -> & G2 & _). destruct (IH seen' inner' _ _ G2) as (u2 & rest & -> & F).
    exists (used ++ u2), rest. rewrite app_assoc, items_app, app_assoc. split; [reflexivity|].
    change (p :: polls eqb key n seen' (u2 ++ rest)) with ([p] ++ polls eqb key n seen' (u2 ++ rest)). rewrite items_app, app_assoc. exact F.
Qed.
Lemma good_nil : good [] [] [].
Proof. split; [constructor|]. intros k. reflexivity. Qed.
Lemma unique_prefix n inner : exists used rest, inner = used ++ rest /\ firsts key (items used) (items (polls eqb key n [] inner)).
Proof. apply (polls_prefix n [] inner [] [] good_nil). Qed.
(** At the end all of them. *)
Lemma polls_ended n : forall seen inner before out, good seen before out -> well_formed inner -> In Ended (polls eqb key n seen inner) ->
  exists m, (m <= n)%nat /\ firsts key (before ++ items inner) (out ++ items (polls eqb key m seen inner)) /\ polls eqb key m seen inner = firstn m (polls eqb key n seen inner)
    /\ exists q, polls eqb key m seen inner = q ++ [Ended].
Proof.
  induction n as [|n IH]; intros seen inner before out G WF IN; cbn [polls] in IN; [destruct IN|].
  pose proof (poll_next_spec inner seen before out G) as P. destruct (poll_next eqb key seen inner) as [[p seen'] inner'] eqn:E.
  destruct P as (used & EQ & G2 & Z).
  assert (GO : p <> Ended -> exists m, (m <= S n)%nat /\ firsts key (before ++ items inner) (out ++ items (polls eqb key m seen inner)) /\
    polls eqb key m seen inner = firstn m (polls eqb key (S n) seen inner) /\ exists q, polls eqb key m seen inner = q ++ [Ended]).
  { intros NE. assert (WF' : well_formed inner').
    { destruct WF as (l0 & EL & NI). rewrite EQ in EL.
      assert (NU : ~ In Ended used).
      { destruct p; [destruct Z as [(_ & Z)|(u & -> & Z)]; [exact Z|rewrite in_app_iff; intros [X|[X|[]]]; [auto|discriminate]]|exact Z|congruence]. }
      destruct (exists_last (l := inner')) as (l1 & x & E1).
      - intros ->. rewrite app_nil_r in EL. apply NU. rewrite EL. apply in_or_app. right. left. reflexivity.
      - rewrite E1, app_assoc in EL. apply app_inj_tail in EL. destruct EL as (EL & EX). subst x. exists l1. split; [exact E1|].
        intros X. apply NI. rewrite <- EL. apply in_or_app. right. exact X. }
    destruct IN as [IN|IN]; [congruence|]. destruct (IH seen' inner' _ _ G2 WF' IN) as (m & LE & F & FN & q & EQ2).
    exists (S m). split; [lia|]. cbn [polls firstn]. rewrite E.
    assert (IT : items inner = items used ++ items inner') by (rewrite EQ; apply items_app).
    rewrite IT. conjs_.
    - change (p :: polls eqb key m seen' inner') with ([p] ++ polls eqb key m seen' inner'). rewrite items_app, !app_assoc. exact F.
    - f_equal. exact FN.
    - exists (p :: q). rewrite EQ2. reflexivity. }
  destruct p; try (apply GO; discriminate).
  destruct Z as (u & -> & NU). exists 1%nat. split; [lia|]. cbn [polls firstn]. rewrite E.
  destruct WF as (l0 & EL & NI).
  assert (inner' = []) as ->.
  { destruct inner' as [|x t] using rev_ind; [reflexivity|]. exfalso. rewrite EQ, app_assoc in EL. apply app_inj_tail in EL. destruct EL as (EL & _).
    apply NI. rewrite <- EL. rewrite !in_app_iff. left. right. left. reflexivity. }
  rewrite app_nil_r in EQ. rewrite EQ. conjs_; [exact (proj1 G2)|reflexivity|exists []; reflexivity].
Qed.
Lemma unique_complete n inner : well_formed inner -> In Ended (polls eqb key n [] inner) ->
  exists q r, polls eqb key n [] inner = q ++ Ended :: r /\ firsts key (items inner) (items q).
Proof.
  intros WF IN. destruct (polls_ended n [] inner [] [] good_nil WF IN) as (m & LE & F & FN & q & EQ).
  exists q, (skipn m (polls eqb key n [] inner)). rewrite EQ in *. split.
  - rewrite <- (firstn_skipn m (polls eqb key n [] inner)) at 1. rewrite <- FN, <- app_assoc. reflexivity.
  - rewrite items_app in F. cbn [items flat_map app] in F. rewrite app_nil_r in F. exact F.
Qed.
(** The end comes: each poll uses up at least one inner poll. *)
Lemma unique_ends inner : forall n seen, well_formed inner -> (length inner <= n)%nat -> In Ended (polls eqb key n seen inner).
Proof.
  intros n. revert inner. induction n as [|n IH]; intros inner seen WF L.
  - destruct WF as (l0 & -> & _). rewrite app_length in L. cbn in L. lia.
  - cbn [polls].
    assert (P : forall inner seen, well_formed inner -> let '(p, seen', inner') := poll_next eqb key seen inner in
      p = Ended \/ (well_formed inner' /\ (length inner' < length inner)%nat)).
    { clear. intros inner. induction inner as [|p r IH]; intros seen WF; cbn [poll_next].
      - destruct WF as (l0 & E & _). destruct l0; discriminate.
      - assert (WR : p <> Ended -> well_formed r).
        { intros NE. destruct WF as (l0 & E & NI). destruct l0 as [|x l0]; [injection E as -> _; congruence|].
          injection E as <- ->. exists l0. split; [reflexivity|]. intros X. apply NI. right. exact X. }
        destruct p as [|v|].
        + right. split; [apply WR; discriminate|cbn; lia].
        + destruct (existsb _ seen).
          * specialize (IH seen (WR ltac:(discriminate))). destruct (poll_next eqb key seen r) as [[p seen'] inner'].
            destruct IH as [->|(WF' & L)]; [auto|]. right. split; [exact WF'|cbn; lia].
          * right. split; [apply WR; discriminate|cbn; lia].
        + auto. }
    specialize (P inner seen WF). destruct (poll_next eqb key seen inner) as [[p seen'] inner']. destruct P as [->|(WF' & LT)]; [left; reflexivity|].
    right. apply IH; [exact WF'|lia].
Qed.
End U.

(** *** ShutdownGroup *)
Record ginv (s : gst) : Prop := {
  gi_all : forall i, (i < g_next s)%nat <-> In i (g_running s) \/ In i (g_ended s);
  gi_nodup : NoDup (g_running s)
}.
Lemma gstep_inv s e s' : ginv s -> gstep s e = Some s' -> ginv s'.
Proof.
  intros [AL ND] H. destruct e; cbn [gstep] in H.
  - injection H as <-. split; cbn; auto.
  - injection H as <-. split; cbn.
    + intros i. specialize (AL i). destruct (Nat.eq_dec i (g_next s)) as [->|NE]; [split; [auto|lia]|]. split.
      * intros L. assert (X : (i < g_next s)%nat) by lia. apply AL in X. tauto.
      * intros [[X|X]|X]; [congruence| |]; assert (i < g_next s)%nat by (apply AL; auto); lia.
    + constructor; [|exact ND]. intros X. assert (g_next s < g_next s)%nat by (apply AL; auto). lia.
  - destruct (existsb (Nat.eqb i) (g_running s)) eqn:E; [|discriminate]. injection H as <-.
    apply existsb_exists in E. destruct E as (x & IN & EX). apply Nat.eqb_eq in EX. subst x. split; cbn.
    + intros j. rewrite AL, filter_In. destruct (Nat.eqb_spec i j) as [->|NE]; cbn; [tauto|].
      assert (i = j -> False) by auto. intuition.
    + apply NoDup_filter, ND.
  - destruct (g_phase s); try discriminate. injection H as <-. split; cbn; auto.
  - destruct (g_phase s); try discriminate. destruct (g_running s) eqn:R; [discriminate|].
    destruct (_ <=? _); [|discriminate]. injection H as <-. split; [exact AL|exact ND].
  - destruct (g_running s) eqn:R; [|discriminate]. destruct (g_phase s); try discriminate; injection H as <-; split; cbn; auto; constructor.
Qed.
Lemma grun_app l1 l2 s : grun s (l1 ++ l2) = match grun s l1 with Some s1 => grun s1 l2 | None => None end.
Proof. revert s. induction l1 as [|e l1 IH]; intros s; cbn [grun app]; [reflexivity|]. destruct (gstep s e); [apply IH|reflexivity]. Qed.
Lemma grun_inv l : forall s s', ginv s -> grun s l = Some s' -> ginv s'.
Proof.
  induction l as [|e l IH]; intros s s' G H; cbn [grun] in H; [injection H as <-; exact G|].
  destruct (gstep s e) eqn:E; [|discriminate]. eapply IH; [|exact H]. eapply gstep_inv; eauto.
Qed.
Lemma ginv_new : ginv g_new.
Proof. split; cbn; [intros i; split; [lia|tauto]|constructor]. Qed.
(** At the moment shutdown returns. *)
Lemma none_left l s0 s : grun g_new l = Some s0 -> gstep s0 GJoin = Some s -> g_phase s = GReturned ->
  g_running s = [] /\ forall i, (i < g_next s)%nat -> In i (g_ended s).
Proof.
  intros H ST PH. assert (G : ginv s) by (eapply gstep_inv; [|exact ST]; eapply grun_inv; [apply ginv_new|exact H]).
  cbn [gstep] in ST. destruct (g_running s0) eqn:R; [|discriminate]. destruct (g_phase s0); try discriminate; injection ST as <-; cbn in *; [discriminate|].
  split; [reflexivity|]. intros i L. apply (gi_all _ G) in L. destruct L as [[]|L]. exact L.
Qed.
(** Only that step makes it return. *)
Lemma returned_by s e s' : gstep s e = Some s' -> g_phase s <> GReturned -> g_phase s' = GReturned -> e = GJoin.
Proof.
  intros H N P. destruct e; cbn [gstep] in H; auto; exfalso;
  repeat match type of H with match ?x with _ => _ end = Some _ => destruct x eqn:?; try discriminate
  | (if ?x then _ else _) = Some _ => destruct x eqn:?; try discriminate end; injection H as <-; cbn in P; congruence.
Qed.
(** Cancellation: only after the time, measured from the call, is up. *)
Lemma ticks_app a b : ticks (a ++ b) = ticks a + ticks b.
Proof. induction a as [|[] a IH]; cbn [app ticks]; rewrite ?IH; lia. Qed.
Definition called (l : list gev) (s : gst) : Prop :=
  (forall dl, g_phase s = GFirstJoin dl -> exists l1 d l2, l = l1 ++ GCall d :: l2 /\ g_now s + d = dl + ticks l2) /\
  (g_cancelled s = true -> exists l1 d l2 l3, l = l1 ++ GCall d :: l2 ++ GTimeout :: l3 /\ d <= ticks l2).
Lemma called_step l s e s' : called l s -> gstep s e = Some s' -> called (l ++ [e]) s'.
Proof.
  intros (C1 & C2) H.
  assert (K2 : g_cancelled s = true -> exists l1 d l2 l3, l ++ [e] = l1 ++ GCall d :: l2 ++ GTimeout :: l3 /\ d <= ticks l2).
  { intros X. destruct (C2 X) as (l1 & d & l2 & l3 & -> & T). exists l1, d, l2, (l3 ++ [e]). split; [|exact T].
    rewrite <- app_assoc. cbn [app]. rewrite <- app_assoc. reflexivity. }
  assert (K1 : forall dl, g_phase s = GFirstJoin dl -> exists l1 d l2, l ++ [e] = l1 ++ GCall d :: l2 /\ g_now s + ticks [e] + d = dl + ticks l2).
  { intros dl X. destruct (C1 dl X) as (l1 & d & l2 & -> & T). exists l1, d, (l2 ++ [e]). rewrite ticks_app. split; [|lia].
    rewrite <- app_assoc. reflexivity. }
  destruct e; cbn [gstep] in H;
  repeat match type of H with match ?x with _ => _ end = Some _ => destruct x eqn:?; try discriminate
  | (if ?x then _ else _) = Some _ => destruct x eqn:?; try discriminate end; injection H as <-; split; cbn [g_phase g_now g_cancelled] in *; auto;
  try (intros dl X; destruct (K1 dl X) as (l1 & d & l2 & E & T); exists l1, d, l2; split; [exact E|cbn [ticks] in T; lia]); try discriminate.
  - intros dl X. injection X as <-. exists l, duration, []. split; [reflexivity|cbn [ticks]; lia].
  - intros _. destruct (C1 _ eq_refl) as (l1 & d & l2 & -> & T). exists l1, d, l2, []. rewrite <- app_assoc. split; [reflexivity|].
    match goal with X : (_ <=? _) = true |- _ => apply N.leb_le in X end. lia.
Qed.
Lemma called_run l2 : forall l1 s s', called l1 s -> grun s l2 = Some s' -> called (l1 ++ l2) s'.
Proof.
  induction l2 as [|e l IH]; intros l1 s s' C H; cbn [grun] in H.
  - injection H as <-. rewrite app_nil_r. exact C.
  - destruct (gstep s e) eqn:E; [|discriminate]. change (e :: l) with ([e] ++ l). rewrite app_assoc. eapply IH; [|exact H]. eapply called_step; eauto.
Qed.
Lemma cancel_only_late l s : grun g_new l = Some s -> g_cancelled s = true ->
  exists l1 d l2 l3, l = l1 ++ GCall d :: l2 ++ GTimeout :: l3 /\ d <= ticks l2.
Proof.
  intros H C. assert (X : called [] g_new) by (split; [intros dl Y; discriminate|discriminate]).
  destruct (called_run l [] _ _ X H) as (_ & Y). apply Y, C.
Qed.
(** When the time is up and tasks are still running, cancelling them is possible, and
    before that it is not; without running tasks it returns at once. *)
Lemma cancel_enabled s dl : g_phase s = GFirstJoin dl -> g_running s <> [] ->
  (gstep s GTimeout <> None <-> dl <= g_now s).
Proof.
  intros P R. cbn [gstep]. rewrite P. destruct (g_running s) eqn:E; [congruence|]. rewrite <- N.leb_le. destruct (_ <=? _); split; congruence.
Qed.
Lemma end_all r : forall s, g_running s = r -> NoDup r -> exists s', grun s (map GEnd r) = Some s' /\ g_running s' = [] /\ g_phase s' = g_phase s /\ g_cancelled s' = g_cancelled s.
Proof.
  induction r as [|i r IH]; intros s E ND; cbn [map grun].
  - exists s. auto.
  - apply NoDup_cons_iff in ND. destruct ND as (NI & ND). cbn [gstep]. rewrite E. cbn [existsb]. rewrite Nat.eqb_refl. cbn [orb].
    match goal with |- context [grun ?x _] => set (s1 := x) end.
    assert (R1 : g_running s1 = r).
    { unfold s1. cbn [g_running filter]. rewrite Nat.eqb_refl. cbn [negb]. clear - NI. induction r as [|j r IH]; [reflexivity|].
      cbn [filter]. destruct (Nat.eqb_spec i j) as [->|_]; [exfalso; apply NI; left; reflexivity|]. cbn [negb]. f_equal. apply IH. intros X. apply NI. right. exact X. }
    destruct (IH s1 R1 ND) as (s' & A & B & C & D). exists s'. auto.
Qed.
(** Once the running tasks end it returns. *)
Lemma returns l s dl : grun g_new l = Some s -> g_phase s = GSecondJoin \/ g_phase s = GFirstJoin dl ->
  exists joins s', (joins = [GJoin] \/ joins = [GJoin; GJoin]) /\ grun s (map GEnd (g_running s) ++ joins) = Some s' /\ g_phase s' = GReturned /\ g_cancelled s' = g_cancelled s.
Proof.
  intros H P. assert (G : ginv s) by (eapply grun_inv; [apply ginv_new|exact H]).
  destruct (end_all (g_running s) s eq_refl (gi_nodup _ G)) as (s1 & A & B & C & D).
  destruct P as [P|P].
  - exists [GJoin]. eexists. split; [auto|]. rewrite grun_app, A. cbn [grun gstep]. rewrite B, C, P. split; [reflexivity|]. cbn. auto.
  - exists [GJoin; GJoin]. eexists. split; [auto|]. rewrite grun_app, A. cbn [grun gstep]. rewrite B, C, P. cbn [g_running g_phase]. split; [reflexivity|]. cbn. auto.
Qed.
