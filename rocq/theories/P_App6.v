(** Proofs for the shared DHT node: how long it takes, and its end. *)
From Verif Require Import Base M_Net M_DhtMsg M_Dht S_Dht M_App S_App P_Dht2 P_Dht4 P_Dht5 P_Dht6 P_App P_App2 P_App3 P_App4 P_App5.
Local Open Scope nat_scope.

Lemma sum_app {A} (w : A -> nat) l l' : sum w (l ++ l') = sum w l + sum w l'.
Proof. induction l as [|x l IH]; cbn [sum app fold_right] in *; [reflexivity|]. unfold sum in *. cbn [fold_right]. lia. Qed.
Lemma sum_set {A} (w : A -> nat) : forall l i x y, nth_error l i = Some y -> sum w (set_nth l i x) + w y = sum w l + w x.
Proof.
  induction l as [|z l IH]; intros [|i] x y; cbn [nth_error set_nth]; try discriminate; unfold sum in *; cbn [fold_right].
  - intros [= ->]. lia.
  - intros E. specialize (IH _ x _ E). lia.
Qed.
Lemma sum_le {A} (w : A -> nat) k l : (forall x, w x <= k) -> sum w l <= length l * k.
Proof. intros H. induction l as [|x l IH]; cbn [length]; unfold sum in *; cbn [fold_right]; [lia|]. specialize (H x). lia. Qed.
Definition cost (B : nat) (e : call * tstate) : nat := match snd e with TLock => B + 5 | TCreate => B + 4 | TSend _ => B + 2 | _ => 0 end.
Definition ncost (B : nat) (d : dnode) : nat :=
  length (dn_chan d) * (B + 1) + match dn_state d with Resolving _ _ => 1 | Running a => length (a_timers a) | Dead => 0 end.
Definition total (B : nat) (s : appst) : nat := sum (cost B) (p_calls s) + sum (ncost B) (p_nodes s).
Definition boot_inv (B : nat) (s : appst) : Prop := forall n d a, nth_error (p_nodes s) n = Some d -> dn_state d = Running a -> length (a_boot a) <= B.
Definition boots_le (B : nat) (e : pev) : Prop := match e with PResolve _ boot => length boot <= B | _ => True end.

Lemma cost_deliver B n callers o s s' p : deliver s n callers o = (s', p) -> sum (cost B) (p_calls s') = sum (cost B) (p_calls s) /\ p_nodes s' = p_nodes s.
Proof.
  intros E. refine (deliver_ind (fun s1 _ => sum (cost B) (p_calls s1) = sum (cost B) (p_calls s) /\ p_nodes s1 = p_nodes s) n callers o s [] (conj eq_refl eq_refl) _ _ _ E). clear.
  intros s1 h sid r t c m (E1 & E2) _ _ N. unfold M_App.finish. cbn [fst p_calls p_nodes]. split; [|exact E2]. pose proof (sum_set (cost B) _ _ (c, TDone (Found r)) _ N) as Q. cbn [cost snd] in Q. lia.
Qed.
Lemma acted_frame B s n a chan callers o s' p : acted s n a chan callers o = (s', p) ->
  sum (cost B) (p_calls s') = sum (cost B) (p_calls s) /\ p_nodes s' = set_nth (p_nodes s) n (mkNode (Running a) chan callers).
Proof.
  unfold acted. match goal with |- context [deliver ?z n callers o] => destruct (deliver z n callers o) as [s2 p2] eqn:D end. intros [= <- <-]. destruct (cost_deliver B _ _ _ _ _ _ D) as (A1 & A2). cbn [p_calls p_nodes] in *. auto.
Qed.
Lemma cost_fail B n : forall l i l' o, fail_waiting n i l = (l', o) -> sum (cost B) l' = sum (cost B) l.
Proof.
  induction l as [|[c st] l IH]; intros i l' o; cbn [fail_waiting]; [intros [= <- <-]; reflexivity|]. destruct (fail_waiting n (S i) l) as [r' o'] eqn:E. specialize (IH _ _ _ E).
  destruct st as [| |m|m|r|]; try destruct (Nat.eqb m n); intros [= <- <-]; unfold sum in *; cbn [fold_right cost snd]; lia.
Qed.
Lemma dies_frame B s n d s' p : dies s n d = (s', p) -> sum (cost B) (p_calls s') = sum (cost B) (p_calls s) /\ p_nodes s' = set_nth (p_nodes s) n (mkNode Dead [] (dn_callers d)).
Proof. unfold dies. destruct (fail_waiting n 0 (p_calls s)) as [l o] eqn:E. intros [= <- <-]. cbn [p_calls p_nodes]. split; [|reflexivity]. eapply cost_fail; eauto. Qed.
Lemma boot_set B s n d a s' : boot_inv B s -> p_nodes s' = set_nth (p_nodes s) n d -> (dn_state d = Running a \/ (forall a, dn_state d <> Running a)) -> length (a_boot a) <= B \/ (forall a, dn_state d <> Running a) -> boot_inv B s'.
Proof.
  intros V E Q L i d' a' N S. rewrite E, set_nth_get in N. destruct (Nat.eqb_spec n i) as [->|NE]; [|eapply V; eauto]. destruct (nth_error (p_nodes s) i); [|discriminate]. injection N as <-.
  destruct L as [L|L]; [|destruct (L _ S)]. destruct Q as [Q|Q]; [|destruct (Q _ S)]. congruence.
Qed.
Lemma boot_same B s s' : boot_inv B s -> p_nodes s' = p_nodes s -> boot_inv B s'.
Proof. intros V E i d a N S. rewrite E in N. eapply V; eauto. Qed.
Lemma boot_step B s e s' o : boot_inv B s -> boots_le B e -> pstep s e = Some (s', o) -> boot_inv B s'.
Proof.
  intros V L. destruct e as [c|t|t r|t|n boot|n oks|n e|t]; cbn [pstep].
  - intros [= <- <-]. exact V.
  - destruct (p_lock s); [discriminate|]. destruct (nth_error (p_calls s) t) as [[c [| |m|m|r0|]]|] eqn:N; try discriminate. destruct c as [hash|], (p_handle s) as [n|]; intros [= <- <-]; exact V.
  - destruct (nth_error (p_calls s) t) as [[c [| |m|m|r0|]]|] eqn:N; try discriminate. destruct r as [[id v6]|]; intros [= <- <-]; [|exact V]. intros i d a NN S. cbn [p_nodes] in NN.
    destruct (Nat.lt_ge_cases i (length (p_nodes s))) as [LT|LT]; [rewrite nth_error_app1 in NN by exact LT; eapply V; eauto|]. rewrite nth_error_app2 in NN by exact LT. destruct (i - length (p_nodes s)) as [|[|?]]; cbn in NN; try discriminate. injection NN as <-. discriminate.
  - destruct (nth_error (p_calls s) t) as [[c [| |m|m|r0|]]|] eqn:N; try discriminate. destruct (nth_error (p_nodes s) m) as [d|] eqn:EN; [|discriminate].
    destruct (dn_state d) as [? ?|a|] eqn:DS; [destruct (Nat.ltb _ _); [|discriminate]|destruct (Nat.ltb _ _); [|discriminate]|]; intros [= <- <-]; [| |exact V].
    + eapply (boot_set B s m _ (actor_start [] false [])); [exact V|reflexivity| |]; right; discriminate.
    + eapply boot_set; [exact V|reflexivity|left; reflexivity|left; eapply V; eauto].
  - destruct (nth_error (p_nodes s) n) as [d|]; [|discriminate]. destruct (dn_state d) as [id v6|a|]; try discriminate. destruct (a_running _).
    + intros [= <- <-]. eapply boot_set; [exact V|reflexivity|left; reflexivity|left; exact L].
    + intros [= E]. apply (dies_frame B) in E. eapply (boot_set B s n _ (actor_start [] false [])); [exact V|apply E| |]; right; discriminate.
  - destruct (nth_error (p_nodes s) n) as [d|] eqn:EN; [|discriminate]. destruct (dn_state d) as [id v6|a|] eqn:DS; try discriminate. destruct (dn_chan d) as [|[t hash|t] chan]; try discriminate.
    + destruct (astep a (ALookup hash oks)) as [[a1 o1]|] eqn:AS; [|discriminate]. destruct (acted s n a1 chan _ o1) as [s1 p1] eqn:E. intros [= <- <-]. apply (acted_frame B) in E. eapply boot_set; [exact V|apply E|left; reflexivity|left].
      destruct (lookup_frame _ _ _ _ _ AS) as (_ & _ & _ & -> & _). eapply V; eauto.
    + destruct (astep a AShutdown) as [[a1 o1]|]; [|discriminate]. destruct (dies s n d) as [s1 p1] eqn:E. intros [= <- <-]. apply (dies_frame B) in E. eapply (boot_set B s n _ (actor_start [] false [])); [exact V|apply E| |]; right; discriminate.
  - destruct (nth_error (p_nodes s) n) as [d|] eqn:EN; [|discriminate]. destruct (dn_state d) as [id v6|a|] eqn:DS; try discriminate.
    assert (GO : is_net e -> forall a1 o1, astep a e = Some (a1, o1) -> acted s n a1 (dn_chan d) (dn_callers d) o1 = (s', o) -> boot_inv B s').
    { intros NE a1 o1 AS E. apply (acted_frame B) in E. eapply boot_set; [exact V|apply E|left; reflexivity|left]. destruct (net_frame _ _ _ _ NE AS) as (_ & _ & _ & ->). eapply V; eauto. }
    destruct e as [? ?| |from msg pick oks|k pick]; try discriminate; (destruct (astep a _) as [[a1 o1]|]; [|discriminate]; intros [= E]; eapply GO; [exact Logic.I|reflexivity|exact E]).
  - destruct (nth_error (p_calls s) t) as [[c [| |m|m|r0|]]|] eqn:N; try discriminate; intros [= <- <-]; exact V.
Qed.
Lemma cost_step B s e s' o : boot_inv B s -> inner e -> boots_le B e -> pstep s e = Some (s', o) -> total B s' < total B s.
Proof.
  intros V I0 L. unfold total. destruct e as [c|t|t r|t|n boot|n oks|n e|t]; try destruct I0; cbn [pstep].
  - destruct (p_lock s); [discriminate|]. destruct (nth_error (p_calls s) t) as [[c [| |m|m|r0|]]|] eqn:N; try discriminate. destruct c as [hash|], (p_handle s) as [n|]; intros [= <- <-]; cbn [put M_App.finish p_calls p_nodes];
    match goal with |- context [set_nth (p_calls s) t ?x] => pose proof (sum_set (cost B) _ _ x _ N) as Q; cbn [cost snd] in Q; lia end.
  - destruct (nth_error (p_calls s) t) as [[c [| |m|m|r0|]]|] eqn:N; try discriminate. destruct r as [[id v6]|]; intros [= <- <-]; cbn [p_calls p_nodes];
    match goal with |- context [set_nth (p_calls s) t ?x] => pose proof (sum_set (cost B) _ _ x _ N) as Q; cbn [cost snd] in Q end; [|lia].
    rewrite sum_app. change (sum (ncost B) [mkNode (Resolving id v6) [] []]) with 1. lia.
  - destruct (nth_error (p_calls s) t) as [[c [| |m|m|r0|]]|] eqn:N; try discriminate. destruct (nth_error (p_nodes s) m) as [d|] eqn:EN; [|discriminate].
    destruct (dn_state d) as [? ?|a|] eqn:DS; [destruct (Nat.ltb _ _); [|discriminate]|destruct (Nat.ltb _ _); [|discriminate]|]; intros [= <- <-]; cbn [p_calls p_nodes];
    match goal with |- context [set_nth (p_calls s) t ?x] => pose proof (sum_set (cost B) _ _ x _ N) as Q; cbn [cost snd] in Q end; [| |lia];
    match goal with |- context [set_nth (p_nodes s) m ?x] => pose proof (sum_set (ncost B) _ _ x _ EN) as Q2; unfold ncost at 2 4 in Q2; cbn [dn_chan dn_state] in Q2; rewrite DS, app_length in Q2; cbn [length] in Q2; lia end.
  - destruct (nth_error (p_nodes s) n) as [d|] eqn:EN; [|discriminate]. destruct (dn_state d) as [id v6|a|] eqn:DS; try discriminate. destruct (a_running _).
    + intros [= <- <-]. cbn [p_calls p_nodes]. match goal with |- context [set_nth (p_nodes s) n ?x] => pose proof (sum_set (ncost B) _ _ x _ EN) as Q2; unfold ncost at 2 4 in Q2; cbn [dn_chan dn_state actor_start a_timers length] in Q2; rewrite DS in Q2; lia end.
    + intros [= E]. apply (dies_frame B) in E. destruct E as (-> & ->). match goal with |- context [set_nth (p_nodes s) n ?x] => pose proof (sum_set (ncost B) _ _ x _ EN) as Q2; unfold ncost at 2 4 in Q2; cbn [dn_chan dn_state length] in Q2; rewrite DS in Q2; lia end.
  - destruct (nth_error (p_nodes s) n) as [d|] eqn:EN; [|discriminate]. destruct (dn_state d) as [id v6|a|] eqn:DS; try discriminate. destruct (dn_chan d) as [|[t hash|t] chan] eqn:CH; try discriminate.
    + destruct (astep a (ALookup hash oks)) as [[a1 o1]|] eqn:AS; [|discriminate]. destruct (acted s n a1 chan _ o1) as [s1 p1] eqn:E. intros [= <- <-]. apply (acted_frame B) in E. destruct E as (-> & ->).
      destruct (lookup_frame _ _ _ _ _ AS) as (_ & _ & _ & _ & LT & _). assert (LB := V _ _ _ EN DS).
      match goal with |- context [set_nth (p_nodes s) n ?x] => pose proof (sum_set (ncost B) _ _ x _ EN) as Q2; unfold ncost at 2 4 in Q2; cbn [dn_chan dn_state] in Q2; rewrite DS, CH in Q2; cbn [length] in Q2; lia end.
    + destruct (astep a AShutdown) as [[a1 o1]|]; [|discriminate]. destruct (dies s n d) as [s1 p1] eqn:E. intros [= <- <-]. apply (dies_frame B) in E. destruct E as (-> & ->).
      match goal with |- context [set_nth (p_nodes s) n ?x] => pose proof (sum_set (ncost B) _ _ x _ EN) as Q2; unfold ncost at 2 4 in Q2; cbn [dn_chan dn_state length] in Q2; rewrite DS, CH in Q2; cbn [length] in Q2; lia end.
  - destruct (nth_error (p_nodes s) n) as [d|] eqn:EN; [|discriminate]. destruct (dn_state d) as [id v6|a|] eqn:DS; try discriminate.
    destruct e as [? ?| |from msg pick oks|k pick]; try destruct I0. destruct (astep a _) as [[a1 o1]|] eqn:AS; [|discriminate]. intros [= E]. apply (acted_frame B) in E. destruct E as (-> & ->).
    destruct (timeout_shrinks a (ATimeout k pick) a1 o1 Logic.I AS) as (LT & _).
    match goal with |- context [set_nth (p_nodes s) n ?x] => pose proof (sum_set (ncost B) _ _ x _ EN) as Q2; unfold ncost at 2 4 in Q2; cbn [dn_chan dn_state] in Q2; rewrite DS in Q2; lia end.
Qed.
Lemma boot_run B : forall l s s' o, boot_inv B s -> Forall (boots_le B) l -> prun s l = Some (s', o) -> boot_inv B s'.
Proof.
  induction l as [|e l IH]; intros s s' o V L; cbn [prun]; [intros [= <- <-]; exact V|]. inversion L as [|? ? L1 L2]; subst. destruct (pstep s e) as [[s1 o1]|] eqn:E; [|discriminate]. destruct (prun s1 l) as [[s2 o2]|] eqn:R; [|discriminate]. intros [= <- <-].
  eapply IH; [eapply boot_step; eauto|exact L2|exact R].
Qed.
Lemma cost_run B : forall l s s' o, boot_inv B s -> Forall inner l -> Forall (boots_le B) l -> prun s l = Some (s', o) -> length l <= total B s.
Proof.
  induction l as [|e l IH]; intros s s' o V I0 L; cbn [prun length]; [lia|]. inversion L as [|? ? L1 L2]; inversion I0 as [|? ? I1 I2]; subst. destruct (pstep s e) as [[s1 o1]|] eqn:E; [|discriminate]. destruct (prun s1 l) as [[s2 o2]|] eqn:R; [|discriminate]. intros _.
  assert (C := cost_step B _ _ _ _ V I1 L1 E). specialize (IH _ _ _ (boot_step B _ _ _ _ V L1 E) I2 L2 R). lia.
Qed.
Lemma ends_soon l l' s h s' h' B : Forall wf_pev l -> prun app_new l = Some (s, h) -> (forall n boot, In (PResolve n boot) (l ++ l') -> length boot <= B) -> Forall inner l' -> prun s l' = Some (s', h') ->
  length l' <= length (p_calls s) * (B + 5) + queued s * (B + 1) + timers s + 1.
Proof.
  intros W R BB I0 R'. assert (F : forall m, incl m (l ++ l') -> Forall (boots_le B) m).
  { intros m IM. apply Forall_forall. intros e X. destruct e; try exact Logic.I. cbn. eapply BB. apply IM. exact X. }
  assert (V : boot_inv B s). { eapply boot_run; [|apply (F l); intros x X; apply in_or_app; auto|exact R]. intros [|?] d a N; discriminate. }
  assert (C := cost_run B l' s s' h' V I0 (F l' (fun x X => in_or_app l l' x (or_intror X))) R'). unfold total in C.
  assert (C1 : sum (cost B) (p_calls s) <= length (p_calls s) * (B + 5)) by (apply sum_le; intros [c []]; cbn [cost snd]; lia).
  assert (C2 : sum (ncost B) (p_nodes s) <= queued s * (B + 1) + timers s + 1).
  { apply (reached _ _ _ W) in R. unfold queued, timers. destruct (v_nodes _ _ _ R) as [(_ & -> & _)|(d & _ & -> & _)]; cbn [sum fold_right]; [lia|]. unfold ncost. destruct (dn_state d); lia. }
  lia.
Qed.

(** *** The end *)
Definition ended (s : appst) : Prop := exists d, p_nodes s = [d] /\ dn_state d = Dead.
Lemma dead_step l h s e s' o : pinv l h s -> ended s -> pstep s e = Some (s', o) -> ended s' /\ (forall x, In x o -> match x with ODht _ _ | ONode _ | OReturn _ (Found _) => False | _ => True end).
Proof.
  intros V (d & EN & DS). assert (AT : forall n d', nth_error (p_nodes s) n = Some d' -> d' = d) by (intros n d' N; rewrite EN in N; destruct n as [|[|?]]; cbn in N; congruence).
  assert (HS : exists z, p_handle s = Some z) by (destruct (v_nodes _ _ _ V) as [(A1 & A2 & _)|(d' & A1 & _)]; [congruence|eauto]).
  destruct e as [c|t|t r|t|n boot|n oks|n e|t]; cbn [pstep].
  - intros [= <- <-]. split; [exists d; auto|]. intros x [<-|[]]. exact Logic.I.
  - destruct (p_lock s); [discriminate|]. destruct (nth_error (p_calls s) t) as [[c [| |m|m|r0|]]|] eqn:N; try discriminate. destruct HS as (z & HS). rewrite HS. destruct c as [hash|]; intros [= <- <-]; (split; [exists d; auto|intros x []]).
  - destruct (nth_error (p_calls s) t) as [[c [| |m|m|r0|]]|] eqn:N; try discriminate. exfalso. destruct (v_nodes _ _ _ V) as [(A1 & A2 & _)|(d' & _ & _ & _ & _ & _ & A6 & _)]; [congruence|]. destruct (A6 _ _ _ N).
  - destruct (nth_error (p_calls s) t) as [[c [| |m|m|r0|]]|] eqn:N; try discriminate. destruct (nth_error (p_nodes s) m) as [d'|] eqn:ENm; [|discriminate]. rewrite (AT _ _ ENm), DS. intros [= <- <-].
    split; [exists d; auto|]. intros x [<-|[]]. destruct c; exact Logic.I.
  - destruct (nth_error (p_nodes s) n) as [d'|] eqn:ENm; [|discriminate]. rewrite (AT _ _ ENm), DS. discriminate.
  - destruct (nth_error (p_nodes s) n) as [d'|] eqn:ENm; [|discriminate]. rewrite (AT _ _ ENm), DS. discriminate.
  - destruct (nth_error (p_nodes s) n) as [d'|] eqn:ENm; [|discriminate]. rewrite (AT _ _ ENm), DS. discriminate.
  - destruct (nth_error (p_calls s) t) as [[c [| |m|m|r0|]]|] eqn:N; try discriminate; intros [= <- <-]; (split; [exists d; auto|intros x []]).
Qed.
Lemma dead_run : forall l' l h s s' o, pinv l h s -> ended s -> Forall wf_pev l' -> prun s l' = Some (s', o) -> ended s' /\ (forall x, In x o -> match x with ODht _ _ | ONode _ | OReturn _ (Found _) => False | _ => True end).
Proof.
  induction l' as [|e l' IH]; intros l h s s' o V D W; cbn [prun]; [intros [= <- <-]; split; [exact D|intros x []]|]. inversion W as [|? ? W1 W2]; subst.
  destruct (pstep s e) as [[s1 o1]|] eqn:E; [|discriminate]. destruct (prun s1 l') as [[s2 o2]|] eqn:R; [|discriminate]. intros [= <- <-].
  destruct (dead_step _ _ _ _ _ _ V D E) as (D1 & K1). destruct (IH (l ++ [e]) (h ++ o1) s1 s2 o2 (pinv_step _ _ _ _ _ _ V W1 E) D1 W2 R) as (D2 & K2). split; [exact D2|]. intros x X. apply in_app_iff in X. destruct X as [X|X]; [exact (K1 x X)|exact (K2 x X)].
Qed.
Lemma acted_obs s n a chan callers o s' p : acted s n a chan callers o = (s', p) -> forall x, In x p -> (exists y, In y o /\ x = ODht n y) \/ exists t r, x = OReturn t (Found r).
Proof.
  unfold acted. match goal with |- context [deliver ?z n callers o] => destruct (deliver z n callers o) as [s2 p2] eqn:D end. intros [= <- <-] x X. apply in_app_iff in X. destruct X as [X|X].
  - apply in_map_iff in X. destruct X as (y & <- & X). eauto.
  - right. revert x X. match type of D with deliver ?z _ _ _ = _ => refine (deliver_ind (fun _ h => forall x, In x h -> exists t r, x = OReturn t (Found r)) n callers o z [] _ _ _ _ D) end; [intros x []|]. clear. intros s h sid r t c m H _ _ _ x X. apply in_app_iff in X. destruct X as [X|[<-|[]]]; [auto|]. eauto.
Qed.
Lemma dies_returns s n d s' p : dies s n d = (s', p) -> forall x, In x p -> exists i r, x = OReturn i r /\ forall f, r <> Found f.
Proof.
  intros E x X. apply dies_calls in E. destruct E as (_ & _ & _ & R & K & _). destruct (K x X) as (i & r & ->). exists i, r. split; [reflexivity|]. intros f ->. apply in_results in X. rewrite R in X.
  destruct (nth_error (p_calls s) i) as [[c st]|]; [|destruct X]. destruct (no_wait_change n (c, st)) as [r|] eqn:W; [|destruct X]. destruct X as [->|[]]. destruct st; try discriminate. cbn in W. destruct (Nat.eqb n0 n); [|discriminate]. destruct c; discriminate.
Qed.
(** Which step lets a shutdown return. *)
Lemma stopped_step l h s e s' o t : pinv l h s -> pstep s e = Some (s', o) -> In (OReturn t Stopped) o ->
  (p_handle s = None /\ o = [OReturn t Stopped]) \/ (ended s' /\ exists o1 o2, o = map (ODht 0) (map ODown o1) ++ o2 /\ forall x, In x o2 -> exists i r, x = OReturn i r /\ forall f, r <> Found f).
Proof.
  intros V E X. destruct e as [c|i|i r|i|n boot|n oks|n e|i]; cbn [pstep] in E.
  - injection E as <- <-. destruct X as [X|[]]. discriminate.
  - destruct (p_lock s); [discriminate|]. destruct (nth_error (p_calls s) i) as [[c [| |m|m|r0|]]|] eqn:N; try discriminate. destruct c as [hash|], (p_handle s) as [n|] eqn:PH; injection E as <- <-; try (destruct X; fail). destruct X as [X|[]]. injection X as ->. auto.
  - destruct (nth_error (p_calls s) i) as [[c [| |m|m|r0|]]|] eqn:N; try discriminate. destruct r as [[id v6]|]; injection E as <- <-; destruct X as [X|[]]; discriminate.
  - destruct (nth_error (p_calls s) i) as [[c [| |m|m|r0|]]|] eqn:N; try discriminate. destruct (nth_error (p_nodes s) m) as [d|] eqn:EN; [|discriminate]. destruct (node_zero _ _ _ _ (v_nodes _ _ _ V) EN) as (-> & EN').
    destruct (dn_state d) as [? ?|a|] eqn:DS; [destruct (Nat.ltb _ _); [|discriminate]|destruct (Nat.ltb _ _); [|discriminate]|]; injection E as <- <-; try (destruct X; fail). right. split; [exists d; auto|]. exists [], [OReturn i (on_death c)]. split; [reflexivity|]. intros x [<-|[]]. do 2 eexists. split; [reflexivity|]. destruct c; discriminate.
  - destruct (nth_error (p_nodes s) n) as [d|] eqn:EN; [|discriminate]. destruct (node_zero _ _ _ _ (v_nodes _ _ _ V) EN) as (-> & EN'). destruct (dn_state d) as [id v6|a|] eqn:DS; try discriminate. destruct (a_running _).
    + injection E as <- <-. destruct X.
    + destruct (dies s 0 d) as [s1 p1] eqn:E1. injection E as <- <-. pose proof (dies_returns _ _ _ _ _ E1) as K. apply dies_calls in E1. destruct E1 as (_ & E2 & _). right. split; [exists (mkNode Dead [] (dn_callers d)); rewrite E2, EN'; auto|]. exists [], p1. auto.
  - destruct (nth_error (p_nodes s) n) as [d|] eqn:EN; [|discriminate]. destruct (node_zero _ _ _ _ (v_nodes _ _ _ V) EN) as (-> & EN'). destruct (dn_state d) as [id v6|a|] eqn:DS; try discriminate. destruct (dn_chan d) as [|[i hash|i] chan] eqn:CH; try discriminate.
    + exfalso. destruct (astep a (ALookup hash oks)) as [[a1 o1]|]; [|discriminate]. destruct (acted s 0 a1 chan _ o1) as [s1 p1] eqn:E1. injection E as <- <-. destruct X as [X|X]; [discriminate|]. apply (acted_obs _ _ _ _ _ _ _ _ E1) in X. destruct X as [(y & _ & X)|(? & ? & X)]; discriminate.
    + destruct (astep a AShutdown) as [[a1 o1]|] eqn:AS; [|discriminate]. destruct (dies s 0 d) as [s1 p1] eqn:E1. injection E as <- <-. pose proof (dies_returns _ _ _ _ _ E1) as K. apply dies_calls in E1. destruct E1 as (_ & E2 & _). right. split; [exists (mkNode Dead [] (dn_callers d)); rewrite E2, EN'; auto|].
      unfold astep in AS. destruct (a_running a); [|discriminate]. injection AS as _ <-. eauto.
  - exfalso. destruct (nth_error (p_nodes s) n) as [d|] eqn:EN; [|discriminate]. destruct (dn_state d) as [id v6|a|] eqn:DS; try discriminate.
    destruct e as [? ?| |from msg pick oks|k pick]; try discriminate; (destruct (astep a _) as [[a1 o1]|]; [|discriminate]; injection E as E1; apply (acted_obs _ _ _ _ _ _ _ _ E1) in X; destruct X as [(y & _ & X)|(? & ? & X)]; discriminate).
  - destruct (nth_error (p_calls s) i) as [[c [| |m|m|r0|]]|] eqn:N; try discriminate; injection E as <- <-; destruct X.
Qed.
(** Where in a run an observation was made. *)
Lemma run_at : forall l' l h0 s s' h x h1 h2, pinv l h0 s -> Forall wf_pev l' -> prun s l' = Some (s', h) -> h = h1 ++ x :: h2 ->
  exists la e lb sa ha sb o1 o2 hb, l' = la ++ e :: lb /\ prun s la = Some (sa, ha) /\ pstep sa e = Some (sb, o1 ++ x :: o2) /\ prun sb lb = Some (s', hb) /\ h1 = ha ++ o1 /\ h2 = o2 ++ hb.
Proof.
  induction l' as [|e l' IH]; intros l h0 s s' h x h1 h2 V W; cbn [prun]; [intros [= <- <-] E; destruct h1; discriminate|]. inversion W as [|? ? W1 W2]; subst.
  destruct (pstep s e) as [[s1 p1]|] eqn:E; [|discriminate]. destruct (prun s1 l') as [[s2 p2]|] eqn:R; [|discriminate]. intros [= <- <-] EH.
  destruct (Nat.lt_ge_cases (length h1) (length p1)) as [L|L].
  - assert (Q : exists o2, p1 = h1 ++ x :: o2 /\ h2 = o2 ++ p2).
    { clear - EH L. revert p1 EH L. induction h1 as [|y h1 IH]; intros [|z p1] EH L; cbn in *; try lia; injection EH as -> EH; [eauto|]. destruct (IH _ EH ltac:(lia)) as (o2 & -> & ->). eauto. }
    destruct Q as (o2 & -> & ->). exists [], e, l', s, [], s1, h1, o2, p2. repeat split; auto.
  - assert (Q : exists q, h1 = p1 ++ q /\ p2 = q ++ x :: h2).
    { clear - EH L. revert h1 EH L. induction p1 as [|y p1 IH]; intros h1 EH L; cbn in *; [eauto|]. destruct h1 as [|z h1]; cbn in *; [lia|]. injection EH as -> EH. destruct (IH _ EH ltac:(lia)) as (q & -> & ->). eauto. }
    destruct Q as (q & -> & EQ). destruct (IH (l ++ [e]) (h0 ++ p1) s1 s2 p2 x q h2 (pinv_step _ _ _ _ _ _ V W1 E) W2 R EQ) as (la & e' & lb & sa & ha & sb & o1 & o2 & hb & -> & A1 & A2 & A3 & -> & ->).
    exists (e :: la), e', lb, sa, (p1 ++ ha), sb, o1, o2, hb. cbn [prun app]. rewrite E, A1, app_assoc. repeat split; auto.
Qed.
Lemma forall_split {A} (P : A -> Prop) a x b : Forall P (a ++ x :: b) -> Forall P a /\ P x /\ Forall P b.
Proof. intros H. apply Forall_app in H. destruct H as (H1 & H2). inversion H2; subst. auto. Qed.
Lemma after_shutdown l s h h1 t h2 : Forall wf_pev l -> prun app_new l = Some (s, h) -> h = h1 ++ OReturn t Stopped :: h2 -> created h1 <> [] ->
  (forall n sid addr q ok, ~ In (ODht n (OQuery sid addr q ok)) h2) /\ (forall i r, ~ In (OReturn i (Found r)) h2) /\ created h2 = [].
Proof.
  intros W R EH C. destruct (run_at l [] [] app_new s h _ _ _ pinv_start W R EH) as (la & e & lb & sa & ha & sb & o1 & o2 & hb & -> & A1 & A2 & A3 & -> & ->).
  apply forall_split in W. destruct W as (W1 & W2 & W3). assert (V := reached _ _ _ W1 A1). destruct (stopped_step _ _ _ _ _ _ t V A2) as [(PH & E)|(D & q1 & q2 & E & K)]; [apply in_or_app; right; left; reflexivity| |].
  - exfalso. destruct o1 as [|? [|? ?]]; try discriminate. apply C. rewrite app_nil_r. destruct (v_nodes _ _ _ V) as [(_ & _ & X & _)|(d & X & _)]; [exact X|congruence].
  - destruct (dead_run lb _ _ _ _ _ (pinv_step _ _ _ _ _ _ V W2 A2) D W3 A3) as (_ & K2).
    assert (K3 : forall x, In x o2 -> exists i r, x = OReturn i r /\ forall f, r <> Found f).
    { intros x X. apply K. clear - E X. revert o1 E. induction q1 as [|y q1 IH]; intros o1 E; cbn [map app] in E; [rewrite <- E; apply in_or_app; right; right; exact X|]. destruct o1 as [|z o1]; cbn [app] in E; [discriminate|]. injection E as _ E. eauto. }
    split; [|split].
    + intros n sid addr q ok X. apply in_app_iff in X. destruct X as [X|X]; [destruct (K3 _ X) as (? & ? & Y & _); discriminate|exact (K2 _ X)].
    + intros i r X. apply in_app_iff in X. destruct X as [X|X]; [destruct (K3 _ X) as (? & ? & Y & Z); injection Y as -> <-; exact (Z _ eq_refl)|exact (K2 _ X)].
    + rewrite created_app. assert (Z : created o2 = []) by (apply flat_map_none; intros x X; destruct (K3 _ X) as (? & ? & -> & _); reflexivity). rewrite Z. apply flat_map_none. intros x X. specialize (K2 _ X). destruct x; try reflexivity. destruct K2.
Qed.
