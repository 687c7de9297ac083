(** Proofs for the shared DHT node: calls, the mutex, and how many nodes there are. *)
From Verif Require Import Base M_Net M_DhtMsg M_Dht S_Dht M_App S_App P_Dht2 P_App.
Local Open Scope nat_scope.

Definition no_wait_change (n : nat) (e : call * tstate) : option dres :=
  match e with (c, TWait m) => if Nat.eqb m n then Some (on_death c) else None | _ => None end.
Lemma fail_waiting_spec n : forall l i l' o, fail_waiting n i l = (l', o) ->
  length l' = length l /\
  (forall t, nth_error l' t = match nth_error l t with
                              | Some e => match no_wait_change n e with Some r => Some (fst e, TDone r) | None => Some e end
                              | None => None end) /\
  (forall t, results o (i + t) = match nth_error l t with Some e => match no_wait_change n e with Some r => [r] | None => [] end | None => [] end) /\
  (forall t, t < i -> results o t = []) /\
  (forall x, In x o -> exists t r, x = OReturn t r).
Proof.
  induction l as [|[c st] l IH]; intros i l' o; cbn [fail_waiting].
  - intros [= <- <-]. repeat split; auto; try (intros [|?]; reflexivity). intros x [].
  - destruct (fail_waiting n (S i) l) as [r' o'] eqn:E. destruct (IH _ _ _ E) as (L & G & R & R0 & K). intros X.
    assert (Z : (l' = (c, st) :: r' /\ o = o' /\ no_wait_change n (c, st) = None) \/ (exists r, no_wait_change n (c, st) = Some r /\ l' = (c, TDone r) :: r' /\ o = OReturn i r :: o')).
    { destruct st as [| |m|m|r|]; cbn [no_wait_change]; try (injection X as <- <-; auto; fail). destruct (Nat.eqb m n); injection X as <- <-; eauto. }
    clear X. destruct Z as [(-> & -> & W)|(r & W & -> & ->)].
    + split; [cbn; congruence|]. split; [|split; [|split]].
      * intros [|t]; cbn [nth_error]; [rewrite W; reflexivity|apply G].
      * intros [|t]; cbn [nth_error]; [rewrite W, Nat.add_0_r; apply R0; lia|]. rewrite <- R. f_equal. lia.
      * intros t T. apply R0. lia.
      * exact K.
    + split; [cbn; congruence|]. split; [|split; [|split]].
      * intros [|t]; cbn [nth_error]; [rewrite W; reflexivity|apply G].
      * intros t. change (results (OReturn i r :: o') (i + t)) with ((if Nat.eqb i (i + t) then [r] else []) ++ results o' (i + t)). destruct t as [|t]; cbn [nth_error].
        -- rewrite W, Nat.add_0_r, Nat.eqb_refl, R0 by lia. reflexivity.
        -- rewrite <- R. destruct (Nat.eqb_spec i (i + S t)); [lia|]. cbn [app]. f_equal. lia.
      * intros t T. change (results (OReturn i r :: o') t) with ((if Nat.eqb i t then [r] else []) ++ results o' t). destruct (Nat.eqb_spec i t); [lia|]. rewrite R0 by lia. reflexivity.
      * intros x [<-|X]; eauto.
Qed.
Lemma dies_calls s n d s' p : dies s n d = (s', p) ->
  p_handle s' = p_handle s /\ p_nodes s' = set_nth (p_nodes s) n (mkNode Dead [] (dn_callers d)) /\
  (forall t, nth_error (p_calls s') t = match nth_error (p_calls s) t with
                              | Some e => match no_wait_change n e with Some r => Some (fst e, TDone r) | None => Some e end
                              | None => None end) /\
  (forall t, results p t = match nth_error (p_calls s) t with Some e => match no_wait_change n e with Some r => [r] | None => [] end | None => [] end) /\
  (forall x, In x p -> exists t r, x = OReturn t r) /\
  p_lock s' = match p_lock s with
              | Some t => match nth_error (p_calls s') t with Some (_, TDone _) => None | _ => Some t end
              | None => None
              end.
Proof.
  unfold dies. destruct (fail_waiting n 0 (p_calls s)) as [l o] eqn:E. intros [= <- <-]. destruct (fail_waiting_spec _ _ _ _ _ E) as (_ & G & R & _ & K). cbn [p_handle p_nodes p_calls p_lock]. repeat split; auto.
Qed.

(** The results delivered, one at a time. *)
Lemma deliver_ind (P : appst -> list pobs -> Prop) n callers : forall o s h,
  P s h ->
  (forall s h sid r t c m, P s h -> In (OAnswer sid r) o -> In (sid, t) callers -> nth_error (p_calls s) t = Some (c, TWait m) ->
     P (fst (finish s t c (Found r))) (h ++ [OReturn t (Found r)])) ->
  forall s' p, deliver s n callers o = (s', p) -> P s' (h ++ p).
Proof.
  induction o as [|x o IH]; intros s h H S s' p; cbn [deliver]; [intros [= <- <-]; rewrite app_nil_r; exact H|].
  assert (S' : forall s h sid r t c m, P s h -> In (OAnswer sid r) o -> In (sid, t) callers -> nth_error (p_calls s) t = Some (c, TWait m) -> P (fst (finish s t c (Found r))) (h ++ [OReturn t (Found r)])) by (intros; eapply S; eauto; right; assumption).
  destruct x as [? ?|? ? ? ?|? ? ? ?|? ? ?|sid r|?]; try (intros E; eapply IH; eauto; fail).
  destruct (find _ callers) as [[sid' t]|] eqn:F; [|intros E; eapply IH; eauto]. apply find_some in F. destruct F as (F & F2). cbn [fst] in F2. apply Nat.eqb_eq in F2. subst sid'.
  destruct (nth_error (p_calls s) t) as [[c [| |m|m|r0|]]|] eqn:N; try (intros E; eapply IH; eauto; fail).
  destruct (finish s t c (Found r)) as [s1 p1] eqn:FI. destruct (deliver s1 n callers o) as [s2 p2] eqn:D. intros [= <- <-]. injection FI as <- <-. rewrite app_assoc. eapply IH; [|exact S'|exact D].
  apply (S s h sid r t c m H (or_introl eq_refl) F N).
Qed.

(** *** Calls and their results *)
Definition calls_inv (h : list pobs) (s : appst) : Prop :=
  (forall t c, In (OBegin t c) h <-> exists st, nth_error (p_calls s) t = Some (c, st)) /\
  (forall t, results h t = match nth_error (p_calls s) t with Some (_, TDone r) => [r] | _ => [] end).
Lemma calls_update h s t c st st' o s' : calls_inv h s -> nth_error (p_calls s) t = Some (c, st) -> (forall r, st <> TDone r) -> p_calls s' = set_nth (p_calls s) t (c, st') ->
  (forall x, In x o -> match x with OBegin _ _ => False | _ => True end) -> (forall i, results o i = if Nat.eqb t i then match st' with TDone r => [r] | _ => [] end else []) -> calls_inv (h ++ o) s'.
Proof.
  intros (A & B) N ND E K R. split.
  - intros i c'. rewrite in_app_iff, A, E, set_nth_get. destruct (Nat.eqb_spec t i) as [->|NE].
    + rewrite N. split; [intros [(st0 & X)|X]; [injection X as <- <-; eauto|destruct (K _ X)]|]. intros (st0 & X). injection X as <- <-. left. eauto.
    + split; [intros [X|X]; [exact X|destruct (K _ X)]|auto].
  - intros i. rewrite results_app, B, R, E, set_nth_get. destruct (Nat.eqb_spec t i) as [->|NE]; [|apply app_nil_r]. rewrite N. destruct st; try reflexivity. exfalso. eapply ND. reflexivity.
Qed.
Lemma calls_quiet h s o s' : calls_inv h s -> p_calls s' = p_calls s -> (forall x, In x o -> match x with OBegin _ _ | OReturn _ _ => False | _ => True end) -> calls_inv (h ++ o) s'.
Proof.
  intros (A & B) E K. split.
  - intros i c. rewrite in_app_iff, A, E. split; [intros [X|X]; [exact X|destruct (K _ X)]|auto].
  - intros i. rewrite results_app, B, E. assert (Z : results o i = []); [|rewrite Z; apply app_nil_r]. unfold results. apply flat_map_none. intros x X. specialize (K x X). destruct x; try reflexivity. destruct K.
Qed.
Lemma calls_dies h s n d s' p o : calls_inv h s -> dies s n d = (s', p) -> (forall x, In x o -> match x with OBegin _ _ | OReturn _ _ => False | _ => True end) -> calls_inv (h ++ o ++ p) s'.
Proof.
  intros C E K. rewrite app_assoc. destruct (calls_quiet h s o s C eq_refl K) as (A & B). apply dies_calls in E. destruct E as (_ & _ & G & R & KK & _). split.
  - intros i c. rewrite in_app_iff, A, G. split.
    + intros [(st & X)|X]; [|destruct (KK _ X) as (? & ? & Y); discriminate]. rewrite X. destruct (no_wait_change n (c, st)); eauto.
    + intros (st & X). left. destruct (nth_error (p_calls s) i) as [[c0 st0]|]; [|discriminate]. destruct (no_wait_change n (c0, st0)); injection X as <- <-; eauto.
  - intros i. rewrite results_app, B, R, G. destruct (nth_error (p_calls s) i) as [[c0 st0]|]; [|reflexivity]. destruct st0 as [| |m|m|r|]; cbn [no_wait_change]; try reflexivity. destruct (Nat.eqb m n); reflexivity.
Qed.
Lemma calls_deliver n callers o s h s' p : calls_inv h s -> deliver s n callers o = (s', p) -> calls_inv (h ++ p) s'.
Proof.
  intros C. apply (deliver_ind (fun s h => calls_inv h s)); [exact C|]. clear. intros s h sid r t c m C _ _ N. eapply calls_update; [exact C|exact N|discriminate|reflexivity| |].
  - intros x [<-|[]]; exact Logic.I.
  - intros i. cbn [results flat_map]. apply app_nil_r.
Qed.
Lemma calls_acted s n a chan callers o h o' s' p : calls_inv h s -> acted s n a chan callers o = (s', p) -> (forall x, In x o' -> match x with OBegin _ _ | OReturn _ _ => False | _ => True end) -> calls_inv (h ++ o' ++ p) s'.
Proof.
  unfold acted. intros C E K. match type of E with context [deliver ?z n callers o] => set (s1 := z) in E; destruct (deliver s1 n callers o) as [s2 p2] eqn:D end. injection E as <- <-.
  rewrite !app_assoc. eapply calls_deliver; [|exact D]. rewrite <- app_assoc. eapply calls_quiet; [exact C|reflexivity|]. intros x X. apply in_app_iff in X. destruct X as [X|X]; [exact (K x X)|]. apply in_map_iff in X. destruct X as (y & <- & _). exact Logic.I.
Qed.
Ltac quiet_obs := let x := fresh in intros x; cbn [In]; intros ?; repeat match goal with H : _ \/ _ |- _ => destruct H | H : False |- _ => destruct H end; subst; exact Logic.I.
Ltac one_result := let i := fresh "i" in intros i; cbn [results flat_map]; try (destruct (Nat.eqb _ i); reflexivity); rewrite ?app_nil_r; reflexivity.
Lemma calls_step h s e s' o : calls_inv h s -> pstep s e = Some (s', o) -> calls_inv (h ++ o) s'.
Proof.
  intros C. destruct e as [c|t|t r|t|n boot|n oks|n e|t]; cbn [pstep].
  - intros [= <- <-]. destruct C as (A & B). split.
    + intros t c'. rewrite in_app_iff, A. cbn [p_calls In]. destruct (Nat.lt_trichotomy t (length (p_calls s))) as [L|[L|L]].
      * rewrite nth_error_app1 by exact L. split; [|auto]. intros [X|[X|[]]]; [exact X|]. injection X as <- <-. lia.
      * subst t. rewrite nth_error_app2, Nat.sub_diag by lia. cbn [nth_error]. split.
        -- intros [(st & X)|[X|[]]]; [|injection X as <-; eauto]. assert (Y : nth_error (p_calls s) (length (p_calls s)) <> None) by congruence. apply nth_error_Some in Y. lia.
        -- intros (st & X). injection X as <- <-. auto.
      * split.
        -- intros [(st & X)|[X|[]]]; [|injection X as <- <-; lia]. assert (Y : nth_error (p_calls s) t <> None) by congruence. apply nth_error_Some in Y. lia.
        -- intros (st & X). assert (Y : nth_error (p_calls s ++ [(c, TLock)]) t <> None) by congruence. apply nth_error_Some in Y. rewrite app_length in Y. cbn in Y. lia.
    + intros t. rewrite results_app, B. cbn [results flat_map app p_calls]. rewrite app_nil_r. destruct (Nat.lt_trichotomy t (length (p_calls s))) as [L|[L|L]].
      * rewrite nth_error_app1 by exact L. reflexivity.
      * subst t. rewrite nth_error_app2, Nat.sub_diag by lia. cbn [nth_error]. rewrite (proj2 (nth_error_None _ _)) by lia. reflexivity.
      * rewrite !(proj2 (nth_error_None _ _)); [reflexivity|rewrite app_length; cbn; lia|lia].
  - destruct (p_lock s); [discriminate|]. destruct (nth_error (p_calls s) t) as [[c [| |m|m|r0|]]|] eqn:N; try discriminate.
    destruct c as [hash|], (p_handle s) as [n|]; intros [= <- <-]; (eapply calls_update; [exact C|exact N|discriminate|reflexivity|quiet_obs|one_result]).
  - destruct (nth_error (p_calls s) t) as [[c [| |m|m|r0|]]|] eqn:N; try discriminate. destruct r as [[id v6]|]; intros [= <- <-]; (eapply calls_update; [exact C|exact N|discriminate|reflexivity|quiet_obs|one_result]).
  - destruct (nth_error (p_calls s) t) as [[c [| |m|m|r0|]]|] eqn:N; try discriminate. destruct (nth_error (p_nodes s) m) as [d|]; [|discriminate].
    destruct (dn_state d) as [? ?|a|]; [destruct (Nat.ltb _ _); [|discriminate]|destruct (Nat.ltb _ _); [|discriminate]|]; intros [= <- <-]; (eapply calls_update; [exact C|exact N|discriminate|reflexivity|quiet_obs|one_result]).
  - destruct (nth_error (p_nodes s) n) as [d|]; [|discriminate]. destruct (dn_state d) as [id v6|a|]; try discriminate. destruct (a_running _).
    + intros [= <- <-]. eapply calls_quiet; [exact C|reflexivity|quiet_obs].
    + intros [= E]. apply (calls_dies h s n d s' o [] C E). intros x [].
  - destruct (nth_error (p_nodes s) n) as [d|]; [|discriminate]. destruct (dn_state d) as [id v6|a|]; try discriminate. destruct (dn_chan d) as [|[t hash|t] chan]; try discriminate.
    + destruct (astep a (ALookup hash oks)) as [[a1 o1]|]; [|discriminate]. destruct (acted s n a1 chan _ o1) as [s1 p1] eqn:E. intros [= <- <-]. apply (calls_acted _ _ _ _ _ _ _ [OServe t n (a_next a)] _ _ C E). quiet_obs.
    + destruct (astep a AShutdown) as [[a1 o1]|]; [|discriminate]. destruct (dies s n d) as [s1 p1] eqn:E. intros [= <- <-]. apply (calls_dies _ _ _ _ _ _ _ C E). intros x X. apply in_map_iff in X. destruct X as (y & <- & _). exact Logic.I.
  - destruct (nth_error (p_nodes s) n) as [d|]; [|discriminate]. destruct (dn_state d) as [id v6|a|]; try discriminate. destruct e as [? ?| |from msg pick oks|k pick]; try discriminate;
    (destruct (astep a _) as [[a1 o1]|]; [|discriminate]; intros [= E]; apply (calls_acted _ _ _ _ _ _ _ [] _ _ C E); intros x []).
  - destruct (nth_error (p_calls s) t) as [[c [| |m|m|r0|]]|] eqn:N; try discriminate; intros [= <- <-]; (eapply calls_update; [exact C|exact N|discriminate|reflexivity|quiet_obs|one_result]).
Qed.

(** *** The mutex *)
Definition holding (c : call) (st : tstate) : bool :=
  match st with TCreate => true | TSend _ | TWait _ => match c with CShutdown => true | CLookup _ => false end | _ => false end.
Definition lock_inv (s : appst) : Prop :=
  (forall t, p_lock s = Some t <-> exists c st, nth_error (p_calls s) t = Some (c, st) /\ holding c st = true) /\
  (forall t, nth_error (p_calls s) t <> Some (CShutdown, TCreate)).
Lemma lock_update s t c st st' L s' : lock_inv s -> nth_error (p_calls s) t = Some (c, st) -> p_calls s' = set_nth (p_calls s) t (c, st') -> p_lock s' = L ->
  (c, st') <> (CShutdown, TCreate) -> (L = Some t <-> holding c st' = true) -> (forall i, i <> t -> (L = Some i <-> p_lock s = Some i)) -> lock_inv s'.
Proof.
  intros (I0 & I1) N E EL NC S O. subst L. split; intros i; rewrite E, set_nth_get; destruct (Nat.eqb_spec t i) as [->|NE].
  - rewrite N, S. split; [eauto|]. intros (c0 & st0 & X & Y). injection X as <- <-. exact Y.
  - rewrite O by congruence. apply I0.
  - rewrite N. congruence.
  - apply I1.
Qed.
Lemma unlock_spec t L : (forall i, i <> t -> (unlock t L = Some i <-> L = Some i)) /\ unlock t L <> Some t.
Proof.
  unfold unlock. destruct L as [t'|]; [|split; [intros; split; congruence|discriminate]]. destruct (Nat.eqb_spec t t') as [->|NE]; split; try congruence.
  - intros i NE. split; congruence.
  - intros i _. reflexivity.
Qed.
Lemma lock_finish s t c st r : lock_inv s -> nth_error (p_calls s) t = Some (c, st) -> lock_inv (fst (finish s t c r)).
Proof.
  intros I0 N. destruct (unlock_spec t (p_lock s)) as (U1 & U2). eapply lock_update; [exact I0|exact N|reflexivity|reflexivity|discriminate| |exact U1]. cbn [holding]. split; [intros E; destruct (U2 E)|discriminate].
Qed.
Lemma lock_deliver n callers o s s' p : lock_inv s -> deliver s n callers o = (s', p) -> lock_inv s'.
Proof. intros C E. refine (deliver_ind (fun s _ => lock_inv s) n callers o s [] C _ _ _ E). clear. intros s h sid r t c m C _ _ N. eapply lock_finish; eauto. Qed.
Lemma lock_same s s' : lock_inv s -> p_calls s' = p_calls s -> p_lock s' = p_lock s -> lock_inv s'.
Proof. intros (I0 & I1) E F. split; intros t; rewrite E, ?F; auto. Qed.
Lemma lock_acted s n a chan callers o s' p : lock_inv s -> acted s n a chan callers o = (s', p) -> lock_inv s'.
Proof.
  unfold acted. intros C E. match type of E with context [deliver ?z n callers o] => set (s1 := z) in E; destruct (deliver s1 n callers o) as [s2 p2] eqn:D end. injection E as <- <-. eapply lock_deliver; [|exact D].
  eapply lock_same; [exact C|reflexivity|reflexivity].
Qed.
Lemma lock_dies s n d s' p : lock_inv s -> dies s n d = (s', p) -> lock_inv s'.
Proof.
  intros (I0 & I1) E. apply dies_calls in E. destruct E as (_ & _ & G & _ & _ & L). split; intros t; [rewrite L; split|].
  - intros E. destruct (p_lock s) as [t'|] eqn:PL; [|discriminate]. assert (t' = t) by (destruct (nth_error (p_calls s') t') as [[? []]|]; congruence). subst t'.
    destruct (proj1 (I0 t) eq_refl) as (c & st & N & H). rewrite G, N in E |- *. destruct (no_wait_change n (c, st)); [discriminate|]. eauto.
  - intros (c & st & N & H). assert (N' := N). rewrite G in N'. destruct (nth_error (p_calls s) t) as [[c0 st0]|] eqn:NN; [|discriminate]. destruct (no_wait_change n (c0, st0)) eqn:W; injection N' as <- <-; [discriminate|].
    rewrite (proj2 (I0 t)), N by eauto. destruct st0; try reflexivity. discriminate.
  - rewrite G. specialize (I1 t). destruct (nth_error (p_calls s) t) as [[c0 st0]|] eqn:NN; [|discriminate]. destruct (no_wait_change n (c0, st0)); congruence.
Qed.
Lemma lock_step s e s' o : lock_inv s -> pstep s e = Some (s', o) -> lock_inv s'.
Proof.
  intros C. destruct e as [c|t|t r|t|n boot|n oks|n e|t]; cbn [pstep].
  - intros [= <- <-]. destruct C as (C & C1). split; intros t; cbn [p_lock p_calls]; [rewrite C|]; (destruct (Nat.lt_ge_cases t (length (p_calls s))) as [L|L]; [rewrite nth_error_app1 by exact L; try apply C1; reflexivity|]).
    + rewrite (proj2 (nth_error_None _ _)), nth_error_app2 by lia. split; intros (c0 & st & X & Y); [discriminate|]. destruct (t - length (p_calls s)) as [|[|?]]; cbn in X; try discriminate. injection X as <- <-. discriminate.
    + rewrite nth_error_app2 by lia. destruct (t - length (p_calls s)) as [|[|?]]; cbn; discriminate.
  - destruct (p_lock s) eqn:PL; [discriminate|]. destruct (nth_error (p_calls s) t) as [[c [| |m|m|r0|]]|] eqn:N; try discriminate.
    destruct c as [hash|], (p_handle s) as [n|]; intros [= <- <-]; try (eapply lock_update; [exact C|exact N|reflexivity|reflexivity|discriminate| |]; cbn [put p_lock holding]; rewrite ?PL; cbn [unlock]; try (split; congruence); intros i NE; split; congruence).
  - destruct (nth_error (p_calls s) t) as [[c [| |m|m|r0|]]|] eqn:N; try discriminate. destruct r as [[id v6]|]; intros [= <- <-]; [|eapply lock_finish; eauto].
    destruct (unlock_spec t (p_lock s)) as (U1 & U2). destruct c as [hash|]; [|destruct (proj2 C _ N)]. eapply lock_update; [exact C|exact N|reflexivity|reflexivity|discriminate| |exact U1]. cbn [p_lock holding]. split; [intros E; destruct (U2 E)|discriminate].
  - destruct (nth_error (p_calls s) t) as [[c [| |m|m|r0|]]|] eqn:N; try discriminate. destruct (nth_error (p_nodes s) m) as [d|]; [|discriminate].
    destruct (dn_state d) as [? ?|a|]; [destruct (Nat.ltb _ _); [|discriminate]|destruct (Nat.ltb _ _); [|discriminate]|]; intros [= <- <-]; try (eapply lock_finish; eauto; fail);
    (eapply lock_update; [exact C|exact N|reflexivity|reflexivity|discriminate| |reflexivity]; cbn [p_lock]; rewrite (proj1 C t), N; destruct c; cbn [holding]; split; [intros (? & ? & X & Y); injection X as <- <-; exact Y|discriminate|reflexivity|eauto]).
  - destruct (nth_error (p_nodes s) n) as [d|]; [|discriminate]. destruct (dn_state d) as [id v6|a|]; try discriminate. destruct (a_running _).
    + intros [= <- <-]. eapply lock_same; [exact C|reflexivity|reflexivity].
    + intros [= E]. eapply lock_dies; eauto.
  - destruct (nth_error (p_nodes s) n) as [d|]; [|discriminate]. destruct (dn_state d) as [id v6|a|]; try discriminate. destruct (dn_chan d) as [|[t hash|t] chan]; try discriminate.
    + destruct (astep a (ALookup hash oks)) as [[a1 o1]|]; [|discriminate]. destruct (acted s n a1 chan _ o1) as [s1 p1] eqn:E. intros [= <- <-]. eapply lock_acted; eauto.
    + destruct (astep a AShutdown) as [[a1 o1]|]; [|discriminate]. destruct (dies s n d) as [s1 p1] eqn:E. intros [= <- <-]. eapply lock_dies; eauto.
  - destruct (nth_error (p_nodes s) n) as [d|]; [|discriminate]. destruct (dn_state d) as [id v6|a|]; try discriminate. destruct e as [? ?| |from msg pick oks|k pick]; try discriminate;
    (destruct (astep a _) as [[a1 o1]|]; [|discriminate]; intros [= E]; eapply lock_acted; eauto).
  - destruct (unlock_spec t (p_lock s)) as (U1 & U2). destruct (nth_error (p_calls s) t) as [[c [| |m|m|r0|]]|] eqn:N; try discriminate; intros [= <- <-]; (eapply lock_update; [exact C|exact N|reflexivity|reflexivity|discriminate| |exact U1]; cbn [p_lock holding]; split; [intros E; destruct (U2 E)|discriminate]).
Qed.
