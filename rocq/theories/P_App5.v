(** Proofs for the shared DHT node: what the calls observe. *)
From Verif Require Import Base M_Net M_DhtMsg M_Dht S_Dht M_App S_App P_Dht2 P_Dht4 P_Dht5 P_Dht6 P_App P_App2 P_App3 P_App4.
Local Open Scope nat_scope.

Definition gone_inv (l : list pev) (s : appst) : Prop := forall t c, nth_error (p_calls s) t = Some (c, TGone) -> In (PCancel t) l.
Record pinv (l : list pev) (h : list pobs) (s : appst) : Prop := { v_calls : calls_inv h s; v_lock : lock_inv s; v_nodes : nodes_inv h s; v_wf : wf_calls s; v_gone : gone_inv l s }.

(** What a step may change of a call: not what was asked, and it is dropped only by PCancel. *)
Definition evolves (e : pev) (calls calls' : list (call * tstate)) : Prop :=
  forall t c st', nth_error calls' t = Some (c, st') ->
    (exists st, nth_error calls t = Some (c, st) /\ (st' = TGone -> st = TGone \/ e = PCancel t)) \/ (e = PCall c /\ st' = TLock).
Lemma evolves_put e (calls : list (call * tstate)) t c st st' : nth_error calls t = Some (c, st) -> (st' = TGone -> e = PCancel t) -> evolves e calls (set_nth calls t (c, st')).
Proof.
  intros N G i c0 st0. rewrite set_nth_get. destruct (Nat.eqb_spec t i) as [->|NE].
  - rewrite N. intros [= <- <-]. left. exists st. auto.
  - intros X. left. eauto.
Qed.
Lemma evolves_refl e calls : evolves e calls calls.
Proof. intros t c st X. left. eauto. Qed.
Lemma evolves_deliver e n callers o s s' p : deliver s n callers o = (s', p) -> evolves e (p_calls s) (p_calls s').
Proof.
  intros E. refine (deliver_ind (fun s1 _ => evolves e (p_calls s) (p_calls s1)) n callers o s [] (evolves_refl _ _) _ _ _ E). clear - s. intros s1 h sid r t c m V _ _ N i c0 st0. unfold M_App.finish. cbn [fst p_calls]. rewrite set_nth_get. destruct (Nat.eqb_spec t i) as [->|NE]; [|apply V].
  rewrite N. intros [= <- <-]. destruct (V _ _ _ N) as [(st & X & _)|(X & Y)]; [|discriminate]. left. exists st. split; [exact X|discriminate].
Qed.
Lemma evolves_acted e s n a chan callers o s' p : acted s n a chan callers o = (s', p) -> evolves e (p_calls s) (p_calls s').
Proof. unfold acted. match goal with |- context [deliver ?z n callers o] => destruct (deliver z n callers o) as [s2 p2] eqn:D end. intros [= <- <-]. apply evolves_deliver with (e := e) in D. exact D. Qed.
Lemma evolves_dies e s n d s' p : dies s n d = (s', p) -> evolves e (p_calls s) (p_calls s').
Proof.
  intros E. apply dies_calls in E. destruct E as (_ & _ & G & _). intros t c st N. rewrite G in N. destruct (nth_error (p_calls s) t) as [[c0 st0]|]; [|discriminate]. left. destruct (no_wait_change n (c0, st0)); injection N as <- <-; exists st0; auto. split; [reflexivity|discriminate].
Qed.
Lemma evolves_step s e s' o : pstep s e = Some (s', o) -> evolves e (p_calls s) (p_calls s').
Proof.
  destruct e as [c|t|t r|t|n boot|n oks|n e|t]; cbn [pstep].
  - intros [= <- <-] t c0 st N. cbn [p_calls] in N. destruct (Nat.lt_ge_cases t (length (p_calls s))) as [L|L].
    + rewrite nth_error_app1 in N by exact L. left. eauto.
    + rewrite nth_error_app2 in N by exact L. destruct (t - length (p_calls s)) as [|[|?]]; cbn in N; try discriminate. injection N as <- <-. auto.
  - destruct (p_lock s); [discriminate|]. destruct (nth_error (p_calls s) t) as [[c [| |m|m|r0|]]|] eqn:N; try discriminate.
    destruct c as [hash|], (p_handle s) as [n|]; intros [= <- <-]; (eapply evolves_put; [exact N|discriminate]).
  - destruct (nth_error (p_calls s) t) as [[c [| |m|m|r0|]]|] eqn:N; try discriminate. destruct r as [[id v6]|]; intros [= <- <-]; (eapply evolves_put; [exact N|discriminate]).
  - destruct (nth_error (p_calls s) t) as [[c [| |m|m|r0|]]|] eqn:N; try discriminate. destruct (nth_error (p_nodes s) m) as [d|]; [|discriminate].
    destruct (dn_state d) as [? ?|a|]; [destruct (Nat.ltb _ _); [|discriminate]|destruct (Nat.ltb _ _); [|discriminate]|]; intros [= <- <-]; (eapply evolves_put; [exact N|discriminate]).
  - destruct (nth_error (p_nodes s) n) as [d|]; [|discriminate]. destruct (dn_state d) as [id v6|a|]; try discriminate. destruct (a_running _).
    + intros [= <- <-]. apply evolves_refl.
    + intros [= E]. eapply evolves_dies; eauto.
  - destruct (nth_error (p_nodes s) n) as [d|]; [|discriminate]. destruct (dn_state d) as [id v6|a|]; try discriminate. destruct (dn_chan d) as [|[t hash|t] chan]; try discriminate.
    + destruct (astep a (ALookup hash oks)) as [[a1 o1]|]; [|discriminate]. destruct (acted s n a1 chan _ o1) as [s1 p1] eqn:E. intros [= <- <-]. eapply evolves_acted; eauto.
    + destruct (astep a AShutdown) as [[a1 o1]|]; [|discriminate]. destruct (dies s n d) as [s1 p1] eqn:E. intros [= <- <-]. eapply evolves_dies; eauto.
  - destruct (nth_error (p_nodes s) n) as [d|]; [|discriminate]. destruct (dn_state d) as [id v6|a|]; try discriminate. destruct e as [? ?| |from msg pick oks|k pick]; try discriminate;
    (destruct (astep a _) as [[a1 o1]|]; [|discriminate]; intros [= E]; eapply evolves_acted; eauto).
  - destruct (nth_error (p_calls s) t) as [[c [| |m|m|r0|]]|] eqn:N; try discriminate; intros [= <- <-]; (eapply evolves_put; [exact N|reflexivity]).
Qed.
Lemma pinv_step l h s e s' o : pinv l h s -> wf_pev e -> pstep s e = Some (s', o) -> pinv (l ++ [e]) (h ++ o) s'.
Proof.
  intros V W E. pose proof (evolves_step _ _ _ _ E) as EV. constructor.
  - eapply calls_step; eauto using v_calls.
  - eapply lock_step; eauto using v_lock.
  - eapply nodes_step; eauto using v_lock, v_nodes, v_wf.
  - intros t hash st N. destruct (EV _ _ _ N) as [(st0 & X & _)|(-> & _)]; [eapply (v_wf _ _ _ V); eauto|exact W].
  - intros t c N. apply in_or_app. destruct (EV _ _ _ N) as [(st0 & X & Y)|(_ & Y)]; [|discriminate]. destruct (Y eq_refl) as [->|Z]; [left; eapply (v_gone _ _ _ V); eauto|right; left; exact Z].
Qed.
Lemma pinv_start : pinv [] [] app_new.
Proof.
  constructor.
  - split; [intros t c|intros t]; cbn [app_new p_calls].
    + split; [intros []|]. intros (st & X). destruct t; discriminate.
    + destruct t; reflexivity.
  - split; intros t; cbn [app_new p_calls p_lock]; [split; [discriminate|]; intros (c & st & X & _)|]; destruct t; discriminate.
  - left. cbn [app_new p_calls p_handle p_nodes]. repeat split. intros t c st X. destruct t; discriminate.
  - intros t hash st X. cbn [app_new p_calls] in X. destruct t; discriminate.
  - intros t c X. cbn [app_new p_calls] in X. destruct t; discriminate.
Qed.
Lemma pinv_run : forall l' l h s s' o, pinv l h s -> Forall wf_pev l' -> prun s l' = Some (s', o) -> pinv (l ++ l') (h ++ o) s'.
Proof.
  induction l' as [|e l' IH]; intros l h s s' o V W; cbn [prun]; [intros [= <- <-]; rewrite !app_nil_r; exact V|]. inversion W as [|? ? W1 W2]; subst.
  destruct (pstep s e) as [[s1 o1]|] eqn:E; [|discriminate]. destruct (prun s1 l') as [[s2 o2]|] eqn:R; [|discriminate]. intros [= <- <-].
  rewrite app_assoc. replace (l ++ e :: l') with ((l ++ [e]) ++ l') by (rewrite <- app_assoc; reflexivity). eapply IH; [eapply pinv_step; eauto|exact W2|exact R].
Qed.
Lemma reached l s h : Forall wf_pev l -> prun app_new l = Some (s, h) -> pinv l h s.
Proof. intros W R. apply (pinv_run l [] [] app_new s h pinv_start W R). Qed.

Lemma in_results h t r : In r (results h t) <-> In (OReturn t r) h.
Proof.
  unfold results. rewrite in_flat_map. split.
  - intros (x & X & Y). destruct x; try destruct Y. destruct (Nat.eqb_spec t0 t) as [->|]; [|destruct Y]. destruct Y as [->|[]]. exact X.
  - intros X. exists (OReturn t r). rewrite Nat.eqb_refl. cbn. auto.
Qed.
Lemma in_serves h t n sid : In (n, (sid, t)) (serves h) <-> In (OServe t n sid) h.
Proof.
  unfold serves. rewrite in_flat_map. split.
  - intros (x & X & Y). destruct x; try (destruct Y; fail). destruct Y as [Y|[]]. injection Y as -> -> ->. exact X.
  - intros X. exists (OServe t n sid). cbn. auto.
Qed.
Lemma one_node l s h : Forall wf_pev l -> prun app_new l = Some (s, h) -> length (created h) <= 1.
Proof. intros W R. apply (reached _ _ _ W) in R. destruct (v_nodes _ _ _ R) as [(_ & _ & -> & _)|(d & _ & _ & -> & _)]; cbn; lia. Qed.
Lemma once l s h t : Forall wf_pev l -> prun app_new l = Some (s, h) -> length (results h t) <= 1.
Proof. intros W R. apply (reached _ _ _ W) in R. rewrite (proj2 (v_calls _ _ _ R)). destruct (nth_error (p_calls s) t) as [[c []]|]; cbn; lia. Qed.
Lemma node_history F d : state_inv F d -> exists id v6 boot a, history id v6 boot a F.
Proof.
  unfold state_inv. destruct (dn_state d) as [id v6|a|].
  - intros (-> & _). exists id, v6, [], (actor_start id v6 []), []. split; [constructor|reflexivity].
  - intros (_ & _ & id & v6 & boot & H). eauto.
  - intros (_ & id & v6 & boot & a & H & _). eauto.
Qed.
Lemma own_result l s h t r : Forall wf_pev l -> prun app_new l = Some (s, h) -> In (OReturn t (Found r)) h ->
  exists hash n sid, In (OBegin t (CLookup hash)) h /\ In (OServe t n sid) h /\ In (OLookup sid hash) (of_node n h) /\ answers (of_node n h) sid = [r].
Proof.
  intros W R X. apply (reached _ _ _ W) in R. apply in_results in X. rewrite (proj2 (v_calls _ _ _ R)) in X. destruct (nth_error (p_calls s) t) as [[c st]|] eqn:N; [|destruct X]. destruct st as [| |?|?|r0|]; try (destruct X; fail). destruct X as [->|[]].
  destruct (v_nodes _ _ _ R) as [(_ & _ & _ & _ & _ & E)|(d & _ & _ & _ & _ & SV & _ & V)]; [destruct (E _ _ _ N)|].
  assert (Y := n_found _ _ _ _ V _ _ _ N). apply in_map_iff in Y. destruct Y as ([sid t'] & Y1 & Y). cbn [snd] in Y1. subst t'.
  destruct (n_call _ _ _ _ V _ _ Y) as (hash & st & N1 & L & Q). rewrite N in N1. injection N1 as -> <-. cbn [served] in Q. exists hash, 0, sid.
  split; [apply (proj1 (v_calls _ _ _ R)); eauto|]. split; [|auto]. apply in_serves. rewrite SV. apply (in_map (pair 0)) in Y. exact Y.
Qed.
Lemma histories l s h n : Forall wf_pev l -> prun app_new l = Some (s, h) -> exists id v6 boot a, history id v6 boot a (of_node n h).
Proof.
  intros W R. apply (reached _ _ _ W) in R. assert (Z : forall F, F = [] -> exists id v6 boot a, history id v6 boot a F) by (intros F ->; exists [], false, [], (actor_start [] false []), []; split; [constructor|reflexivity]).
  destruct (v_nodes _ _ _ R) as [(_ & _ & _ & E & _)|(d & _ & _ & _ & E & _ & _ & V)]; [apply Z, E|]. destruct (Nat.eq_dec n 0) as [->|NE]; [|apply Z, E; exact NE]. eapply node_history. apply (n_state _ _ _ _ V).
Qed.
Lemma distinct l s h t t' n n' sid sid' : Forall wf_pev l -> prun app_new l = Some (s, h) -> In (OServe t n sid) h -> In (OServe t' n' sid') h -> n = n' /\ (t = t' <-> sid = sid').
Proof.
  intros W R X Y. apply (reached _ _ _ W) in R. apply in_serves in X, Y. destruct (v_nodes _ _ _ R) as [(_ & _ & _ & _ & E & _)|(d & _ & _ & _ & _ & SV & _ & V)]; [rewrite E in X; destruct X|].
  rewrite SV in X, Y. apply in_map_iff in X, Y. destruct X as ([i j] & X1 & X), Y as ([i' j'] & Y1 & Y). injection X1 as <- -> ->. injection Y1 as <- -> ->. split; [reflexivity|].
  assert (ND1 : NoDup (map fst (dn_callers d))) by (rewrite (n_ids _ _ _ _ V); apply seq_NoDup). assert (ND2 := n_nd _ _ _ _ V). unfold fed in ND2. apply NoDup_app_l in ND2. clear - X Y ND1 ND2.
  induction (dn_callers d) as [|[a b] q IH]; [destruct X|]. cbn [map fst snd] in *. inversion ND1 as [|? ? A1 A2]; inversion ND2 as [|? ? B1 B2]; subst.
  destruct X as [X|X], Y as [Y|Y]; try (injection X as -> ->); try (injection Y as -> ->).
  - tauto.
  - split; intros ->; [destruct (B1 (in_map snd _ _ Y))|destruct (A1 (in_map fst _ _ Y))].
  - split; intros ->; [destruct (B1 (in_map snd _ _ X))|destruct (A1 (in_map fst _ _ X))].
  - auto.
Qed.

(** *** Progress *)
Lemma few_node l s h t : Forall wf_pev l -> prun app_new l = Some (s, h) -> (forall n, few (of_node n h)) -> pending l h t -> exists e, inner e /\ pstep s e <> None.
Proof.
  intros W R FW ((c & PB) & PR & PC). apply (reached _ _ _ W) in R. assert (CI := v_calls _ _ _ R). apply (proj1 CI) in PB. destruct PB as (st & N). rewrite (proj2 CI), N in PR.
  assert (SND : forall d i c0, p_nodes s = [d] -> nth_error (p_calls s) i = Some (c0, TSend 0) -> dn_state d = Dead \/ length (dn_chan d) = 0 -> exists e, inner e /\ pstep s e <> None).
  { intros d i c0 EN Ni Q. exists (PSend i). split; [exact Logic.I|]. cbn [pstep]. rewrite Ni, EN. cbn [nth_error]. destruct (dn_state d); try discriminate; destruct Q as [Q|Q]; try discriminate; rewrite Q; discriminate. }
  assert (NODE : forall d, p_nodes s = [d] -> dn_state d <> Dead -> (exists i c0, nth_error (p_calls s) i = Some (c0, TSend 0) \/ nth_error (p_calls s) i = Some (c0, TWait 0)) -> exists e, inner e /\ pstep s e <> None).
  { intros d EN ND (i & c0 & Ni). assert (V := nodes_ninv _ _ _ (v_nodes _ _ _ R) EN). pose proof (n_state _ _ _ _ V) as ST. unfold state_inv in ST. destruct (dn_state d) as [id v6|a|] eqn:DS; [| |congruence].
    - exists (PResolve 0 [mkSA (V4 0) 0%N]). split; [exact Logic.I|]. cbn [pstep]. rewrite EN. cbn [nth_error]. rewrite DS. discriminate.
    - destruct ST as (RU & _ & id & v6 & boot & HI). destruct (dn_chan d) as [|m chan] eqn:CH.
      + destruct Ni as [Ni|Ni]; [apply (SND d i c0 EN Ni); right; rewrite CH; reflexivity|]. destruct (n_wait _ _ _ _ V _ _ _ Ni) as (_ & X). unfold fed in X. rewrite CH in X. cbn [map] in X. rewrite app_nil_r in X. apply in_map_iff in X. destruct X as ([sid i'] & E & X). cbn [snd] in E. subst i'.
        destruct (n_call _ _ _ _ V _ _ X) as (hash & st1 & N1 & L & SV). rewrite Ni in N1. injection N1 as -> <-. cbn [served] in SV. destruct (lookup_answered _ _ _ _ _ _ _ HI L (FW 0)) as [(Q & _)|[(_ & _ & Q)|(_ & _ & addr & txn & _ & _ & a' & o & AS)]].
        * rewrite SV in Q. discriminate.
        * congruence.
        * exists (PNet 0 (ATimeout (addr, txn) (Some sid))). split; [exact Logic.I|]. cbn [pstep]. rewrite EN. cbn [nth_error]. rewrite DS, AS. discriminate.
      + exists (PTake 0 []). split; [exact Logic.I|]. cbn [pstep]. rewrite EN. cbn [nth_error]. rewrite DS, CH. destruct m as [i' hash|i'].
        * destruct (lookup_possible a hash [] RU) as (a' & o & AS). rewrite AS. destruct (acted _ _ _ _ _ _). discriminate.
        * unfold astep. rewrite RU. destruct (dies _ _ _). discriminate. }
  assert (LOCKED : forall i, p_lock s = Some i -> exists e, inner e /\ pstep s e <> None).
  { intros i PL. destruct (proj1 (proj1 (v_lock _ _ _ R) i) PL) as (c0 & st0 & N0 & H0). destruct (v_nodes _ _ _ R) as [(A1 & A2 & _ & _ & _ & A6)|(d & A1 & A2 & _ & _ & _ & A6 & V)].
    - assert (E := A6 _ _ _ N0). destruct st0; try discriminate; try destruct E. exists (PCreate i None). split; [exact Logic.I|]. cbn [pstep]. rewrite N0. discriminate.
    - assert (E := A6 _ _ _ N0). destruct st0 as [| |n|n|r0|]; try discriminate; try (destruct E; fail); cbn [here] in E; subst n.
      + destruct (dn_state d) eqn:DS; try (apply (NODE d A2); [congruence|eauto]; fail). apply (SND d i c0 A2 N0). auto.
      + apply (NODE d A2); [|eauto]. apply (n_wait _ _ _ _ V _ _ _ N0). }
  destruct (p_lock s) as [i|] eqn:PL; [apply (LOCKED i); reflexivity|]. clear LOCKED.
  destruct st as [| |n|n|r0|].
  - exists (PLock t). split; [exact Logic.I|]. cbn [pstep]. rewrite PL, N. destruct c, (p_handle s); discriminate.
  - exists (PCreate t None). split; [exact Logic.I|]. cbn [pstep]. rewrite N. discriminate.
  - destruct (v_nodes _ _ _ R) as [(A1 & A2 & _ & _ & _ & A6)|(d & A1 & A2 & _ & _ & _ & A6 & V)]; assert (E := A6 _ _ _ N); [destruct E|]. cbn [here] in E. subst n.
    destruct (dn_state d) eqn:DS; try (apply (NODE d A2); [congruence|eauto]; fail). apply (SND d t c A2 N). auto.
  - destruct (v_nodes _ _ _ R) as [(A1 & A2 & _ & _ & _ & A6)|(d & A1 & A2 & _ & _ & _ & A6 & V)]; assert (E := A6 _ _ _ N); [destruct E|]. cbn [here] in E. subst n. apply (NODE d A2); [|eauto]. apply (n_wait _ _ _ _ V _ _ _ N).
  - discriminate.
  - destruct PC. eapply (v_gone _ _ _ R); eauto.
Qed.
