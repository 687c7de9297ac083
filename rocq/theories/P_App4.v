(** Proofs for the shared DHT node: the invariant. *)
From Verif Require Import Base M_Net M_DhtMsg M_Dht S_Dht M_App S_App P_Dht2 P_Dht4 P_Dht5 P_Dht6 P_App P_App2 P_App3.
Local Open Scope nat_scope.

Definition early (st : tstate) : Prop := match st with TSend _ | TWait _ | TDone (Found _) | TDone HandleFailed => False | _ => True end.
Definition here (st : tstate) : Prop := match st with TCreate => False | TSend n | TWait n => n = 0 | _ => True end.
Definition nodes_inv (h : list pobs) (s : appst) : Prop :=
  (p_handle s = None /\ p_nodes s = [] /\ created h = [] /\ (forall n, of_node n h = []) /\ serves h = [] /\
     forall t c st, nth_error (p_calls s) t = Some (c, st) -> early st) \/
  (exists d, p_handle s = Some 0 /\ p_nodes s = [d] /\ created h = [0] /\ (forall n, n <> 0 -> of_node n h = []) /\ serves h = map (pair 0) (dn_callers d) /\
     (forall t c st, nth_error (p_calls s) t = Some (c, st) -> here st) /\ ninv (of_node 0 h) (of_node 0 h) d (p_calls s)).
Definition wf_calls (s : appst) : Prop := forall t hash st, nth_error (p_calls s) t = Some (CLookup hash, st) -> length hash = 20.

Lemma serves_app h o : serves (h ++ o) = serves h ++ serves o.
Proof. unfold serves. apply flat_map_app. Qed.
Lemma serves_dht n o : serves (map (ODht n) o) = [].
Proof. unfold serves. induction o as [|x o IH]; [reflexivity|exact IH]. Qed.
Lemma returns_only p : (forall x, In x p -> exists t r, x = OReturn t r) -> created p = [] /\ serves p = [] /\ forall n, of_node n p = [].
Proof.
  intros K. split; [|split; [|intros n]]; apply flat_map_none; intros x X; destruct (K x X) as (t & r & ->); reflexivity.
Qed.
Lemma update_states (P : tstate -> Prop) (calls : list (call * tstate)) t c st' : (forall i c0 st, nth_error calls i = Some (c0, st) -> P st) -> P st' ->
  forall i c0 st, nth_error (set_nth calls t (c, st')) i = Some (c0, st) -> P st.
Proof.
  intros A B i c0 st. rewrite set_nth_get. destruct (Nat.eqb_spec t i) as [->|NE]; [|apply A]. destruct (nth_error calls i); [|discriminate]. intros [= <- <-]. exact B.
Qed.
(** A step that only moves one call on. *)
Lemma nodes_put h s t c st st' o s' : nodes_inv h s -> nth_error (p_calls s) t = Some (c, st) -> p_calls s' = set_nth (p_calls s) t (c, st') -> p_handle s' = p_handle s -> p_nodes s' = p_nodes s ->
  (forall x, In x o -> exists t r, x = OReturn t r) ->
  (st' = TGone \/ (match st with TLock | TCreate | TSend _ => True | _ => False end)) -> (match st' with TWait _ | TDone (Found _) => False | _ => True end) ->
  (p_handle s = None -> early st -> early st') -> (p_handle s <> None -> here st -> here st') -> nodes_inv (h ++ o) s'.
Proof.
  intros V N EC EH EN KO S0 S1 SE SH. destruct (returns_only o KO) as (O1 & O2 & O3).
  destruct V as [(A1 & A2 & A3 & A4 & A5 & A6)|(d & A1 & A2 & A3 & A4 & A5 & A6 & V)]; [left|right; exists d]; rewrite EH, EN, EC, created_app, serves_app, O1, O2, !app_nil_r.
  - split; [exact A1|]. split; [exact A2|]. split; [exact A3|]. split; [intros n; rewrite of_node_app, A4, O3; reflexivity|]. split; [exact A5|].
    apply update_states; [exact A6|]. apply SE; [exact A1|]. eapply A6; eauto.
  - split; [exact A1|]. split; [exact A2|]. split; [exact A3|]. split; [intros n NE; rewrite of_node_app, (A4 n NE), O3; reflexivity|]. split; [exact A5|]. split.
    + apply update_states; [exact A6|]. apply SH; [congruence|]. eapply A6; eauto.
    + rewrite of_node_app, O3, app_nil_r. eapply ninv_put; eauto.
Qed.
Lemma at_most_once_all id v6 boot a h sid : history id v6 boot a h -> length (answers h sid) <= 1.
Proof.
  intros H. destruct (answers h sid) as [|r l] eqn:E; [cbn; lia|]. rewrite <- E.
  assert (X : In r (answers h sid)) by (rewrite E; left; reflexivity). unfold answers in X. apply in_flat_map in X. destruct X as (x & X & Y). destruct x as [? ?|? ? ? ?|? ? ? ?|? ? ?|i r'|?]; try destruct Y.
  destruct (Nat.eqb_spec i sid) as [->|NE]; [|destruct Y]. destruct (query_has_lookup _ _ _ _ _ _ H X) as (hash & L & _). cbn [sid_of] in L.
  pose proof (lookup_at_most_once _ _ _ _ _ _ _ H L). lia.
Qed.
Lemma fresh_answers id v6 boot a h sid : history id v6 boot a h -> a_next a <= sid -> answers h sid = [].
Proof.
  intros H LE. destruct (answers h sid) as [|r l] eqn:E; [reflexivity|].
  assert (X : In r (answers h sid)) by (rewrite E; left; reflexivity). unfold answers in X. apply in_flat_map in X. destruct X as (x & X & Y). destruct x as [? ?|? ? ? ?|? ? ? ?|? ? ?|i r'|?]; try destruct Y.
  destruct (Nat.eqb_spec i sid) as [->|NE]; [|destruct Y]. destruct (query_has_lookup _ _ _ _ _ _ H X) as (hash & L & _). cbn [sid_of] in L.
  destruct (history_lookup _ _ _ _ _ _ _ H L) as (LT & _). lia.
Qed.
(** The node acts. *)
Lemma nodes_acted h s d a1 chan callers o pre s' p : nodes_inv h s -> p_nodes s = [d] -> acted s 0 a1 chan callers o = (s', p) ->
  (forall x, In x pre -> exists t n sid, x = OServe t n sid) -> serves pre = map (pair 0) (skipn (length (dn_callers d)) callers) -> (exists more, callers = dn_callers d ++ more) ->
  (forall sid, length (answers (of_node 0 h ++ o) sid) <= 1) ->
  ninv (of_node 0 h ++ o) (of_node 0 h) (mkNode (Running a1) chan callers) (p_calls s) ->
  nodes_inv (h ++ pre ++ p) s'.
Proof.
  intros V EN E KP SP (more & EM) AO V1. unfold acted in E. match type of E with context [deliver ?z 0 callers o] => set (s1 := z) in E; destruct (deliver s1 0 callers o) as [s2 p2] eqn:D end. injection E as <- <-.
  destruct V as [(A1 & A2 & _)|(d' & A1 & A2 & A3 & A4 & A5 & A6 & V)]; [congruence|]. assert (d' = d) by congruence. subst d'. right. exists (mkNode (Running a1) chan callers).
  destruct (ninv_deliver (of_node 0 h ++ o) (mkNode (Running a1) chan callers) o (of_node 0 h) s1 s2 p2 V1) as (V2 & (F1 & F2 & F3) & K); [intros sid _; apply AO|exact D|].
  destruct (returns_only p2) as (O1 & O2 & O3); [intros x X; destruct (K x X) as (t & r & ->); eauto|].
  assert (P1 : created pre = []) by (apply flat_map_none; intros x X; destruct (KP x X) as (? & ? & ? & ->); reflexivity).
  assert (P2 : forall n, of_node n pre = []) by (intros n; apply flat_map_none; intros x X; destruct (KP x X) as (? & ? & ? & ->); reflexivity).
  split; [rewrite F1; exact A1|]. split; [rewrite F2; unfold s1; cbn [p_nodes]; rewrite EN; reflexivity|]. split; [rewrite !created_app, P1, created_dht, O1, !app_nil_r; exact A3|].
  split; [|split; [|split]].
  - intros n NE. rewrite !of_node_app, (A4 n NE), P2, O3, !app_nil_r. cbn [app]. apply flat_map_none. intros x X. apply in_map_iff in X. destruct X as (y & <- & _). destruct (Nat.eqb_spec 0 n); [congruence|reflexivity].
  - rewrite !serves_app, serves_dht, O2, A5, SP, !app_nil_r. cbn [dn_callers]. rewrite <- map_app. f_equal. rewrite EM, skipn_app, Nat.sub_diag, skipn_all. reflexivity.
  - intros t c st N. destruct (F3 t) as [X|(c0 & n & r & X & Y)]; [|rewrite Y in N; injection N as <- <-; exact Logic.I]. rewrite X in N. eapply A6; eauto.
  - rewrite !of_node_app, P2, of_node_dht, O3, !app_nil_r. cbn [app]. exact V2.
Qed.
(** The node dies. *)
Lemma nodes_dies h s d s' p o : nodes_inv h s -> p_nodes s = [d] -> dies s 0 d = (s', p) -> (forall sid, answers o sid = []) ->
  (exists id v6 boot a, history id v6 boot a (of_node 0 h ++ o) /\ a_running a = false) -> nodes_inv (h ++ map (ODht 0) o ++ p) s'.
Proof.
  intros V EN E NA HH. destruct V as [(A1 & A2 & _)|(d' & A1 & A2 & A3 & A4 & A5 & A6 & V)]; [congruence|]. assert (d' = d) by congruence. subst d'. apply dies_calls in E. destruct E as (E1 & E2 & G & R & K & _).
  destruct (returns_only p K) as (O1 & O2 & O3). right. exists (mkNode Dead [] (dn_callers d)). split; [congruence|]. split; [rewrite E2, EN; reflexivity|]. split; [rewrite !created_app, created_dht, O1, !app_nil_r; exact A3|].
  split; [|split; [|split]].
  - intros n NE. rewrite !of_node_app, (A4 n NE), O3, !app_nil_r. cbn [app]. apply flat_map_none. intros x X. apply in_map_iff in X. destruct X as (y & <- & _). destruct (Nat.eqb_spec 0 n); [congruence|reflexivity].
  - rewrite !serves_app, serves_dht, O2, A5, !app_nil_r. reflexivity.
  - intros t c st N. rewrite G in N. destruct (nth_error (p_calls s) t) as [[c0 st0]|] eqn:N0; [|discriminate]. apply A6 in N0. destruct (no_wait_change 0 (c0, st0)); injection N as <- <-; [exact Logic.I|exact N0].
  - rewrite !of_node_app, of_node_dht, O3, !app_nil_r. set (F := of_node 0 h) in *.
    assert (W : forall t c n, nth_error (p_calls s) t = Some (c, TWait n) -> n = 0) by (intros t c n N; apply A6 in N; exact N).
    constructor; cbn [dn_state dn_chan dn_callers].
    + unfold state_inv. cbn [dn_state dn_chan]. auto.
    + apply V.
    + unfold fed. cbn [dn_callers dn_chan map]. rewrite app_nil_r. eapply NoDup_app_l. apply (n_nd _ _ _ _ V).
    + intros m [].
    + intros sid t X. destruct (n_call _ _ _ _ V _ _ X) as (hash & st & N & L & SV). rewrite G, N. assert (WW := W t (CLookup hash)). rewrite N in WW. cbn [fst]. destruct st as [| |n|n|[r| | |]|]; cbn [no_wait_change served] in *; try (destruct SV; fail).
      * rewrite (WW n eq_refl). cbn [Nat.eqb on_death]. exists hash, (TDone HandleFailed). split; [reflexivity|]. split; [apply in_or_app; auto|reflexivity].
      * exists hash, (TDone (Found r)). split; [reflexivity|]. split; [apply in_or_app; auto|]. cbn [served]. rewrite answers_app, NA, app_nil_r. exact SV.
      * exists hash, (TDone HandleFailed). split; [reflexivity|]. split; [apply in_or_app; auto|reflexivity].
      * exists hash, TGone. split; [reflexivity|]. split; [apply in_or_app; auto|exact Logic.I].
    + intros t c n N. exfalso. rewrite G in N. destruct (nth_error (p_calls s) t) as [[c0 st0]|] eqn:N0; [|discriminate]. destruct (no_wait_change 0 (c0, st0)) eqn:NW; [discriminate|]. injection N as -> ->. rewrite (W t _ n N0) in NW. discriminate.
    + intros t c r N. rewrite G in N. destruct (nth_error (p_calls s) t) as [[c0 st0]|] eqn:N0; [|discriminate]. destruct (no_wait_change 0 (c0, st0)) eqn:NW; injection N as -> ->.
      * destruct st0 as [| | |m| |]; try discriminate. cbn in NW. destruct (Nat.eqb m 0); [|discriminate]. destruct c; discriminate.
      * eapply (n_found _ _ _ _ V); eauto.
Qed.
Lemma node_zero h s n d : nodes_inv h s -> nth_error (p_nodes s) n = Some d -> n = 0 /\ p_nodes s = [d].
Proof.
  intros [(_ & A2 & _)|(d' & _ & A2 & _)] N; rewrite A2 in N |- *; destruct n as [|[|?]]; cbn in N; try discriminate. injection N as ->. auto.
Qed.
Lemma nodes_ninv h s d : nodes_inv h s -> p_nodes s = [d] -> ninv (of_node 0 h) (of_node 0 h) d (p_calls s).
Proof. intros [(_ & A2 & _)|(d' & _ & A2 & _ & _ & _ & _ & V)] E; [congruence|]. assert (d' = d) by congruence. subst. exact V. Qed.
Lemma history_app id v6 boot a h e a' o : history id v6 boot a h -> wf_ev e -> astep a e = Some (a', o) -> history id v6 boot a' (h ++ o).
Proof. intros. eapply history_step; eauto. Qed.
Lemma nodes_step h s e s' o : nodes_inv h s -> lock_inv s -> wf_calls s -> pstep s e = Some (s', o) -> nodes_inv (h ++ o) s'.
Proof.
  intros V LK WF. destruct e as [c|t|t r|t|n boot|n oks|n e|t]; cbn [pstep].
  - intros [= <- <-]. destruct V as [(A1 & A2 & A3 & A4 & A5 & A6)|(d & A1 & A2 & A3 & A4 & A5 & A6 & V)]; [left|right; exists d]; cbn [p_handle p_nodes p_calls]; rewrite created_app, serves_app; cbn [created serves flat_map]; rewrite !app_nil_r.
    + split; [exact A1|]. split; [exact A2|]. split; [exact A3|]. split; [intros n; rewrite of_node_app, A4; reflexivity|]. split; [exact A5|]. intros t c0 st N. destruct (Nat.lt_ge_cases t (length (p_calls s))) as [L|L].
      * rewrite nth_error_app1 in N by exact L. eapply A6; eauto.
      * rewrite nth_error_app2 in N by exact L. destruct (t - length (p_calls s)) as [|[|?]]; cbn in N; try discriminate. injection N as <- <-. exact Logic.I.
    + split; [exact A1|]. split; [exact A2|]. split; [exact A3|]. split; [intros n NE; rewrite of_node_app, (A4 n NE); reflexivity|]. split; [exact A5|].
      assert (G : forall t c0 st, nth_error (p_calls s ++ [(c, TLock)]) t = Some (c0, st) -> nth_error (p_calls s) t = Some (c0, st) \/ st = TLock).
      { intros t c0 st N. destruct (Nat.lt_ge_cases t (length (p_calls s))) as [L|L].
        - rewrite nth_error_app1 in N by exact L. auto.
        - rewrite nth_error_app2 in N by exact L. destruct (t - length (p_calls s)) as [|[|?]]; cbn in N; try discriminate. injection N as <- <-. auto. }
      assert (G2 : forall t x, nth_error (p_calls s) t = Some x -> nth_error (p_calls s ++ [(c, TLock)]) t = Some x).
      { intros t x N. rewrite nth_error_app1; [exact N|]. apply nth_error_Some. congruence. }
      split.
      * intros t c0 st N. destruct (G _ _ _ N) as [X| ->]; [eapply A6; eauto|exact Logic.I].
      * rewrite of_node_app. cbn [of_node flat_map]. rewrite app_nil_r. constructor; try apply V.
        -- intros m X. destruct (n_chan _ _ _ _ V _ X) as (c1 & st1 & N1 & Q). exists c1, st1. split; [apply G2; exact N1|exact Q].
        -- intros sid t X. destruct (n_call _ _ _ _ V _ _ X) as (hash & st1 & N1 & Q). exists hash, st1. split; [apply G2; exact N1|exact Q].
        -- intros t c0 n N. destruct (G _ _ _ N) as [X|X]; [eapply (n_wait _ _ _ _ V); eauto|discriminate].
        -- intros t c0 r N. destruct (G _ _ _ N) as [X|X]; [eapply (n_found _ _ _ _ V); eauto|discriminate].
  - destruct (p_lock s); [discriminate|]. destruct (nth_error (p_calls s) t) as [[c [| |m|m|r0|]]|] eqn:N; try discriminate.
    assert (HZ : forall n, p_handle s = Some n -> n = 0) by (intros n E; destruct V as [(A1 & _)|(d & A1 & _)]; congruence).
    destruct c as [hash|], (p_handle s) as [n|] eqn:PH; intros [= <- <-]; (eapply nodes_put; [exact V|exact N|reflexivity|cbn; congruence|reflexivity| |auto|exact Logic.I| |]; cbn [early here]; rewrite ?PH; auto; try congruence;
      try (intros x X; destruct X; subst; eauto; fail)).
    intros x [<-|[]]; eauto.
  - destruct (nth_error (p_calls s) t) as [[c [| |m|m|r0|]]|] eqn:N; try discriminate. destruct r as [[id v6]|]; intros [= <- <-].
    2:{ eapply nodes_put; [exact V|exact N|reflexivity|reflexivity|reflexivity| |auto|exact Logic.I| |]; cbn [early here]; auto. intros x [<-|[]]; eauto. }
    destruct V as [(A1 & A2 & A3 & A4 & A5 & A6)|(d & A1 & A2 & A3 & A4 & A5 & A6 & V)]; [|destruct (A6 _ _ _ N)]. right. exists (mkNode (Resolving id v6) [] []).
    rewrite A2. cbn [length app p_handle p_nodes p_calls dn_callers map]. rewrite created_app, serves_app, A3, A5. split; [reflexivity|]. split; [reflexivity|]. split; [reflexivity|]. split; [intros n _; rewrite of_node_app, A4; reflexivity|]. split; [reflexivity|].
    assert (G : forall i c0 st, nth_error (set_nth (p_calls s) t (c, TSend 0)) i = Some (c0, st) -> st = TSend 0 \/ (early st /\ st <> TCreate)).
    { intros i c0 st. rewrite set_nth_get. destruct (Nat.eqb_spec t i) as [->|NE]; [rewrite N; intros [= <- <-]; auto|]. intros X. apply A6 in X as Y. right. split; [exact Y|]. intros ->.
      apply NE. assert (L1 : p_lock s = Some t) by (apply LK; eauto). assert (L2 : p_lock s = Some i) by (apply LK; eauto). congruence. }
    split; [intros i c0 st X; destruct (G _ _ _ X) as [->|(Y & Z)]; [reflexivity|destruct st; try exact Logic.I; try destruct Y; congruence]|].
    rewrite of_node_app, A4. cbn [of_node flat_map app]. constructor; cbn [dn_state dn_chan dn_callers map length].
    + split; reflexivity.
    + reflexivity.
    + constructor.
    + intros m [].
    + intros sid t1 [].
    + intros t1 c1 n X. destruct (G _ _ _ X) as [Y|(Y & _)]; [discriminate|destruct Y].
    + intros t1 c1 n X. destruct (G _ _ _ X) as [Y|(Y & _)]; [discriminate|destruct Y].
  - destruct (nth_error (p_calls s) t) as [[c [| |m|m|r0|]]|] eqn:N; try discriminate. destruct (nth_error (p_nodes s) m) as [d|] eqn:EN; [|discriminate]. destruct (node_zero _ _ _ _ V EN) as (-> & EN'). assert (V1 := nodes_ninv _ _ _ V EN').
    assert (SND : dn_state d <> Dead -> nodes_inv (h ++ []) (mkApp (p_lock s) (p_handle s) (set_nth (p_nodes s) 0 (mkNode (dn_state d) (dn_chan d ++ [message t c]) (dn_callers d))) (set_nth (p_calls s) t (c, TWait 0)))).
    { intros ND. rewrite app_nil_r. destruct V as [(A1 & A2 & _)|(d' & A1 & A2 & A3 & A4 & A5 & A6 & V)]; [congruence|]. assert (d' = d) by congruence. subst d'. right. eexists. cbn [p_handle p_nodes p_calls]. rewrite EN'. cbn [set_nth]. split; [exact A1|]. split; [reflexivity|].
      split; [exact A3|]. split; [exact A4|]. cbn [dn_callers]. split; [exact A5|]. split; [apply update_states; [exact A6|reflexivity]|]. apply ninv_send; auto. }
    destruct (dn_state d) as [? ?|a|] eqn:DS; [destruct (Nat.ltb _ _); [|discriminate]|destruct (Nat.ltb _ _); [|discriminate]|]; intros [= <- <-]; try (apply SND; discriminate).
    eapply nodes_put; [exact V|exact N|reflexivity|reflexivity|reflexivity| |auto| | |]; cbn [early here].
    + intros x [<-|[]]; eauto.
    + destruct c; exact Logic.I.
    + intros X. destruct V as [(A1 & A2 & _)|(d' & A1 & A2 & _)]; congruence.
    + auto.
  - destruct (nth_error (p_nodes s) n) as [d|] eqn:EN; [|discriminate]. destruct (node_zero _ _ _ _ V EN) as (-> & EN'). assert (V1 := nodes_ninv _ _ _ V EN'). pose proof (n_state _ _ _ _ V1) as ST. unfold state_inv in ST.
    destruct (dn_state d) as [id v6|a|] eqn:DS; try discriminate. destruct ST as (ST1 & ST2).
    assert (HI : history id v6 boot (actor_start id v6 boot) (of_node 0 h)) by (rewrite ST1; exists []; split; [constructor|reflexivity]).
    destruct (a_running (actor_start id v6 boot)) eqn:RU.
    + intros [= <- <-]. rewrite app_nil_r. destruct V as [(A1 & A2 & _)|(d' & A1 & A2 & A3 & A4 & A5 & A6 & V)]; [congruence|]. assert (d' = d) by congruence. subst d'. right. eexists. cbn [p_handle p_nodes p_calls]. rewrite EN'. cbn [set_nth]. split; [exact A1|]. split; [reflexivity|].
      split; [exact A3|]. split; [exact A4|]. cbn [dn_callers]. split; [exact A5|]. split; [exact A6|]. constructor; cbn [dn_state dn_chan dn_callers]; try apply V.
      * unfold state_inv. cbn [dn_state dn_callers]. split; [exact RU|]. rewrite ST2. split; [reflexivity|]. eauto.
      * intros sid t X. rewrite ST2 in X. destruct X.
      * intros t c n X. apply (n_wait _ _ _ _ V) in X. split; [discriminate|apply X].
    + intros [= E]. apply (nodes_dies h s d s' o [] V EN' E); [reflexivity|]. rewrite app_nil_r. eauto 6.
  - destruct (nth_error (p_nodes s) n) as [d|] eqn:EN; [|discriminate]. destruct (node_zero _ _ _ _ V EN) as (-> & EN'). assert (V1 := nodes_ninv _ _ _ V EN'). pose proof (n_state _ _ _ _ V1) as ST. unfold state_inv in ST.
    destruct (dn_state d) as [id v6|a|] eqn:DS; try discriminate. destruct ST as (ST1 & ST2 & id & v6 & boot & HI). destruct (dn_chan d) as [|[t hash|t] chan] eqn:CH; try discriminate.
    + destruct (astep a (ALookup hash oks)) as [[a1 o1]|] eqn:AS; [|discriminate]. destruct (acted s 0 a1 chan _ o1) as [s1 p1] eqn:E. intros [= <- <-].
      destruct (n_chan _ _ _ _ V1 (LookupPeers t hash)) as (c & st & N & EM & SS); [rewrite CH; left; reflexivity|]. cbn [caller] in *. destruct c as [hash'|]; [|discriminate]. injection EM as <-.
      destruct (lookup_frame _ _ _ _ _ AS) as (F1 & F2 & F3 & F4 & _ & o' & F5).
      assert (HI' : history id v6 boot a1 (of_node 0 h ++ o1)) by (eapply history_app; [exact HI| |exact AS]; cbn; eapply WF; eauto).
      change (OServe t 0 (a_next a) :: p1) with ([OServe t 0 (a_next a)] ++ p1). eapply nodes_acted; [exact V|exact EN'|exact E| | | | |].
      * intros x [<-|[]]; eauto.
      * rewrite skipn_app, Nat.sub_diag, skipn_all. reflexivity.
      * eauto.
      * intros sid. eapply at_most_once_all; eauto.
      * constructor; cbn [dn_state dn_chan dn_callers].
        -- unfold state_inv. cbn [dn_state dn_callers]. rewrite app_length. cbn [length]. split; [exact F2|]. split; [lia|]. eauto.
        -- rewrite map_app, app_length, (n_ids _ _ _ _ V1). cbn [map fst length]. rewrite Nat.add_1_r, seq_S, ST2. reflexivity.
        -- pose proof (n_nd _ _ _ _ V1) as ND. unfold fed in ND |- *. cbn [dn_callers dn_chan]. rewrite CH in ND. cbn [map caller] in ND. rewrite map_app, <- app_assoc. exact ND.
        -- intros m X. apply (n_chan _ _ _ _ V1). rewrite CH. right. exact X.
        -- intros sid t1 X. apply in_app_iff in X. destruct X as [X|[X|[]]].
           ++ destruct (n_call _ _ _ _ V1 _ _ X) as (hash1 & st1 & N1 & L1 & SV). exists hash1, st1. split; [exact N1|]. split; [apply in_or_app; auto|]. destruct st1 as [| |?|?|[?| | |]|]; cbn [served dn_state] in *; auto. congruence.
           ++ injection X as <- <-. exists hash, st. split; [exact N|]. split; [apply in_or_app; right; rewrite F5; left; reflexivity|]. destruct SS as [-> | ->]; cbn [served]; [|exact Logic.I]. eapply fresh_answers; eauto.
        -- intros t1 c1 n X. apply (n_wait _ _ _ _ V1) in X. split; [discriminate|]. destruct X as (_ & X). unfold fed in *. cbn [dn_callers dn_chan]. rewrite CH in X. cbn [map caller] in X. rewrite map_app, <- app_assoc. exact X.
        -- intros t1 c1 r X. apply (n_found _ _ _ _ V1) in X. rewrite map_app. apply in_or_app. auto.
    + destruct (astep a AShutdown) as [[a1 o1]|] eqn:AS; [|discriminate]. destruct (dies s 0 d) as [s1 p1] eqn:E. intros [= <- <-]. eapply nodes_dies; [exact V|exact EN'|exact E| |].
      * unfold astep in AS. destruct (a_running a); [|discriminate]. injection AS as _ <-. intros sid. apply flat_map_none. intros x X. apply in_map_iff in X. destruct X as (i & <- & _). reflexivity.
      * exists id, v6, boot, a1. split; [eapply history_app; [exact HI| |exact AS]; exact Logic.I|]. unfold astep in AS. destruct (a_running a); [|discriminate]. injection AS as <- _. reflexivity.
  - destruct (nth_error (p_nodes s) n) as [d|] eqn:EN; [|discriminate]. destruct (node_zero _ _ _ _ V EN) as (-> & EN'). assert (V1 := nodes_ninv _ _ _ V EN'). pose proof (n_state _ _ _ _ V1) as ST. unfold state_inv in ST.
    destruct (dn_state d) as [id v6|a|] eqn:DS; try discriminate. destruct ST as (ST1 & ST2 & id & v6 & boot & HI).
    assert (GO : is_net e -> forall a1 o1, astep a e = Some (a1, o1) -> acted s 0 a1 (dn_chan d) (dn_callers d) o1 = (s', o) -> nodes_inv (h ++ o) s').
    { intros NE a1 o1 AS E. destruct (net_frame _ _ _ _ NE AS) as (F1 & F2 & F3 & F4). assert (HI' : history id v6 boot a1 (of_node 0 h ++ o1)) by (eapply history_app; [exact HI| |exact AS]; destruct e; try destruct NE; exact Logic.I).
      apply (nodes_acted h s d a1 (dn_chan d) (dn_callers d) o1 [] s' o V EN' E).
      - intros x [].
      - rewrite skipn_all. reflexivity.
      - exists []. symmetry. apply app_nil_r.
      - intros sid. eapply at_most_once_all; eauto.
      - constructor; cbn [dn_state dn_chan dn_callers]; try apply V1.
        + unfold state_inv. cbn [dn_state dn_callers]. split; [exact F2|]. split; [congruence|]. eauto.
        + intros sid t X. destruct (n_call _ _ _ _ V1 _ _ X) as (hash1 & st1 & N1 & L1 & SV). exists hash1, st1. split; [exact N1|]. split; [apply in_or_app; auto|]. destruct st1 as [| |?|?|[?| | |]|]; cbn [served dn_state] in *; auto. congruence.
        + intros t c1 n X. apply (n_wait _ _ _ _ V1) in X. split; [discriminate|apply X]. }
    destruct e as [? ?| |from msg pick oks|k pick]; try discriminate; (destruct (astep a _) as [[a1 o1]|] eqn:AS; [|discriminate]; intros [= E]; eapply GO; [exact Logic.I|reflexivity|exact E]).
  - destruct (nth_error (p_calls s) t) as [[c [| |m|m|r0|]]|] eqn:N; try discriminate; intros [= <- <-]; (eapply nodes_put; [exact V|exact N|reflexivity|reflexivity|reflexivity| |auto|exact Logic.I| |]; cbn [early here]; auto; intros x []).
Qed.
