(** Proofs for the shared DHT node: why a lookup fails. *)
From Verif Require Import Base M_Net M_DhtMsg M_Dht S_Dht M_App S_App P_Dht2 P_App P_App2 P_App3 P_App4 P_App5 P_App6 P_App7.
Local Open Scope nat_scope.

Definition failed_in (o : list pobs) : Prop := exists t, In (OReturn t HandleFailed) o.
Lemma why_step l h s e s' o : pinv l h s -> pstep s e = Some (s', o) -> failed_in o \/ ended s' -> ended s \/ (exists n, e = PResolve n []) \/ exists t, In (OBegin t CShutdown) h.
Proof.
  intros V E X. destruct e as [c|i|i r|i|n boot|n oks|n e|i]; cbn [pstep] in E.
  - injection E as <- <-. destruct X as [(t & [X|[]])|X]; [discriminate|]. left. exact X.
  - destruct (p_lock s); [discriminate|]. destruct (nth_error (p_calls s) i) as [[c [| |m|m|r0|]]|] eqn:N; try discriminate.
    destruct c as [hash|], (p_handle s) as [n|] eqn:PH; injection E as <- <-; (destruct X as [(t & X)|X]; [destruct X; try discriminate; destruct H|left; exact X]).
  - destruct (nth_error (p_calls s) i) as [[c [| |m|m|r0|]]|] eqn:N; try discriminate. destruct r as [[id v6]|]; injection E as <- <-; (destruct X as [(t & [X|[]])|X]; [discriminate|]).
    + destruct X as (d & X & Y). cbn [p_nodes] in X. destruct (p_nodes s) as [|d0 [|]]; try discriminate. injection X as <-. discriminate Y.
    + left. exact X.
  - destruct (nth_error (p_calls s) i) as [[c [| |m|m|r0|]]|] eqn:N; try discriminate. destruct (nth_error (p_nodes s) m) as [d|] eqn:EN; [|discriminate]. destruct (node_zero _ _ _ _ (v_nodes _ _ _ V) EN) as (-> & EN').
    destruct (dn_state d) as [? ?|a|] eqn:DS; [destruct (Nat.ltb _ _); [|discriminate]|destruct (Nat.ltb _ _); [|discriminate]|left; exists d; auto]; injection E as <- <-; (destruct X as [(t & [])|(d' & X & Y)]; cbn [p_nodes] in X; rewrite EN' in X; injection X as <-; discriminate Y).
  - destruct (nth_error (p_nodes s) n) as [d|] eqn:EN; [|discriminate]. destruct (node_zero _ _ _ _ (v_nodes _ _ _ V) EN) as (-> & EN'). destruct (dn_state d) as [id v6|a|] eqn:DS; try discriminate. destruct boot as [|b boot]; [right; left; eauto|]. cbn [actor_start a_running] in E.
    injection E as <- <-. destruct X as [(t & [])|(d' & X & Y)]. cbn [p_nodes] in X. rewrite EN' in X. injection X as <-. discriminate Y.
  - destruct (nth_error (p_nodes s) n) as [d|] eqn:EN; [|discriminate]. destruct (node_zero _ _ _ _ (v_nodes _ _ _ V) EN) as (-> & EN'). destruct (dn_state d) as [id v6|a|] eqn:DS; try discriminate. destruct (dn_chan d) as [|[i hash|i] chan] eqn:CH; try discriminate.
    + destruct (astep a (ALookup hash oks)) as [[a1 o1]|]; [|discriminate]. destruct (acted s 0 a1 chan _ o1) as [s1 p1] eqn:E1. injection E as <- <-. exfalso. destruct X as [(t & X)|(d' & X & Y)].
      * destruct X as [X|X]; [discriminate|]. apply (acted_obs _ _ _ _ _ _ _ _ E1) in X. destruct X as [(y & _ & X)|(? & ? & X)]; discriminate.
      * apply (acted_frame 0) in E1. destruct E1 as (_ & E1). rewrite E1, EN' in X. injection X as <-. discriminate Y.
    + right. right. exists i. destruct (n_chan _ _ _ _ (nodes_ninv _ _ _ (v_nodes _ _ _ V) EN') (ShutdownMsg i)) as (c & st & N & M & _); [rewrite CH; left; reflexivity|]. cbn [caller] in *. destruct c; [discriminate|]. apply (proj1 (v_calls _ _ _ V)). eauto.
  - destruct (nth_error (p_nodes s) n) as [d|] eqn:EN; [|discriminate]. destruct (node_zero _ _ _ _ (v_nodes _ _ _ V) EN) as (-> & EN'). destruct (dn_state d) as [id v6|a|] eqn:DS; try discriminate.
    exfalso. destruct e as [? ?| |from msg pick oks|k pick]; try discriminate; (destruct (astep a _) as [[a1 o1]|]; [|discriminate]; injection E as E1; destruct X as [(t & X)|(d' & X & Y)];
      [apply (acted_obs _ _ _ _ _ _ _ _ E1) in X; destruct X as [(y & _ & X)|(? & ? & X)]; discriminate|apply (acted_frame 0) in E1; destruct E1 as (_ & E1); rewrite E1, EN' in X; injection X as <-; discriminate Y]).
  - destruct (nth_error (p_calls s) i) as [[c [| |m|m|r0|]]|] eqn:N; try discriminate; injection E as <- <-; (destruct X as [(t & [])|X]; left; exact X).
Qed.
Lemma why_run : forall l' l h s s' o, pinv l h s -> Forall wf_pev l' -> prun s l' = Some (s', o) -> failed_in o \/ ended s' -> ended s \/ (exists n, In (PResolve n []) l') \/ exists t, In (OBegin t CShutdown) (h ++ o).
Proof.
  induction l' as [|e l' IH]; intros l h s s' o V W; cbn [prun]; [intros [= <- <-] [(t & [])|X]; auto|]. inversion W as [|? ? W1 W2]; subst.
  destruct (pstep s e) as [[s1 o1]|] eqn:E; [|discriminate]. destruct (prun s1 l') as [[s2 o2]|] eqn:R; [|discriminate]. intros [= <- <-] X. assert (V1 := pinv_step _ _ _ _ _ _ V W1 E).
  assert (K : failed_in o1 \/ ended s1 -> ended s \/ (exists n, In (PResolve n []) (e :: l')) \/ exists t, In (OBegin t CShutdown) (h ++ o1 ++ o2)).
  { intros Y. destruct (why_step _ _ _ _ _ _ V E Y) as [A|[(n & ->)|(t & A)]]; [auto| |]; right; [left|right]; [exists n; left; reflexivity|exists t; apply in_or_app; auto]. }
  assert (G : failed_in o1 \/ failed_in o2 \/ ended s2).
  { destruct X as [(t & X)|X]; [|auto]. apply in_app_iff in X. destruct X as [X|X]; [left|right; left]; exists t; exact X. }
  destruct G as [G|G]; [auto|]. destruct (IH _ _ _ _ _ V1 W2 R G) as [A|[(n & A)|(t & A)]]; [auto| |]; right; [left; exists n; right; exact A|right; exists t; rewrite app_assoc; exact A].
Qed.
Lemma create_step s e s' o t : pstep s e = Some (s', o) -> In (OReturn t CreateFailed) o -> e = PCreate t None.
Proof.
  intros E X. assert (DE : forall n d s1 p1, dies s n d = (s1, p1) -> In (OReturn t CreateFailed) p1 -> False).
  { intros n d s1 p1 D Y. apply dies_calls in D. destruct D as (_ & _ & _ & R & _). apply in_results in Y. rewrite R in Y. destruct (nth_error (p_calls s) t) as [[c st]|]; [|destruct Y]. destruct (no_wait_change n (c, st)) as [r|] eqn:W; [|destruct Y].
    destruct Y as [->|[]]. destruct st; try discriminate. cbn in W. destruct (Nat.eqb n0 n); [|discriminate]. destruct c; discriminate. }
  destruct e as [c|i|i r|i|n boot|n oks|n e|i]; cbn [pstep] in E.
  - injection E as <- <-. destruct X as [X|[]]. discriminate.
  - destruct (p_lock s); [discriminate|]. destruct (nth_error (p_calls s) i) as [[c [| |m|m|r0|]]|] eqn:N; try discriminate. destruct c as [hash|], (p_handle s) as [n|] eqn:PH; injection E as <- <-; try (destruct X; fail). destruct X as [X|[]]. discriminate.
  - destruct (nth_error (p_calls s) i) as [[c [| |m|m|r0|]]|] eqn:N; try discriminate. destruct r as [[id v6]|]; injection E as <- <-; destruct X as [X|[]]; [discriminate|]. injection X as ->. reflexivity.
  - destruct (nth_error (p_calls s) i) as [[c [| |m|m|r0|]]|] eqn:N; try discriminate. destruct (nth_error (p_nodes s) m) as [d|] eqn:EN; [|discriminate].
    destruct (dn_state d) as [? ?|a|] eqn:DS; [destruct (Nat.ltb _ _); [|discriminate]|destruct (Nat.ltb _ _); [|discriminate]|]; injection E as <- <-; try (destruct X; fail). destruct X as [X|[]]. destruct c; discriminate.
  - destruct (nth_error (p_nodes s) n) as [d|] eqn:EN; [|discriminate]. destruct (dn_state d) as [id v6|a|] eqn:DS; try discriminate. destruct (a_running _); [injection E as <- <-; destruct X|]. destruct (dies s n d) as [s1 p1] eqn:E1. injection E as <- <-. destruct (DE _ _ _ _ E1 X).
  - destruct (nth_error (p_nodes s) n) as [d|] eqn:EN; [|discriminate]. destruct (dn_state d) as [id v6|a|] eqn:DS; try discriminate. destruct (dn_chan d) as [|[i hash|i] chan] eqn:CH; try discriminate.
    + destruct (astep a (ALookup hash oks)) as [[a1 o1]|]; [|discriminate]. destruct (acted s n a1 chan _ o1) as [s1 p1] eqn:E1. injection E as <- <-. destruct X as [X|X]; [discriminate|]. apply (acted_obs _ _ _ _ _ _ _ _ E1) in X. destruct X as [(y & _ & X)|(? & ? & X)]; discriminate.
    + destruct (astep a AShutdown) as [[a1 o1]|] eqn:AS; [|discriminate]. destruct (dies s n d) as [s1 p1] eqn:E1. injection E as <- <-. apply in_app_iff in X. destruct X as [X|X]; [apply in_map_iff in X; destruct X as (y & X & _); discriminate|]. destruct (DE _ _ _ _ E1 X).
  - destruct (nth_error (p_nodes s) n) as [d|] eqn:EN; [|discriminate]. destruct (dn_state d) as [id v6|a|] eqn:DS; try discriminate.
    destruct e as [? ?| |from msg pick oks|k pick]; try discriminate; (destruct (astep a _) as [[a1 o1]|]; [|discriminate]; injection E as E1; apply (acted_obs _ _ _ _ _ _ _ _ E1) in X; destruct X as [(y & _ & X)|(? & ? & X)]; discriminate).
  - destruct (nth_error (p_calls s) i) as [[c [| |m|m|r0|]]|] eqn:N; try discriminate; injection E as <- <-; destruct X.
Qed.
Lemma reasons l s h t : Forall wf_pev l -> prun app_new l = Some (s, h) ->
  (In (OReturn t CreateFailed) h -> In (PCreate t None) l) /\
  (In (OReturn t HandleFailed) h -> (exists n, In (PResolve n []) l) \/ exists t', In (OBegin t' CShutdown) h).
Proof.
  intros W R. split; intros X.
  - apply in_split in X. destruct X as (h1 & h2 & EH). destruct (run_at l [] [] app_new s h _ _ _ pinv_start W R EH) as (la & e & lb & sa & ha & sb & o1 & o2 & hb & -> & A1 & A2 & A3 & _ & _). apply create_step with (t := t) in A2; [|apply in_or_app; right; left; reflexivity].
    subst e. apply in_or_app. right. left. reflexivity.
  - destruct (why_run l [] [] app_new s h pinv_start W R (or_introl (ex_intro _ t X))) as [(d & A & _)|A]; [discriminate|exact A].
Qed.
