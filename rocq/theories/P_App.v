(** Proofs for the shared DHT node: frames of the actor's steps. *)
From Verif Require Import Base M_Net M_DhtMsg M_Dht S_Dht M_App S_App P_Dht P_Dht2 P_Dht3 P_Dht4 P_Dht5 P_Dht6.
Local Open Scope nat_scope.

Lemma key_insert_length k l : length (key_insert k l) <= S (length l).
Proof. unfold key_insert. destruct (key_mem k l); [lia|]. rewrite app_length. cbn. lia. Qed.
Definition same (a a' : actor) : Prop := a_next a' = a_next a /\ a_boot a' = a_boot a /\ a_running a' = a_running a.
Lemma send_all_frame sid : forall qs a oks a' o, send_all a sid qs oks = (a', o) -> same a a' /\ length (a_timers a') <= length (a_timers a) + length qs.
Proof.
  induction qs as [|[addr q] qs IH]; intros a oks a' o; cbn [send_all].
  - intros [= <- <-]. split; [repeat split|cbn; lia].
  - destruct (send_query a sid addr q _) as [a1 o1] eqn:E1. destruct (send_all a1 sid qs (tl oks)) as [a2 o2] eqn:E2. intros [= <- <-].
    destruct (IH _ _ _ _ E2) as ((A & B & C) & D). unfold send_query in E1. injection E1 as E1 _. cbn [length].
    match type of E1 with (if ?c then _ else _) = _ => destruct c end.
    + subst a1. cbn [a_next a_boot a_running a_timers] in *. pose proof (key_insert_length (addr, gq_txn q) (a_timers a)). unfold same. repeat split; try congruence. lia.
    + destruct (ses_get (a_sessions a) sid); subst a1; cbn [with_sessions a_next a_boot a_running a_timers] in *; unfold same; repeat split; try congruence; lia.
Qed.
Lemma postprocess_frame a sid a' o : postprocess a sid = (a', o) -> same a a' /\ a_timers a' = a_timers a.
Proof.
  unfold postprocess. destruct (ses_get (a_sessions a) sid) as [s0|]; [|intros [= <- <-]; repeat split]. destruct (get_result s0); intros [= <- <-]; repeat split.
Qed.
Lemma outgoing_length s : forall addrs t fl fl' t' qs, outgoing_go s addrs t fl = (fl', t', qs) -> length qs = length addrs.
Proof.
  induction addrs as [|x addrs IH]; intros t fl fl' t' qs; cbn [outgoing_go]; [intros [= <- <- <-]; reflexivity|].
  destruct (outgoing_go s addrs _ _) as [[f1 t1] q1] eqn:E. intros [= <- <- <-]. cbn [length]. rewrite (IH _ _ _ _ _ E). reflexivity.
Qed.
Lemma send_outgoing_frame a sid s oks a' o : send_outgoing a sid s oks = (a', o) ->
  same a a' /\ length (a_timers a') <= length (a_timers a) + length (ls_to_query s).
Proof.
  unfold send_outgoing, get_outgoing. destruct (outgoing_go s (ls_to_query s) (a_txn a) (ls_in_flight s)) as [[f1 t1] q1] eqn:E.
  match goal with |- context [send_all ?z sid q1 oks] => destruct (send_all z sid q1 oks) as [a2 o2] eqn:E2 end. destruct (postprocess a2 sid) as [a3 o3] eqn:E3. intros [= <- <-].
  apply outgoing_length in E. destruct (send_all_frame _ _ _ _ _ _ E2) as ((A & B & C) & D). destruct (postprocess_frame _ _ _ _ E3) as ((A' & B' & C') & D'). cbn [a_next a_boot a_running a_timers] in *.
  unfold same. split; [repeat split; congruence|]. rewrite D', <- E. exact D.
Qed.
Definition is_net (e : aev) : Prop := match e with ADatagram _ _ _ _ | ATimeout _ _ => True | _ => False end.
Lemma lookup_frame a hash oks a' o : astep a (ALookup hash oks) = Some (a', o) ->
  a_running a = true /\ a_running a' = true /\ a_next a' = S (a_next a) /\ a_boot a' = a_boot a /\ length (a_timers a') <= length (a_timers a) + length (a_boot a) /\
  exists o', o = OLookup (a_next a) hash :: o'.
Proof.
  unfold astep. destruct (a_running a) eqn:R; [|discriminate]. match goal with |- context [send_outgoing ?x ?y ?z oks] => destruct (send_outgoing x y z oks) as [a2 o2] eqn:E end.
  intros [= <- <-]. destruct (send_outgoing_frame _ _ _ _ _ _ E) as ((A & B & C) & D). cbn [a_next a_boot a_running a_timers session_new ls_to_query] in *. try rewrite R in C. repeat split; eauto.
Qed.
Lemma lookup_possible a hash oks : a_running a = true -> exists a' o, astep a (ALookup hash oks) = Some (a', o).
Proof. intros R. unfold astep. rewrite R. match goal with |- context [send_outgoing ?x ?y ?z oks] => destruct (send_outgoing x y z oks) as [a2 o2] end. eauto. Qed.
Lemma net_frame a e a' o : is_net e -> astep a e = Some (a', o) -> a_running a = true /\ a_running a' = true /\ a_next a' = a_next a /\ a_boot a' = a_boot a.
Proof.
  intros N. destruct e as [? ?| |from msg pick oks|k pick]; try destruct N; unfold astep; destruct (a_running a) eqn:R; try discriminate.
  - destruct (prescan msg) as [[txn [| |]]|]; try (destruct pick; [discriminate|]; intros [= <- <-]; auto); (destruct pick as [sid|];
      [destruct (ses_get (a_sessions a) sid) as [s|]; [|discriminate]; destruct (session_message s from txn msg) as [[s1 r]|]; [|discriminate];
       match goal with |- context [send_outgoing ?x ?y ?z oks] => destruct (send_outgoing x y z oks) as [a2 o2] eqn:E end; intros [= <- <-];
       destruct (send_outgoing_frame _ _ _ _ _ _ E) as ((A & B & C) & D); cbn [with_sessions a_next a_boot a_running] in *; try rewrite R in C; auto
      |destruct (existsb _ _); [discriminate|]; intros [= <- <-]; auto]).
  - destruct (key_mem k (a_timers a)); [|discriminate]. destruct pick as [sid|].
    + destruct (ses_get (a_sessions a) sid) as [s|]; [|discriminate]. destruct (session_timeout s k) as [s1|]; [|discriminate].
      match goal with |- context [postprocess ?x ?y] => destruct (postprocess x y) as [a2 o2] eqn:E end. intros [= <- <-]. destruct (postprocess_frame _ _ _ _ E) as ((A & B & C) & D).
      cbn [with_sessions a_next a_boot a_running] in *. auto.
    + destruct (existsb _ _); [discriminate|]. intros [= <- <-]. auto.
Qed.
Lemma net_no_lookup a e a' o : is_net e -> astep a e = Some (a', o) -> forall sid hash, ~ In (OLookup sid hash) o.
Proof.
  intros N E sid hash X. destruct e as [? ?| |from msg pick oks|k pick]; try destruct N; unfold astep in E; destruct (a_running a) eqn:R; try discriminate.
  - destruct (prescan msg) as [[txn [| |]]|]; try (destruct pick; [discriminate|]; injection E as _ <-; exact X); (destruct pick as [i|];
      [destruct (ses_get (a_sessions a) i) as [s|]; [|discriminate]; destruct (session_message s from txn msg) as [[s1 r]|]; [|discriminate];
       match type of E with context [send_outgoing ?x ?y ?z oks] => destruct (send_outgoing x y z oks) as [a2 o2] eqn:E2 end; injection E as _ <-;
       destruct X as [X|X]; [discriminate|]; exact (send_outgoing_kinds _ _ _ _ _ _ E2 _ X)
      |destruct (existsb _ _); [discriminate|]; injection E as _ <-; exact X]).
  - destruct (key_mem k (a_timers a)); [|discriminate]. destruct pick as [i|].
    + destruct (ses_get (a_sessions a) i) as [s|]; [|discriminate]. destruct (session_timeout s k) as [s1|]; [|discriminate].
      match type of E with context [postprocess ?x ?y] => destruct (postprocess x y) as [a2 o2] eqn:E2 end. injection E as _ <-. destruct X as [X|X]; [discriminate|].
      apply (postprocess_kinds _ _ _ _ E2) in X. exact X.
    + destruct (existsb _ _); [discriminate|]. injection E as _ <-. exact X.
Qed.

Lemma set_nth_length {A} : forall (l : list A) i x, length (set_nth l i x) = length l.
Proof. induction l as [|y l IH]; intros [|i] x; cbn [set_nth length]; auto. Qed.
Lemma set_nth_get {A} : forall (l : list A) i x j, nth_error (set_nth l i x) j = if Nat.eqb i j then match nth_error l i with Some _ => Some x | None => None end else nth_error l j.
Proof.
  induction l as [|y l IH]; intros [|i] x [|j]; cbn [set_nth nth_error Nat.eqb]; auto.
  - destruct (Nat.eqb i j); reflexivity.
Qed.
Lemma set_nth_same {A} (l : list A) i x y : nth_error l i = Some y -> nth_error (set_nth l i x) i = Some x.
Proof. intros E. rewrite set_nth_get, Nat.eqb_refl, E. reflexivity. Qed.
Lemma set_nth_other {A} (l : list A) i x j : i <> j -> nth_error (set_nth l i x) j = nth_error l j.
Proof. intros E. rewrite set_nth_get. destruct (Nat.eqb_spec i j); congruence. Qed.

Lemma of_node_app n h o : of_node n (h ++ o) = of_node n h ++ of_node n o.
Proof. unfold of_node. apply flat_map_app. Qed.
Lemma created_app h o : created (h ++ o) = created h ++ created o.
Proof. unfold created. apply flat_map_app. Qed.
Lemma results_app h o t : results (h ++ o) t = results h t ++ results o t.
Proof. unfold results. apply flat_map_app. Qed.
Lemma of_node_dht n o : of_node n (map (ODht n) o) = o.
Proof. unfold of_node. induction o as [|x o IH]; cbn [map flat_map]; [reflexivity|]. rewrite Nat.eqb_refl, IH. reflexivity. Qed.
Lemma results_dht n o t : results (map (ODht n) o) t = [].
Proof. unfold results. induction o as [|x o IH]; [reflexivity|exact IH]. Qed.
Lemma created_dht n o : created (map (ODht n) o) = [].
Proof. unfold created. induction o as [|x o IH]; [reflexivity|exact IH]. Qed.
Lemma prun_app l l' : forall s, prun s (l ++ l') = match prun s l with Some (s1, o1) => match prun s1 l' with Some (s2, o2) => Some (s2, o1 ++ o2) | None => None end | None => None end.
Proof.
  induction l as [|e l IH]; intros s; cbn [app prun]; [destruct (prun s l') as [[? ?]|]; reflexivity|]. destruct (pstep s e) as [[s1 o1]|]; [|reflexivity].
  rewrite IH. destruct (prun s1 l) as [[s2 o2]|]; [|reflexivity]. destruct (prun s2 l') as [[s3 o3]|]; [|reflexivity]. rewrite app_assoc. reflexivity.
Qed.
