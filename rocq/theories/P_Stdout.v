From Verif Require Import Base BaseFacts M_Net M_Tracker M_Http M_Session M_Mse M_Config M_Magnet M_DhtMsg M_Dht S_Dht M_App S_App M_Announce S_Announce P_Announce P_Announce2 M_Get M_GetDht S_GetDht
  M_Commands M_Commands2 S_Commands S_Commands2 P_Commands P_Commands3 M_Stdout.

Lemma printed_lines lines : forall room, print_lines room lines =
  match room with
  | Some n => if n <? blen (concat lines) then (takeN n (concat lines), Panic) else (concat lines, Ret tt)
  | None => (concat lines, Ret tt)
  end.
Proof.
  induction lines as [|b rest IH]; intros [n|]; cbn [print_lines concat].
  - destruct n; reflexivity.
  - reflexivity.
  - rewrite IH. assert (LB : blen (b ++ concat rest) = blen b + blen (concat rest)) by (unfold blen; rewrite app_length; lia). rewrite LB.
    destruct (N.ltb_spec n (blen b)) as [L|L].
    + destruct (N.ltb_spec n (blen b + blen (concat rest))) as [L'|L']; [|lia]. f_equal. unfold takeN. unfold blen in L. rewrite firstn_app. replace (N.to_nat n - length b)%nat with 0%nat by lia. cbn [firstn]. now rewrite app_nil_r.
    + destruct (N.ltb_spec (n - blen b) (blen (concat rest))) as [L2|L2], (N.ltb_spec n (blen b + blen (concat rest))) as [L'|L']; try lia; f_equal.
      unfold takeN. unfold blen in L |- *. rewrite firstn_app. rewrite (firstn_all2 (n := N.to_nat n) b) by lia. do 2 f_equal. lia.
  - rewrite IH. reflexivity.
Qed.
Lemma printed_peers room json ps : print_peers room json ps =
  match room with
  | Some n => if n <? blen (listing json ps) then (takeN n (listing json ps), Panic) else (listing json ps, Ret true)
  | None => (listing json ps, Ret true)
  end.
Proof. unfold print_peers. rewrite printed_lines. change (concat (map (peer_line json) ps)) with (listing json ps). destruct room as [n|]; [destruct (n <? _)|]; reflexivity. Qed.

(** Both commands are those of M_Commands2 with their output cut short. *)
Definition cut_short (room : option N) (out : bytes) (ok : bool) : bytes * outcome bool :=
  match room with
  | Some n => if n <? blen out then (takeN n out, Panic) else (out, Ret ok)
  | None => (out, Ret ok)
  end.
Lemma cut_none room : cut_short room [] false = ([], Ret false).
Proof. destruct room as [[|n]|]; reflexivity. Qed.
Lemma qt_cut room cfg pid key port json rq sp no ih tr n l stop out ok :
  query_tracker_cmd cfg pid key port json rq sp no ih tr n = (l, stop, out, ok) ->
  query_tracker_run room cfg pid key port json rq sp no ih tr n = (l, stop, fst (cut_short room out ok), snd (cut_short room out ok)).
Proof.
  unfold query_tracker_cmd, query_tracker, query_tracker_run. destruct (getter_run _ _ _ _) as [[[l0 stop0] t] [ps|e]]; intros X; injection X as <- <- <- <-.
  - rewrite printed_peers. unfold cut_short. destruct room as [m|]; [destruct (m <? _)|]; reflexivity.
  - rewrite cut_none. reflexivity.
Qed.
Lemma qd_cut room json r out ok : query_dht_cmd json r = (out, ok) -> query_dht_run room json r = cut_short room out ok.
Proof.
  unfold query_dht_cmd, query_dht, query_dht_run. destruct r as [f| | |]; try (intros X; injection X as <- <-; rewrite cut_none; reflexivity).
  destruct (fp_peers f) as [|p ps]; intros X; injection X as <- <-; [rewrite cut_none; reflexivity|]. rewrite printed_peers. reflexivity.
Qed.
Lemma cut_cases room full ok : (cut_short room full ok = (full, Ret ok) /\ forall n, room = Some n -> blen full <= n) \/
  (exists n, room = Some n /\ n < blen full /\ cut_short room full ok = (takeN n full, Panic)).
Proof.
  unfold cut_short. destruct room as [n|]; [|left; split; [reflexivity|discriminate]]. destruct (N.ltb_spec n (blen full)) as [L|L].
  - right. exists n. auto.
  - left. split; [reflexivity|]. intros ? [= <-]. exact L.
Qed.

Lemma qt_run room cfg pid key port json rq sp no ih tr n l stop out r : in_order n ->
  query_tracker_run room cfg pid key port json rq sp no ih tr n = (l, stop, out, r) ->
  let a := told_by_query cfg pid key port rq sp no ih in
  (r = Ret false -> out = []) /\
  (r <> Ret false -> l = [a] /\ stop = Some (mkAnn ih pid 0 65535 0 EvStopped key (c_numwant cfg) port (an_crypto a)) /\
     exists t rp full, answered tr a n t rp /\ t <= ns (c_announce_timeout cfg) /\ lists json full (ar_peers rp) /\
       ((r = Ret true /\ out = full /\ forall m, room = Some m -> blen full <= m) \/
        (r = Panic /\ exists m, room = Some m /\ m < blen full /\ out = takeN m full))).
Proof.
  intros IO H. cbv zeta. destruct (query_tracker_cmd cfg pid key port json rq sp no ih tr n) as [[[l0 stop0] full] ok] eqn:Q. rewrite (qt_cut room _ _ _ _ _ _ _ _ _ _ _ _ _ _ _ Q) in H. injection H as <- <- HO HR.
  destruct ok.
  - destruct (qt_answered _ _ _ _ _ _ _ _ _ _ _ IO _ _ _ Q) as (EL & ES & t & rp & A & T & LS). destruct (cut_cases room full true) as [(C & F)|(m & EM & LM & C)]; rewrite C in HO, HR; cbn [fst snd] in HO, HR; subst out r.
    + split; [discriminate|]. intros _. split; [exact EL|]. split; [exact ES|]. exists t, rp, full. split; [exact A|]. split; [exact T|]. split; [exact LS|]. left. auto.
    + split; [discriminate|]. intros _. split; [exact EL|]. split; [exact ES|]. exists t, rp, full. split; [exact A|]. split; [exact T|]. split; [exact LS|]. right. split; [reflexivity|]. eauto.
  - assert (E : full = []). { unfold query_tracker_cmd, query_tracker in Q. destruct (getter_run _ _ _ _) as [[[? ?] ?] [?|?]]; congruence. }
    subst full. rewrite cut_none in HO, HR. cbn [fst snd] in HO, HR. subst. split; [auto|]. intros X. destruct (X eq_refl).
Qed.
Lemma qt_prints room cfg pid key port json rq sp no ih tr n t rp : in_order n ->
  let a := told_by_query cfg pid key port rq sp no ih in
  answers tr a n t rp -> t <= ns (c_announce_timeout cfg) ->
  exists l stop full, lists json full (ar_peers rp) /\
    ((forall m, room = Some m -> blen full <= m) -> query_tracker_run room cfg pid key port json rq sp no ih tr n = (l, stop, full, Ret true)) /\
    (forall m, room = Some m -> m < blen full -> query_tracker_run room cfg pid key port json rq sp no ih tr n = (l, stop, takeN m full, Panic)).
Proof.
  intros IO a A T. destruct (qt_answers cfg pid key port json rq sp no ih tr n IO t rp A T) as (full & Q & LS). eexists _, _, full. split; [exact LS|].
  rewrite (qt_cut room _ _ _ _ _ _ _ _ _ _ _ _ _ _ _ Q). unfold cut_short. split.
  - intros F. destruct room as [m|]; [|reflexivity]. destruct (N.ltb_spec m (blen full)) as [L|L]; [|reflexivity]. pose proof (F _ eq_refl). lia.
  - intros m -> L. destruct (N.ltb_spec m (blen full)) as [L'|L']; [reflexivity|lia].
Qed.
Lemma qd_run l s h t ih x room json out r : Forall wf_pev l -> prun app_new l = Some (s, h) -> In (OBegin t (CLookup ih)) h -> In (OReturn t x) h ->
  query_dht_run room json x = (out, r) ->
  (r = Ret false -> out = []) /\
  (r <> Ret false -> exists n sid ps full, In (OServe t n sid) h /\ lists json full ps /\ ps <> [] /\ NoDup (map pr_addr ps) /\ (forall p, In p ps <-> named h n sid ih p) /\
     ((r = Ret true /\ out = full /\ forall m, room = Some m -> blen full <= m) \/
      (r = Panic /\ exists m, room = Some m /\ m < blen full /\ out = takeN m full))).
Proof.
  intros W R B RT H. destruct (query_dht_cmd json x) as [full ok] eqn:Q. rewrite (qd_cut _ _ _ _ _ Q) in H. destruct (qd_node _ _ _ _ _ _ _ _ _ W R B RT Q) as (Y & N). destruct ok.
  - destruct (Y eq_refl) as (n & sid & ps & SV & LS & NE & ND & NM). destruct (cut_cases room full true) as [(C & F)|(m & EM & LM & C)]; rewrite C in H; injection H as <- <-.
    + split; [discriminate|]. intros _. exists n, sid, ps, full. repeat (split; [assumption|]). left. auto.
    + split; [discriminate|]. intros _. exists n, sid, ps, full. repeat (split; [assumption|]). right. split; [reflexivity|]. eauto.
  - destruct (N eq_refl) as (-> & _). rewrite cut_none in H. injection H as <- <-. split; [auto|]. intros X. destruct (X eq_refl).
Qed.

(** *** The process that ends by a panic *)
From Verif Require Import M_Async M_Process P_Process.
Lemma panic_crashed cfg pid key port l s h : zrun cfg pid key port z_new l = Some (s, h) -> (forall t, In (t, OPanic) h -> z_stage s = Crashed) /\ (forall t ok, In (t, OExit ok) h -> z_stage s = Exited ok).
Proof.
  apply (run_ind cfg pid key port (fun _ h s => (forall t, In (t, OPanic) h -> z_stage s = Crashed) /\ (forall t ok, In (t, OExit ok) h -> z_stage s = Exited ok))).
  - split; intros; contradiction.
  - clear l s h. intros l h s e s' o R (I1 & I2) EX E REL. split.
    + intros t X. apply in_app_or in X. destruct X as [X|X]; [apply I1 in X; unfold exited in EX; rewrite X in EX; discriminate|].
      destruct REL; cbn [In] in X; repeat (destruct X as [X|X]; [discriminate X|]); try contradiction X; try reflexivity.
      apply in_map_iff in X. destruct X as (y & X & _). discriminate X.
    + intros t ok X. apply in_app_or in X. destruct X as [X|X]; [apply I2 in X; unfold exited in EX; rewrite X in EX; discriminate|].
      destruct REL; cbn [In] in X; try (repeat (destruct X as [X|X]; [discriminate X|]); contradiction X).
      * apply in_map_iff in X. destruct X as (y & X & _). discriminate X.
      * destruct X as [X|X]; [|contradiction X]. injection X as _ <-. reflexivity.
Qed.
Lemma panic_alone cfg pid key port l s h t : main_run (Some cfg) pid key port l = Some (s, h) -> In (t, OPanic) h -> (forall t' ok, ~ In (t', OEnd ok) h) /\ (forall t' ok, ~ In (t', OExit ok) h).
Proof.
  intros R X. destruct (panic_crashed _ _ _ _ _ _ _ R) as (P1 & P2). apply P1 in X. assert (SG := z_staged _ _ _ (zinv_run _ _ _ _ _ _ _ R)). unfold stage_inv in SG. rewrite X in SG.
  split; [exact (proj2 (proj2 SG))|]. intros t' ok Y. apply P2 in Y. congruence.
Qed.
